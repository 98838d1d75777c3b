(* Args.v -- mau/parsers/arguments_parser.py *)
From Verif Require Export Preproc NodeArgs.

(* ValueNodes: a value and the context of the node, kept as TEXT tokens. *)
Definition vnode (v : str) (c : context) : token := mkToken T_TEXT v c.

(* arguments_parser.py:21-53 the parser's state while parsing *)
Record ap_state := mkAp { ap_on : bool; ap_unnamed : list token; ap_named : dict token }.
Definition ap_init : ap_state := mkAp false [] [].

Definition Q : str := [QUOTE].
Definition comma_tok : token := generate T_LITERAL (lit ",").
Definition quote_tok : token := generate T_LITERAL Q.

(* arguments_parser.py:74-97 and 129-152: the value, quoted or not, then the comma
   and the space after it, which may be missing *)
Definition ap_value : P ap_state token :=
  let* quoted := is_tv T_LITERAL Q in
  let* t := (if quoted : bool then
               get_tv T_LITERAL Q ;;;
               let* t := pcollect_join [quote_tok] [] false in
               get_tv T_LITERAL Q ;;; pret t
             else pcollect_join [comma_tok] [] false) in
  pwith (get_tv T_LITERAL (lit ",")) ;;;
  pwith (get_ty T_WHITESPACE) ;;;
  pret t.

(* arguments_parser.py:61-111 _process_named_argument *)
Definition ap_named_argument : P ap_state bool :=
  let* key := get_ty T_TEXT in
  get_tv T_LITERAL (lit "=") ;;;
  let* t := ap_value in
  pmod (fun x => mkAp true (ap_unnamed x) (dset (t_value key) (vnode (strip (t_value t)) (t_ctx t)) (ap_named x))) ;;;
  pret true.

(* arguments_parser.py:113-164 _process_unnamed_argument *)
Definition ap_unnamed_argument (ctx : option context) : P ap_state bool :=
  let* x := pget in
  if ap_on x then praise (parser_error "Unnamed arguments after named arguments are forbidden." ctx)
  else
    let* t := ap_value in
    pmod (fun x => mkAp (ap_on x) (ap_unnamed x ++ [vnode (t_value t) (t_ctx t)]) (ap_named x)) ;;;
    pret true.

(* arguments_parser.py:55-59 *)
Definition ap_fns (ctx : option context) : list (P ap_state bool) := [ap_named_argument; ap_unnamed_argument ctx].

(* The parsed arguments: the public attributes of the parser. *)
Record parsed_args := mkParsed {
  pa_unnamed : list token; pa_named : dict token; pa_tags : list token;
  pa_subtype : option token; pa_alias : option token }.

(* arguments_parser.py:166-188 _isolate_by_prefix for a single node: is it selected,
   and its value afterwards *)
Definition take_prefix (prefix : str) (t : token) : bool * token :=
  if startswith prefix (t_value t) then (true, vnode (removeprefix prefix (t_value t)) (t_ctx t)) else (false, t).

(* arguments_parser.py:190-214: # then * then @, each on the values left by the
   previous ones (a node can be selected more than once) *)
Record marked := mkMarked { mk_tag : bool; mk_subtype : bool; mk_alias : bool; mk_node : token }.
Definition mark (t : token) : marked :=
  let '(tag, t1) := take_prefix (lit "#") t in
  let '(sub, t2) := take_prefix (lit "*") t1 in
  let '(ali, t3) := take_prefix (lit "@") t2 in
  mkMarked tag sub ali t3.
Definition select (f : marked -> bool) (l : list marked) : list token := map mk_node (filter f l).

(* replacement.get("names", []), iterated over *)
Definition names_of (v : option env_val) : res (list str) :=
  match v with
  | None => Ok []
  | Some (EList l) => Ok l
  | Some (EStr s) => Ok (map (fun c => [c]) s)
  | Some (EDict d) => Ok (keys d)
  | Some (EOther _) => Exc (ExPy "TypeError")
  end.

(* arguments_parser.py:216-272: the alias.  The missing keys are added in the order
   of the definition (in Python, a set has no order).  Simplified: a value of the
   alias that is not text is taken as its str(). *)
Definition expand_alias (e : env) (ctx : option context) (alias : token) (unnamed : list token) (named : dict token)
    (subtype : option token) : res (list token * dict token * option token) :=
  let? replacements := match env_get e (lit "mau.parser.aliases") with
                       | FVal _ => Exc (ExPy "AttributeError")
                       | FEnv a => env_asdict a
                       | FDefault => Ok []
                       end in
  match dget (t_value alias) replacements with
  | None => Exc (parser_error "Alias cannot be found in 'mau.parser.aliases'." ctx)
  | Some (EDict replacement) =>
      let? args := match dget (lit "args") replacement with
                   | None => Ok []
                   | Some (EDict a) => Ok a
                   | Some _ => Exc (ExPy "AttributeError")
                   end in
      let missing := filter (fun kv : str * env_val => negb (dmem (fst kv) named)) args in
      let named' := fold_left (fun n (kv : str * env_val) => dset (fst kv) (vnode (py_str (snd kv)) (t_ctx alias)) n) missing named in
      let? names := names_of (dget (lit "names") replacement) in
      let '(unnamed'', named'') := set_names unnamed named' names in
      let subtype' := match subtype, dget (lit "subtype") replacement with
                      | None, Some v => match py_str v with
                                        | [] => None
                                        | s => Some (vnode s (t_ctx alias))
                                        end
                      | _, _ => subtype
                      end in
      Ok (unnamed'', named'', subtype')
  | Some _ => Exc (ExPy "AttributeError")
  end.

(* arguments_parser.py:190-272 _isolate_tags_and_subtype *)
Definition isolate (e : env) (ctx : option context) (x : ap_state) : res parsed_args :=
  let l := map mark (ap_unnamed x) in
  let tags := select mk_tag l in
  let subtypes := select mk_subtype l in
  let aliases := select mk_alias l in
  if 1 <? length subtypes then Exc (parser_error "Multiple nodes with prefix '*' detected." ctx)
  else if 1 <? length aliases then Exc (parser_error "Multiple nodes with prefix '@' detected." ctx)
  else
    let unnamed := select (fun m => negb (mk_tag m || mk_subtype m || mk_alias m)) l in
    let subtype := hd_error subtypes in
    match hd_error aliases with
    | None => Ok (mkParsed unnamed (ap_named x) tags subtype None)
    | Some alias =>
        let? (u, n, s) := expand_alias e ctx alias unnamed (ap_named x) subtype in
        Ok (mkParsed u n tags s (Some alias))
    end.

(* arguments_parser.py:274-277 set_names *)
Definition pa_set_names (p : parsed_args) (names : list str) : parsed_args :=
  let '(u, n) := set_names (pa_unnamed p) (pa_named p) names in
  mkParsed u n (pa_tags p) (pa_subtype p) (pa_alias p).

(* arguments_parser.py:12, 279-302 the arguments property *)
Definition internal_prefix : str := lit "mau:".
Definition arguments_of (p : parsed_args) : node_args :=
  let internal := filter (startswith internal_prefix) (map t_value (pa_tags p)) in
  mkArgs (map t_value (pa_unnamed p))
         (map (fun kv => (fst kv, t_value (snd kv))) (pa_named p))
         (filter (fun v => negb (startswith internal_prefix v)) (map t_value (pa_tags p)))
         (map (removeprefix internal_prefix) internal)
         (option_map t_value (pa_subtype p)).

(* arguments_parser.py:304-317 parse; :320-341 process_arguments.  The context of
   the errors is that of the first token (:32-34). *)
Definition parse_arguments (e : env) (text : str) (o : origin) : res parsed_args :=
  let? tokens := lex_args (buffer text o) in
  let ctx := option_map t_ctx (hd_error tokens) in
  let? x := prun (Ok tokens) ap_init (ap_fns ctx) in
  isolate e ctx x.
Definition process_arguments (e : env) (t : token) : res parsed_args :=
  parse_arguments e (t_value t) (origin_of t).

(* arguments_parser.py:344-375 process_arguments_with_variables *)
Definition process_arguments_with_variables (e : env) (t : token) : res parsed_args :=
  let? text := preprocess e (t_value t) (origin_of t) in
  parse_arguments e (t_value text) (origin_of t).
