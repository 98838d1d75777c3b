(* DocParser.v -- mau/parsers/document_parser.py and document_processors *)
From Verif Require Export Engines DocLexer.
From Coq Require Export ZArith.

(* What reading a file gives: the text, no such file, or another exception. *)
Inductive file := File (text : str) | Missing | Unreadable (cls : string).

(* A copy of a block made when n assignments had been made (Managers.v): its macros
   are linked by those only. *)
Definition copy := (nat * dnode)%type.

(* What the model takes as given: the files; the functions that make the ids of the
   headers and of the footnotes (toc_manager.py:28-59 hashes with md5;
   footnotes_manager.py:13-20 gives the name), or those configured in the
   environment; and the recursion limit of the text parser. *)
Record config := mkConfig {
  cf_files : str -> file;
  cf_header_id : header -> str;
  cf_footnote_id : footnote copy -> str;
  cf_depth : nat }.

(* The assignments made to the nodes, in order.  The items of a group come with the
   number of the assignments made before them by other parsers: the groups with the
   same number and name have the same items. *)
Inductive assign :=
| AFootnote (id : nat) (f : footnote copy)
| AFootnotes (id : nat) (l : list (footnote copy))
| AInternal (id : nat) (internal : str)
| AToc (id : nat) (nested : list toc_item) (plain : list header)
| AHeader (id : nat) (h : header) (content : list inode)
| AGroup (id : nat) (made : nat) (items : dict dnode).

(* include.py:36-54 IncludeCall *)
Record include_call := mkCall { ic_caller : option str; ic_callee : str; ic_args : dict str; ic_ctx : context }.

(* document_parser.py:69-127: the state of a parser; the buffers are its fields dx_labels
   (buffers/label_buffer.py:11-31), dx_control (buffers/control_buffer.py:67-82) and
   dx_args (buffers/arguments_buffer.py:10-17).  The environment, the counter of
   the numbered nodes and the list of the assignments are shared with the parsers
   inside it. *)
Record dx := mkDx {
  dx_nodes : list dnode;
  dx_labels : labels; dx_control : option control; dx_args : option node_args;
  dx_foot : fman dnode; dx_toc : tman; dx_links : hman; dx_groups : gman dnode;
  dx_latest : Z;
  dx_forbidden : list (option str);
  dx_calls : list include_call;
  dx_env : env; dx_next : nat; dx_done : list assign }.

Definition set_nodes x v := mkDx v (dx_labels x) (dx_control x) (dx_args x) (dx_foot x) (dx_toc x) (dx_links x) (dx_groups x) (dx_latest x) (dx_forbidden x) (dx_calls x) (dx_env x) (dx_next x) (dx_done x).
Definition set_labels x v := mkDx (dx_nodes x) v (dx_control x) (dx_args x) (dx_foot x) (dx_toc x) (dx_links x) (dx_groups x) (dx_latest x) (dx_forbidden x) (dx_calls x) (dx_env x) (dx_next x) (dx_done x).
Definition set_control x v := mkDx (dx_nodes x) (dx_labels x) v (dx_args x) (dx_foot x) (dx_toc x) (dx_links x) (dx_groups x) (dx_latest x) (dx_forbidden x) (dx_calls x) (dx_env x) (dx_next x) (dx_done x).
Definition set_args x v := mkDx (dx_nodes x) (dx_labels x) (dx_control x) v (dx_foot x) (dx_toc x) (dx_links x) (dx_groups x) (dx_latest x) (dx_forbidden x) (dx_calls x) (dx_env x) (dx_next x) (dx_done x).
Definition set_foot x v := mkDx (dx_nodes x) (dx_labels x) (dx_control x) (dx_args x) v (dx_toc x) (dx_links x) (dx_groups x) (dx_latest x) (dx_forbidden x) (dx_calls x) (dx_env x) (dx_next x) (dx_done x).
Definition set_toc x v := mkDx (dx_nodes x) (dx_labels x) (dx_control x) (dx_args x) (dx_foot x) v (dx_links x) (dx_groups x) (dx_latest x) (dx_forbidden x) (dx_calls x) (dx_env x) (dx_next x) (dx_done x).
Definition set_links x v := mkDx (dx_nodes x) (dx_labels x) (dx_control x) (dx_args x) (dx_foot x) (dx_toc x) v (dx_groups x) (dx_latest x) (dx_forbidden x) (dx_calls x) (dx_env x) (dx_next x) (dx_done x).
Definition set_groups x v := mkDx (dx_nodes x) (dx_labels x) (dx_control x) (dx_args x) (dx_foot x) (dx_toc x) (dx_links x) v (dx_latest x) (dx_forbidden x) (dx_calls x) (dx_env x) (dx_next x) (dx_done x).
Definition set_latest x v := mkDx (dx_nodes x) (dx_labels x) (dx_control x) (dx_args x) (dx_foot x) (dx_toc x) (dx_links x) (dx_groups x) v (dx_forbidden x) (dx_calls x) (dx_env x) (dx_next x) (dx_done x).
Definition set_forbidden x v := mkDx (dx_nodes x) (dx_labels x) (dx_control x) (dx_args x) (dx_foot x) (dx_toc x) (dx_links x) (dx_groups x) (dx_latest x) v (dx_calls x) (dx_env x) (dx_next x) (dx_done x).
Definition set_calls x v := mkDx (dx_nodes x) (dx_labels x) (dx_control x) (dx_args x) (dx_foot x) (dx_toc x) (dx_links x) (dx_groups x) (dx_latest x) (dx_forbidden x) v (dx_env x) (dx_next x) (dx_done x).
Definition set_env x v := mkDx (dx_nodes x) (dx_labels x) (dx_control x) (dx_args x) (dx_foot x) (dx_toc x) (dx_links x) (dx_groups x) (dx_latest x) (dx_forbidden x) (dx_calls x) v (dx_next x) (dx_done x).
Definition set_shared x next done := mkDx (dx_nodes x) (dx_labels x) (dx_control x) (dx_args x) (dx_foot x) (dx_toc x) (dx_links x) (dx_groups x) (dx_latest x) (dx_forbidden x) (dx_calls x) (dx_env x) next done.

Notation D := (P dx).

(* document_parser.py:36-48, 79-87 the default aliases *)
Definition base_env : env := env_from_dict
  [(lit "source_highlight_style_aliases",
      EDict [(lit "+", EStr (lit "add")); (lit "-", EStr (lit "remove")); (lit "!", EStr (lit "important")); (lit "x", EStr (lit "error"))]);
   (lit "aliases",
      EDict [(lit "source", EDict [(lit "args", EDict [(lit "engine", EStr (lit "source"))]); (lit "names", EList [lit "language"])])])]
  (Some (lit "mau.parser")).

(* Can the value found in the environment be called?  Simplified: an object that is
   not text, a list or a dictionary is a suitable function or class. *)
Definition not_callable (f : env_found) : bool :=
  match f with FDefault | FVal (EOther _) => false | _ => true end.
(* the same for a function given with "or default": an empty value is replaced *)
Definition not_function (f : env_found) : bool :=
  match f with FVal (EStr []) | FVal (EList []) | FVal (EDict []) => false | _ => not_callable f end.

(* document_parser.py:69-134 __init__ *)
Definition dp_init (e : env) (next : nat) (done : list assign) (forbidden : list (option str)) : res dx :=
  let e1 := env_update e base_env None false in
  if not_callable (env_get e1 (lit "mau.parser.document_wrapper")) then Exc (ExPy "TypeError")
  else Ok (mkDx [] [] None None fm_init tm_init hm_init gm_init 0%Z forbidden [] e1 next done).

(* base_parser.py:53-57 _save *)
Definition dp_save (n : dnode) : D unit := pmod (fun x => set_nodes x (dx_nodes x ++ [n])).

(* arguments_buffer.py:20-34 pop, pop_or_default *)
Definition dp_pop_args_opt : D (option node_args) :=
  let* x := pget in pmod (fun x => set_args x None) ;;; pret (dx_args x).
Definition dp_pop_args : D node_args :=
  let* a := dp_pop_args_opt in pret (match a with Some a => a | None => empty_args end).

(* document_parser.py:204-221 pop_labels *)
Definition dp_pop_labels : D labels :=
  let* x := pget in pmod (fun x => set_labels x []) ;;; pret (dx_labels x).

(* The end of most processors: the stored control (control_buffer.py:76-82 pop) says
   whether to save the node *)
Definition dp_admitted : D bool :=
  let* x := pget in
  pmod (fun x => set_control x None) ;;;
  match dx_control x with None => pret true | Some c => plift (run_control (dx_env x) c) end.
Definition dp_finish (n : dnode) : D bool :=
  let* ok := dp_admitted in
  if ok : bool then dp_save n ;;; pret true else pret true.

Definition dp_fresh : D nat :=
  let* x := pget in pmod (fun x => set_shared x (S (dx_next x)) (dx_done x)) ;;; pret (dx_next x).

Definition foot_mention (n : inode) : list mention :=
  match n with NFootnote i name c => [mkMention i name c] | _ => [] end.
Definition header_mention (n : inode) : list (mention * list inode) :=
  match n with NHeaderLink i name content c => [(mkMention i name c, content)] | _ => [] end.

(* document_parser.py:150-202 _parse_text.  (A text without nodes after the
   preprocessing is empty, and gives no nodes.) *)
Definition dp_text (cf : config) (text : str) (o : origin) : D (list inode) :=
  let* x := pget in
  let* processed := plift (preprocess (dx_env x) text o) in
  let* t := plift (tp_run (cf_depth cf) (dx_env x) (t_value processed) o (dx_next x)) in
  pmod (fun x =>
    set_shared (set_links (set_foot x (fm_add_macros (dx_foot x) (flat_map foot_mention (tx_foot t))))
                          (hm_add_macros (dx_links x) (flat_map header_mention (tx_links t))))
               (tx_next t) (dx_done x)) ;;;
  pret (tx_nodes t).

(* document_parser.py:223-228 _process_eol *)
Definition dp_eol : D bool := get_ty T_EOL ;;; pret true.

(* horizontal_rule.py:14-50 *)
Definition dp_do_rule (rule : token) : D bool :=
  let* a := dp_pop_args in
  let* l := dp_pop_labels in
  dp_finish (DRule (mkAttrs a l (t_ctx rule))).
Definition dp_rule : D bool := let* rule := get_ty T_HORIZONTAL_RULE in dp_do_rule rule.

(* variable_definition.py:15-91.  Each processor is in two parts: what it does with
   the tokens, and the reading of the tokens. *)
Definition dp_do_variable (o name c : token) (v : option token) : D bool :=
  let ctx := merge_contexts (t_ctx o) (t_ctx c) in
  let '(value, ctx) := match v with Some v => (t_value v, merge_contexts ctx (t_ctx v)) | None => ([], ctx) end in
  let* x := pget in
  let* nv := (if startswith (lit "+") (t_value name) then pret (skipn 1 (t_value name), lit "true")
              else if startswith (lit "-") (t_value name) then pret (skipn 1 (t_value name), lit "false")
              else match value with
                   | [] => pret (t_value name, [])
                   | _ => let* t := plift (preprocess (dx_env x) value (mkOrigin (c_start_line ctx) (c_start_column ctx) (c_source ctx))) in
                          pret (t_value name, t_value t)
                   end) in
  match snd nv with
  | [] => praise (parser_error "Error in variable definition. Variable has no value." (Some ctx))
  | v => pmod (fun x => set_env x (env_set (dx_env x) (fst nv) (EStr v))) ;;; pret true
  end.
Definition dp_variable : D bool :=
  let* o := get_tv T_VARIABLE (lit ":") in
  let* name := get_ty T_TEXT in
  let* c := get_tv T_LITERAL (lit ":") in
  let* next := ppeek None None None in
  let* v := (if tt_eqb (t_type next) T_TEXT then let* v := get_tok in pret (Some v) else pret None) in
  dp_do_variable o name c v.

(* label.py:12-45 *)
Definition dp_do_label (cf : config) (prefix t : token) : D bool :=
  let role := match skipn 1 (t_value prefix) with [] => lit "title" | r => r end in
  let* nodes := dp_text cf (t_value t) (origin_of t) in
  pmod (fun x => set_labels x (dset role nodes (dx_labels x))) ;;;
  pret true.
Definition dp_label (cf : config) : D bool :=
  let* prefix := get_ty T_LABEL in let* t := get_ty T_TEXT in dp_do_label cf prefix t.

(* control.py:17-54 *)
Definition dp_do_control (prefix operator cond : token) : D bool :=
  let* x := pget in
  let* c := plift (make_control (dx_env x) prefix operator cond) in
  pmod (fun x => set_control x (Some c)) ;;;
  pret true.
Definition dp_control : D bool :=
  let* prefix := get_tv T_CONTROL (lit "@") in
  let* operator := get_ty T_TEXT in
  let* cond := get_ty T_TEXT in
  dp_do_control prefix operator cond.

(* arguments.py:14-35 *)
Definition dp_do_arguments (t : token) : D bool :=
  let* x := pget in
  let* p := plift (process_arguments_with_variables (dx_env x) t) in
  pmod (fun x => set_args x (Some (arguments_of p))) ;;;
  pret true.
Definition dp_arguments : D bool :=
  get_tv T_ARGUMENTS (lit "[") ;;;
  let* t := get_ty T_TEXT in
  get_tv T_LITERAL (lit "]") ;;;
  dp_do_arguments t.

(* text_nodes[0], text_nodes[-1] *)
Definition first_last {A} (l : list A) : D (A * A) :=
  match l with [] => praise (ExPy "IndexError") | a :: _ => pret (a, last l a) end.

(* header.py:16-99 *)
Definition dp_do_header (cf : config) (head t : token) : D bool :=
  let* id := dp_fresh in
  let* nodes := dp_text cf (t_value t) (origin_of t) in
  let* a := dp_pop_args in
  let '(internal, a) := pop_arg a (lit "internal_id") in
  let '(name, a) := pop_arg a (lit "name") in
  let* fl := first_last nodes in
  let ctx := merge_contexts (t_ctx head) (merge_contexts (inode_ctx (fst fl)) (inode_ctx (snd fl))) in
  let* l := dp_pop_labels in
  let h := mkHeader id (length (t_value head)) internal name nodes a l ctx in
  let* ok := dp_admitted in
  if ok : bool then
    (match name with
     | Some (c :: n) =>
         let* x := pget in
         let* m := plift (hm_add_header (dx_links x) (c :: n) h) in
         pmod (fun x => set_links x m)
     | _ => pret tt
     end) ;;;
    pmod (fun x => set_toc x (tm_add_header (dx_toc x) h)) ;;;
    dp_save (DHeader h) ;;;
    pret true
  else pret true.
Definition dp_header (cf : config) : D bool :=
  let* head := get_ty T_HEADER in let* t := get_ty T_TEXT in dp_do_header cf head t.

(* list.py:21-36 and 54-83: an item *)
Definition dp_do_item (cf : config) (head t : token) : D dnode :=
  let* content := dp_text cf (t_value t) (origin_of t) in
  let* fl := first_last content in
  pret (DItem (length (t_value head)) content (merge_contexts (t_ctx head) (inode_ctx (snd fl)))).
Definition dp_item (cf : config) : D dnode :=
  let* head := get_ty T_LIST in let* t := get_ty T_TEXT in dp_do_item cf head t.

Definition list_stops : list token := [EOF_tok; EOL_tok].
Definition is_hash (v : str) : bool := startswith (lit "#") v.

(* list.py:38-107 the loop of _process_list_nodes; n bounds the calls (enough when
   it exceeds the number of the tokens).  [sub] is the list of the recursive call. *)
Fixpoint dp_items (cf : config) (n : nat) (level : nat) : D (list dnode) :=
  match n with
  | 0 => praise ExFuel
  | S n =>
      let* t := ppeek None None None in
      if token_in t list_stops then pret []
      else
        let* is_list := is_ty T_LIST in
        if negb is_list then praise (parser_error "Wrong syntax encountered while processing the list." (Some (t_ctx t)))
        else if length (t_value t) =? level then
          let* item := dp_item cf in
          let* rest := dp_items cf n level in
          pret (item :: rest)
        else if level <? length (t_value t) then
          let* item := dp_item cf in
          let* others := dp_items cf n (length (t_value t)) in
          let sub := item :: others in
          let ctx := merge_contexts (t_ctx t) (dnode_ctx (last sub item)) in
          let* rest := dp_items cf n level in
          pret (DList (is_hash (t_value t)) false 1 sub (mkAttrs empty_args [] ctx) :: rest)
        else pret []
  end.

(* int(s): optional sign, decimal digits with single underscores between them *)
Fixpoint int_digits (acc : N) (s : str) : option N :=
  match s with
  | [] => Some acc
  | c :: r =>
      if is_digit c then int_digits (10 * acc + (c - 48)) r
      else if (c =? 95)%N then match r with d :: _ => if is_digit d then int_digits acc r else None | [] => None end
      else None
  end.
Definition py_int (s : str) : res Z :=
  let digits (s : str) := match s with c :: _ => if is_digit c then int_digits 0 s else None | [] => None end in
  match (match strip s with
         | c :: r => if (c =? 45)%N then option_map (fun n => Z.opp (Z.of_N n)) (digits r)
                     else if (c =? 43)%N then option_map Z.of_N (digits r)
                     else option_map Z.of_N (digits (c :: r))
         | [] => None
         end) with
  | Some z => Ok z
  | None => Exc (ExPy "ValueError")
  end.

(* list.py:110-190 *)
Definition dp_do_list (head : token) (item : dnode) (rest : list dnode) : D bool :=
   let nodes := item :: rest in
   let* a := dp_pop_args in
   let* x := pget in
   let count := Z.of_nat (length nodes) in
   let* start := match dget (lit "start") (na_named a) with
                 | None => pmod (fun x => set_latest x (count + 1)%Z) ;;; pret 1%Z
                 | Some v =>
                     if str_eqb v (lit "auto") then
                       pmod (fun x => set_latest x (dx_latest x + count)%Z) ;;; pret (dx_latest x)
                     else let* z := plift (py_int v) in pmod (fun x => set_latest x (count + z)%Z) ;;; pret z
                 end in
   let ctx := merge_contexts (dnode_ctx item) (dnode_ctx (last nodes item)) in
   let* l := dp_pop_labels in
   dp_finish (DList (is_hash (t_value head)) true start nodes (mkAttrs a l ctx)).
Definition dp_list (cf : config) : D bool := fun s =>
  (let* head := ppeek (Some T_LIST) None None in
   let* item := dp_item cf in
   let* rest := dp_items cf (S (length (fst s))) (length (t_value head)) in
   dp_do_list head item rest) s.

(* paragraph.py:22-24 the lines of the paragraph *)
Fixpoint dp_lines (n : nat) : D (list token) :=
  match n with
  | 0 => praise ExFuel
  | S n =>
      let* t := ppeek None None None in
      if tt_eqb (t_type t) T_TEXT then
        let* t := get_ty T_TEXT in
        let* rest := dp_lines n in
        pret (t :: rest)
      else pret []
  end.
Fixpoint dp_line_nodes (cf : config) (lines : list token) : D (list (list inode * context)) :=
  match lines with
  | [] => pret []
  | t :: r =>
      let* nodes := dp_text cf (t_value t) (origin_of t) in
      let* rest := dp_line_nodes cf r in
      pret ((nodes, t_ctx t) :: rest)
  end.

(* paragraph.py:14-79 *)
Definition dp_do_paragraph (cf : config) (tokens : list token) : D bool :=
   let* lines := dp_line_nodes cf tokens in
   let* a := dp_pop_args in
   let* fl := first_last lines in
   let ctx := merge_contexts (snd (fst fl)) (snd (snd fl)) in
   let* l := dp_pop_labels in
   dp_finish (DParagraph lines (mkAttrs a l ctx)).
Definition dp_paragraph (cf : config) : D bool := fun s =>
  (let* tokens := dp_lines (S (length (fst s))) in dp_do_paragraph cf tokens) s.

(* A new document parser (lex_and_parse) with the given environment, counter,
   assignments and forbidden includes: its final state. *)
Definition run_fn := env -> nat -> list assign -> list (option str) -> str -> origin -> res dx.

(* default.py:14-73.  A token without text is falsy. *)
Definition dp_default_engine (run : run_fn) (content : option token) (a : node_args) : D (list dnode) :=
  match content with
  | Some t =>
      if token_truthy t then
        let* x := pget in
        let* y := plift (run (dx_env x) (dx_next x) (dx_done x) [] (t_value t) (origin_of t)) in
        pmod (fun x => set_shared (set_env x (dx_env y)) (dx_next y) (dx_done y)) ;;;
        (if str_eqb (or_else (dget (lit "isolate") (na_named a)) (lit "true")) (lit "false") then
           pmod (fun x => set_toc (set_foot x (fm_update (dx_foot x) (dx_foot y))) (tm_update (dx_toc x) (dx_toc y)))
         else pret tt) ;;;
        pret (dx_nodes y)
      else pret []
  | None => pret []
  end.

(* block.py:25-29 EngineType, and the node made by the engine without classes,
   labels and info; the arguments left; the context that the node has at that time *)
Definition dp_engine (run : run_fn) (engine : str) (ctx : context) (content : option token) (classes : list str) (a : node_args)
    : D ((attrs -> dnode) * node_args * context) :=
  if str_eqb engine (lit "default") then
    let* nodes := dp_default_engine run content a in
    pret (DBlock classes nodes, a, empty_context)
  else if str_eqb engine (lit "raw") then
    pret (DRaw classes (match content with Some t => if token_truthy t then raw_lines t else [] | None => [] end), a, empty_context)
  else if str_eqb engine (lit "source") then
    match content with
    | Some t =>
        if token_truthy t then
          let* x := pget in
          let* r := plift (source_block (dx_env x) t a) in
          let '(language, lines, a) := r in
          pret (DSource classes (Some language) lines, a, t_ctx t)
        else pret (DSource classes None [], a, empty_context)
    | None => pret (DSource classes None [], a, empty_context)
    end
  else praise (parser_error "Engine is not available." (Some ctx)).

Definition nonempty (o : option str) : option str := match o with Some [] => None | o => o end.

(* block.py:32-117 *)
Definition dp_do_block (run : run_fn) (o : token) (content : option token) (c : token) : D bool :=
  let ctx := merge_contexts (t_ctx o) (t_ctx c) in
  let* a := dp_pop_args in
  let '(classes, a) := pop_arg a (lit "classes") in
  let classes := match nonempty classes with None => [] | Some s => split_on COMMA s end in
  let '(engine, a) := pop_arg a (lit "engine") in
  let* r := dp_engine run (or_else engine (lit "default")) ctx content classes a in
  let '(node, a, nctx) := r in
  let* l := dp_pop_labels in
  match nonempty (dget (lit "footnote") (na_named a)) with
  | Some name =>
      let* x := pget in
      let* m := plift (fm_add_body (dx_foot x) name (node (mkAttrs empty_args l nctx)) nctx) in
      pmod (fun x => set_foot x m) ;;; pret true
  | None =>
      let n := node (mkAttrs a l ctx) in
      match nonempty (dget (lit "group") (na_named a)), nonempty (dget (lit "position") (na_named a)) with
      | Some group, Some position =>
          let* x := pget in
          let* m := plift (gm_add_block (dx_groups x) group position n ctx) in
          pmod (fun x => set_groups x m) ;;; pret true
      | _, _ => dp_finish n
      end
  end.
Definition dp_block (run : run_fn) : D bool :=
  let* o := get_ty T_BLOCK in
  let* next := ppeek None None None in
  let* content := (if tt_eqb (t_type next) T_TEXT then let* t := get_ty T_TEXT in pret (Some t) else pret None) in
  let* c := get_ty T_BLOCK in
  dp_do_block run o content c.

Definition need_uri (uri : option str) (ctx : context) : D str :=
  match nonempty uri with
  | Some u => pret u
  | None => praise (parser_error "Syntax error. You need to specify a URI." (Some ctx))
  end.

(* include.py:137-166 _parse_image *)
Definition dp_image (a : node_args) (ctx : context) : D ((attrs -> dnode) * node_args) :=
  let '(uri, a) := pop_arg (args_set_names a [lit "uri"; lit "alt_text"; lit "classes"]) (lit "uri") in
  let* uri := need_uri uri ctx in
  let '(alt, a) := pop_arg a (lit "alt_text") in
  let '(classes, a) := pop_arg a (lit "classes") in
  pret (DImage uri alt (match nonempty classes with None => [] | Some s => split_on COMMA s end), a).

Definition source_in (u : option str) (l : list (option str)) : bool :=
  existsb (fun v => match u, v with
                    | Some a, Some b => str_eqb a b
                    | None, None => true
                    | _, _ => false
                    end) l.
Definition add_source (u : option str) (l : list (option str)) : list (option str) :=
  if source_in u l then l else l ++ [u].

(* open(uri).read() *)
Definition dp_read (cf : config) (uri : str) (ctx : context) : D str :=
  match cf_files cf uri with
  | File text => pret text
  | Missing => praise (parser_error "File cannot be read." (Some ctx))
  | Unreadable cls => praise (ExPy cls)
  end.

Definition CALL : str := lit "call:".

(* include.py:169-277 _parse_mau *)
Definition dp_mau (cf : config) (run : run_fn) (a : node_args) (ctx : context) : D ((attrs -> dnode) * node_args) :=
  let '(uri, a) := pop_arg (args_set_names a [lit "uri"]) (lit "uri") in
  let '(pass, a) := pop_arg a (lit "pass_environment") in
  let* uri := need_uri uri ctx in
  pmod (fun x => set_forbidden x (add_source (c_source ctx) (dx_forbidden x))) ;;;
  let* x := pget in
  if source_in (Some uri) (dx_forbidden x)
  then praise (parser_error "To avoid recursion, you cannot include this file." (Some ctx))
  else
    let calls := filter (fun kv : str * str => startswith CALL (fst kv)) (na_named a) in
    let call_args : dict str := fold_left (fun d (kv : str * str) => dset (removeprefix CALL (fst kv)) (snd kv) d) calls [] in
    let a := mkArgs (na_unnamed a) (filter (fun kv : str * str => negb (startswith CALL (fst kv))) (na_named a))
               (na_tags a) (na_internal a) (na_subtype a) in
    pmod (fun x => set_forbidden x (add_source (Some uri) (dx_forbidden x))) ;;;
    let* text := dp_read cf uri ctx in
    let* x := pget in
    let* e := (if str_eqb (or_else pass (lit "true")) (lit "true")
               then plift (env_from_environment (dx_env x) None) else pret env_empty) in
    let e := env_dupdate e (map (fun kv : str * str => (fst kv, EStr (snd kv))) call_args) None in
    let* y := plift (run e (dx_next x) (dx_done x) (dx_forbidden x) text (mkOrigin 0 0 (Some uri))) in
    pmod (fun x => set_calls (set_forbidden (set_shared x (dx_next y) (dx_done y)) (dx_forbidden y))
                     (dx_calls x ++ mkCall (c_source ctx) uri call_args ctx :: dx_calls y)) ;;;
    pret (DMau uri (dx_nodes y), a).

(* include.py:280-331 _parse_raw *)
Definition dp_include_raw (cf : config) (a : node_args) (ctx : context) : D ((attrs -> dnode) * node_args) :=
  let '(uri, a) := pop_arg (args_set_names a [lit "uri"]) (lit "uri") in
  let* uri := need_uri uri ctx in
  let* text := dp_read cf uri ctx in
  pret (DIncludeRaw uri (map (fun l => (l, ctx)) (split_on NL text)), a).

(* include.py:334-341 _parse_toc, 344-351 _parse_footnotes *)
Definition dp_toc : D (attrs -> dnode) :=
  let* id := dp_fresh in
  pmod (fun x => set_toc x (tm_add_toc (dx_toc x) id)) ;;; pret (DToc id).
Definition dp_footnotes : D (attrs -> dnode) :=
  let* id := dp_fresh in
  pmod (fun x => set_foot x (fm_add_list (dx_foot x) id)) ;;; pret (DFootnotes id).

(* include.py:354-365 _parse_blockgroup.  The node has no context yet when it is
   registered; it has it when the group is looked up. *)
Definition dp_blockgroup (a : node_args) (ctx : context) : D ((attrs -> dnode) * node_args) :=
  let '(group, a) := pop_arg (args_set_names a [lit "group"]) (lit "group") in
  match group with
  | None => praise (ExPy "KeyError")
  | Some name =>
      let* id := dp_fresh in
      pmod (fun x => set_groups x (gm_add_group (dx_groups x) (mkMention id name ctx))) ;;;
      pret (DGroup id name, a)
  end.

(* include.py:100-134: the node of each type of content *)
Definition dp_do_include (cf : config) (run : run_fn) (ty : str) (ctx : context) (a : node_args) : D bool :=
  let* r := (if str_eqb ty (lit "image") then dp_image a ctx
             else if str_eqb ty (lit "mau") then dp_mau cf run a ctx
             else if str_eqb ty (lit "raw") then dp_include_raw cf a ctx
             else if str_eqb ty (lit "toc") then let* f := dp_toc in pret (f, a)
             else if str_eqb ty (lit "footnotes") then let* f := dp_footnotes in pret (f, a)
             else if str_eqb ty (lit "blockgroup") then dp_blockgroup a ctx
             else pret (DInclude ty, a)) in
  let* l := dp_pop_labels in
  dp_finish (fst r (mkAttrs (snd r) l ctx)).
Definition dp_inline_args (t : token) : D node_args :=
  let* x := pget in
  let* p := plift (process_arguments_with_variables (dx_env x) t) in
  pret (arguments_of p).

(* include.py:57-134 *)
Definition dp_include (cf : config) (run : run_fn) : D bool :=
  let* prefix := get_ty T_INCLUDE in
  let* ty := get_ty T_TEXT in
  let ctx := merge_contexts (t_ctx prefix) (t_ctx ty) in
  let* boxed := dp_pop_args_opt in
  let* colon := is_tv T_LITERAL (lit ":") in
  let* a := (if colon : bool then
               match boxed with
               | Some _ => praise (parser_error "Syntax error. You cannot specify both boxed and inline arguments." (Some ctx))
               | None => get_tv T_LITERAL (lit ":") ;;; let* t := get_ty T_TEXT in dp_inline_args t
               end
             else pret (match boxed with Some a => a | None => empty_args end)) in
  dp_do_include cf run (t_value ty) ctx a.

(* document_parser.py:136-148 *)
Definition dp_fns (cf : config) (run : run_fn) : list (D bool) :=
  [dp_eol; dp_rule; dp_variable; dp_label cf; dp_control; dp_arguments; dp_header cf; dp_block run;
   dp_include cf run; dp_list cf; dp_paragraph cf].

(* document_parser.py:230-254 finalise: the managers, in order.  e0 is the
   environment when the parser was made (:93-109), where the functions were read. *)
Definition dp_finalise (cf : config) (e0 : env) (x : dx) : res dx :=
  let foot_id (f : footnote copy) : res str :=
    if not_function (env_get e0 (lit "mau.parser.footnote_unique_id_function"))
    then Exc (ExPy "TypeError") else Ok (cf_footnote_id cf f) in
  let header_id (h : header) : res str :=
    if not_function (env_get e0 (lit "mau.parser.header_internal_id_function"))
    then Exc (ExPy "TypeError") else Ok (cf_header_id cf h) in
  let? (flinks, flists) := fm_process (fun b => (length (dx_done x), b)) foot_id (dx_foot x) in
  let? (toc, ids, tocs) := tm_process header_id (dx_toc x) in
  let? hlinks := hm_process (dx_links x) in
  let? groups := gm_process (dx_groups x) in
  Ok (set_shared (set_toc x toc) (dx_next x)
        (dx_done x ++
         map (fun l : nat * footnote copy => AFootnote (fst l) (snd l)) flinks ++
         map (fun l : nat * list (footnote copy) => AFootnotes (fst l) (snd l)) flists ++
         map (fun l : nat * str => AInternal (fst l) (snd l)) ids ++
         map (fun l : nat * (list toc_item * list header) => AToc (fst l) (fst (snd l)) (snd (snd l))) tocs ++
         map (fun l : nat * (header * list inode) => AHeader (fst l) (fst (snd l)) (snd (snd l))) hlinks ++
         map (fun l : nat * dict dnode => AGroup (fst l) (length (dx_done x)) (snd l)) groups)).

(* DocumentParser.lex_and_parse (base_parser.py:125-163).  n bounds the parsers
   inside parsers, as the interpreter does. *)
Fixpoint dp_run (n : nat) (cf : config) (e : env) (next : nat) (done : list assign) (forbidden : list (option str))
    (text : str) (o : origin) : res dx :=
  match n with
  | 0 => Exc (ExPy "RecursionError")
  | S n =>
      let? tokens := lex_document (buffer text o) in
      let? x0 := dp_init e next done forbidden in
      let? x := prun (Ok tokens) x0 (dp_fns cf (dp_run n cf)) in
      dp_finalise cf (dx_env x0) x
  end.

(* document_parser.py:69-76: a parser for a whole document *)
Definition parse_document (n : nat) (cf : config) (e : env) (text : str) (o : origin) : res dx :=
  dp_run n cf e 0 [] [] text o.

(* document_parser.py:256-271 the output: the content of the document node (and its
   context), if there is one, and the table of contents *)
Definition document_of (x : dx) : option (list dnode * context) :=
  match dx_nodes x with
  | [] => None
  | n :: _ => Some (dx_nodes x, merge_contexts (dnode_ctx n) (dnode_ctx (last (dx_nodes x) n)))
  end.
