(* SpecTree.v -- the node that each element of a document makes (C73) *)
From Verif Require Export SpecAttach.
#[local] Notation length := List.length.

(* the first and the last of a list that is not empty *)
Definition ends {A} (l : list A) (first last : A) : Prop :=
  (exists r, l = first :: r) /\ (exists r, l = r ++ [last]).
(* s is made of parts separated by c *)
Definition separated (c : N) (s : str) (parts : list str) : Prop := join [c] parts = s /\ Forall (no_chr c) parts.
(* an argument without a value counts as not given *)
Definition classes_given (v : option str) (classes : list str) : Prop :=
  match v with None | Some [] => classes = [] | Some s => separated COMMA s classes end.
(* the arguments of a without those that have been used *)
Definition without (ks : list string) (a : node_args) : node_args :=
  mkArgs (na_unnamed a) (fold_left (fun d k => ddel (lit k) d) ks (na_named a)) (na_tags a) (na_internal a) (na_subtype a).
Definition arg (a : node_args) (k : string) : option str := dget (lit k) (na_named a).

(* whole numbers as Python reads them: digits, which can be separated by single
   underscores, with a sign, between spaces *)
Inductive digits : str -> N -> Prop :=
| dg_one c : is_digit c = true -> digits [c] (c - 48)
| dg_more s n c : digits s n -> is_digit c = true -> digits (s ++ [c]) (10 * n + (c - 48))
| dg_sep s n c : digits s n -> is_digit c = true -> digits (s ++ lit "_" ++ [c]) (10 * n + (c - 48)).
Inductive number : str -> Z -> Prop :=
| nb_plain s n : digits s n -> number s (Z.of_N n)
| nb_plus s n : digits s n -> number (lit "+" ++ s) (Z.of_N n)
| nb_minus s n : digits s n -> number (lit "-" ++ s) (- Z.of_N n).
Definition written_number (v : str) (z : Z) : Prop :=
  exists before s after, v = before ++ s ++ after /\ forallb is_space before = true /\ forallb is_space after = true /\ number s z.

(* the lines of a text, each at its place from the start of the context c *)
Definition raw_text (c : context) (text : str) (lines : list (str * context)) : Prop :=
  separated NL text (map fst lines) /\
  forall n l lc, nth_error lines n = Some (l, lc) ->
    lc = mkContext (c_start_line c + n) (c_start_column c) (c_start_line c + n) (c_start_column c + length l) (c_source c).

Section Tree.
  Context (cf : config) (run : run_fn).

  (* the inline nodes of the text of a token, in the environment e *)
  Definition inline_of (e : env) (t : token) (ns : list inode) : Prop :=
    exists p next tx, preprocess e (t_value t) (origin_of t) = Ok p /\
      tp_run (cf_depth cf) e (t_value p) (origin_of t) next = Ok tx /\ ns = tx_nodes tx.

  (* an item of a list *)
  Definition item_made (e : env) (it : token * token) (n : dnode) : Prop :=
    exists ns f l, inline_of e (snd it) ns /\ ends ns f l /\
      n = DItem (length (t_value (fst it))) ns (merge_contexts (t_ctx (fst it)) (inode_ctx l)).
  (* the number of the first item *)
  Definition list_start (x : dx) (a : node_args) (z : Z) : Prop :=
    match arg a "start" with
    | None => z = 1%Z
    | Some v => if str_eqb v (lit "auto") then z = dx_latest x else written_number v z
    end.

  (* A block: its node, but for its arguments, labels and context; the arguments it
     has not used; the context of its content. *)
  Definition pending (x : dx) : node_args := match dx_args x with Some a => a | None => empty_args end.
  Definition has_text (content : option token) (t : token) : Prop := content = Some t /\ t_value t <> [].
  Definition no_text (content : option token) : Prop := forall t, content = Some t -> t_value t = [].
  Definition engine_is (a : node_args) (name : string) : Prop :=
    arg a "engine" = Some (lit name) \/ (name = "default"%string /\ arg a "engine" = None).
  Inductive block_made (x : dx) (content : option token) (cl : list str) : (attrs -> dnode) -> node_args -> context -> Prop :=
  | bm_empty name f : engine_is (pending x) name -> no_text content ->
      In (name, f) [("default", DBlock cl []); ("raw", DRaw cl []); ("source", DSource cl None [])]%string ->
      block_made x content cl f (without ["classes"; "engine"]%string (pending x)) empty_context
  | bm_mau t y : engine_is (pending x) "default" -> has_text content t ->
      run (dx_env x) (dx_next x) (dx_done x) [] (t_value t) (origin_of t) = Ok y ->
      block_made x content cl (DBlock cl (dx_nodes y)) (without ["classes"; "engine"]%string (pending x)) empty_context
  | bm_raw t lines : engine_is (pending x) "raw" -> has_text content t -> raw_text (t_ctx t) (t_value t) lines ->
      block_made x content cl (DRaw cl lines) (without ["classes"; "engine"]%string (pending x)) empty_context
  | bm_source t language lines rest : engine_is (pending x) "source" -> has_text content t ->
      source_block (dx_env x) t (without ["classes"; "engine"]%string (pending x)) = Ok (language, lines, rest) ->
      block_made x content cl (DSource cl (Some language) lines) rest (t_ctx t).

  (* An include: its node, but for its arguments, labels and context; the arguments
     it has not used. *)
  Definition uri_given (a : node_args) (uri : str) : Prop := arg a "uri" = Some uri /\ uri <> [].
  Definition known_contents : list string := ["image"; "mau"; "raw"; "toc"; "footnotes"; "blockgroup"]%string.
  Inductive include_made (ctx : context) (a : node_args) : str -> (attrs -> dnode) -> node_args -> Prop :=
  | im_image uri cl : let b := args_set_names a (map lit ["uri"; "alt_text"; "classes"]%string) in
      uri_given b uri -> classes_given (arg b "classes") cl ->
      include_made ctx a (lit "image") (DImage uri (arg b "alt_text") cl) (without ["uri"; "alt_text"; "classes"]%string b)
  | im_mau uri text e next done forbidden y :
      let b := args_set_names a [lit "uri"] in let c := without ["uri"; "pass_environment"]%string b in
      uri_given b uri -> cf_files cf uri = File text -> run e next done forbidden text (mkOrigin 0 0 (Some uri)) = Ok y ->
      include_made ctx a (lit "mau") (DMau uri (dx_nodes y))
        (mkArgs (na_unnamed c) (filter (fun kv => negb (startswith (lit "call:") (fst kv))) (na_named c)) (na_tags c) (na_internal c) (na_subtype c))
  | im_raw uri text lines : let b := args_set_names a [lit "uri"] in
      uri_given b uri -> cf_files cf uri = File text ->
      separated NL text (map fst lines) -> Forall (fun l => snd l = ctx) lines ->
      include_made ctx a (lit "raw") (DIncludeRaw uri lines) (without ["uri"]%string b)
  | im_toc id : include_made ctx a (lit "toc") (DToc id) a
  | im_footnotes id : include_made ctx a (lit "footnotes") (DFootnotes id) a
  | im_group id name : let b := args_set_names a [lit "group"] in
      arg b "group" = Some name -> include_made ctx a (lit "blockgroup") (DGroup id name) (without ["group"]%string b)
  | im_other ty : ~ In ty (map lit known_contents) -> include_made ctx a ty (DInclude ty) a.

  (* the node of an element *)
  Inductive makes (x : dx) : element -> dnode -> Prop :=
  | mk_rule t : makes x (ERule t) (DRule (mkAttrs (pending x) (dx_labels x) (t_ctx t)))
  | mk_header h t id ns f l : inline_of (dx_env x) t ns -> ends ns f l ->
      makes x (EHeader h t)
        (DHeader (mkHeader id (length (t_value h)) (arg (pending x) "internal_id") (arg (pending x) "name") ns
          (without ["internal_id"; "name"]%string (pending x)) (dx_labels x)
          (merge_contexts (t_ctx h) (merge_contexts (inode_ctx f) (inode_ctx l)))))
  | mk_paragraph ts lines f l :
      Forall2 (fun t ln => inline_of (dx_env x) t (fst ln) /\ snd ln = t_ctx t) ts lines -> ends ts f l ->
      makes x (EParagraph ts) (DParagraph lines (mkAttrs (pending x) (dx_labels x) (merge_contexts (t_ctx f) (t_ctx l))))
  | mk_list items i its nodes ordered start f l :
      Forall2 (fun it j => fst j = it /\ item_made (dx_env x) it (snd j)) items (i :: its) ->
      nested (level i) its nodes -> ends (snd i :: nodes) f l ->
      (ordered = true <-> exists r, t_value (fst (fst i)) = lit "#" ++ r) -> list_start x (pending x) start ->
      makes x (EItems items) (DList ordered true start (snd i :: nodes)
        (mkAttrs (pending x) (dx_labels x) (merge_contexts (dnode_ctx f) (dnode_ctx l))))
  | mk_block o content c cl node rest own :
      classes_given (arg (pending x) "classes") cl -> block_made x content cl node rest own ->
      makes x (EBlock o content c) (node (mkAttrs rest (dx_labels x) (merge_contexts (t_ctx o) (t_ctx c))))
  | mk_include o ty args a node rest :
      given_args (EInclude o ty args) x a ->
      include_made (merge_contexts (t_ctx o) (t_ctx ty)) a (t_value ty) node rest ->
      makes x (EInclude o ty args) (node (mkAttrs rest (dx_labels x) (merge_contexts (t_ctx o) (t_ctx ty)))).

  (* the body of a footnote: the block without arguments, at the place of its content *)
  Inductive body_made (x : dx) : element -> dnode -> Prop :=
  | bd_block o content c cl node rest own :
      classes_given (arg (pending x) "classes") cl -> block_made x content cl node rest own ->
      body_made x (EBlock o content c) (node (mkAttrs empty_args (dx_labels x) own)).

  (* what an element does to the parser: the nodes it adds *)
  Definition effect (el : element) (x x' : dx) (added : list dnode) : Prop :=
    (is_node el /\ ~ kept_apart el x /\ exists n, makes x el n /\ ((allowed x (dx_env x') /\ added = [n]) \/ (~ allowed x (dx_env x') /\ added = []))) \/
    (kept_apart el x /\ added = [] /\
       match pending_arg x "footnote" with
       | Some (c :: name) => exists n, body_made x el n /\ dget (c :: name) (fm_bodies (dx_foot x')) = Some n
       | _ => exists n group position items, makes x el n /\
           pending_arg x "group" = Some group /\ pending_arg x "position" = Some position /\
           dget group (gm_items (dx_groups x')) = Some items /\ dget position items = Some n
       end) \/
    (~ is_node el /\ added = [] /\
       match el with
       | ELabel _ t => exists ns role, label_role el = [role] /\ inline_of (dx_env x) t ns /\ dx_labels x' = dset role ns (dx_labels x)
       | _ => dx_labels x' = dx_labels x
       end).

  (* the elements, in order, and the nodes they add *)
  Inductive tree : list element -> dx -> dx -> list dnode -> Prop :=
  | tree_nil x : tree [] x x []
  | tree_cons el els x y z added rest : acts cf run el x y -> effect el x y added -> tree els y z rest ->
      tree (el :: els) x z (added ++ rest).
End Tree.
