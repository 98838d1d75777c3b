(* SpecDoc.v -- a document as a sequence of elements *)
From Verif Require Export DocParser SpecLexer.

(* An element: the tokens of one construct of the document. *)
Inductive element :=
| EBlank (t : token)
| ERule (t : token)
| EVariable (o name c : token) (value : option token)
| ELabel (role text : token)
| EControl (o operator cond : token)
| EArguments (o text c : token)
| EHeader (head text : token)
| EBlock (o : token) (content : option token) (c : token)
| EInclude (o ty : token) (args : option (token * token))
| EItems (items : list (token * token))
| EParagraph (lines : list token).

Definition opt_list {A} (o : option A) : list A := match o with Some a => [a] | None => [] end.
Definition tokens_of (el : element) : list token :=
  match el with
  | EBlank t | ERule t => [t]
  | EVariable o n c v => [o; n; c] ++ opt_list v
  | ELabel r t => [r; t]
  | EControl o op c => [o; op; c]
  | EArguments o t c => [o; t; c]
  | EHeader h t => [h; t]
  | EBlock o t c => [o] ++ opt_list t ++ [c]
  | EInclude o ty a => [o; ty] ++ match a with Some (c, t) => [c; t] | None => [] end
  | EItems items => flat_map (fun it => [fst it; snd it]) items
  | EParagraph ls => ls
  end.

Definition is_type (ty : token_type) (t : token) : Prop := t_type t = ty.
Definition is_tok (ty : token_type) (v : string) (t : token) : Prop := t_type t = ty /\ t_value t = lit v.
Definition is_literal := is_tok T_LITERAL.

(* the tokens of an element have the types that its lines are read as (SpecLines.v) *)
Definition shaped (el : element) : Prop :=
  match el with
  | EBlank t => is_type T_EOL t
  | ERule t => is_type T_HORIZONTAL_RULE t
  | EVariable o n c v => is_tok T_VARIABLE ":" o /\ is_type T_TEXT n /\ is_literal ":" c /\ Forall (is_type T_TEXT) (opt_list v)
  | ELabel r t => is_type T_LABEL r /\ is_type T_TEXT t
  | EControl o op c => is_tok T_CONTROL "@" o /\ is_type T_TEXT op /\ is_type T_TEXT c
  | EArguments o t c => is_tok T_ARGUMENTS "[" o /\ is_type T_TEXT t /\ is_literal "]" c
  | EHeader h t => is_type T_HEADER h /\ is_type T_TEXT t
  | EBlock o t c => is_type T_BLOCK o /\ Forall (is_type T_TEXT) (opt_list t) /\ is_type T_BLOCK c
  | EInclude o ty a => is_type T_INCLUDE o /\ is_type T_TEXT ty /\
      match a with Some (c, t) => is_literal ":" c /\ is_type T_TEXT t | None => True end
  | EItems items => items <> [] /\ Forall (fun it => is_type T_LIST (fst it) /\ is_type T_TEXT (snd it)) items
  | EParagraph ls => ls <> [] /\ Forall (is_type T_TEXT) ls
  end.

(* an element is as long as possible; a list ends at a blank line, at the end of the
   document, or at an item that is less deep than its first one *)
Definition starts_text (rest : list token) : Prop := exists t r, rest = t :: r /\ t_type t = T_TEXT.
Definition level_of (it : token * token) : nat := length (t_value (fst it)).
Definition list_ends (level : nat) (rest : list token) : Prop :=
  exists t r, rest = t :: r /\
    (token_in t list_stops = true \/ (t_type t = T_LIST /\ length (t_value t) < level)).
Definition maximal (el : element) (rest : list token) : Prop :=
  match el with
  | EVariable _ _ _ None | EParagraph _ => ~ starts_text rest
  | EInclude _ _ None => ~ exists t r, rest = t :: r /\ is_literal ":" t
  | EItems items => exists it its, items = it :: its /\ Forall (fun i => level_of it <= level_of i) its /\ list_ends (level_of it) rest
  | _ => True
  end.

(* A document: its elements, in order, then the end. *)
Inductive made_of : list token -> list element -> Prop :=
| made_end eof : t_type eof = T_EOF -> made_of [eof] []
| made_next el rest els : shaped el -> maximal el rest -> made_of rest els -> made_of (tokens_of el ++ rest) (el :: els).

(* The first elements of a document, and what follows them. *)
Inductive begins : list token -> list element -> list token -> Prop :=
| begins_nil toks : begins toks [] toks
| begins_next el toks els rest : shaped el -> maximal el toks -> begins toks els rest -> begins (tokens_of el ++ toks) (el :: els) rest.

(* no element starts here *)
Definition malformed (rem : list token) : Prop := forall el rest, shaped el -> maximal el rest -> rem <> tokens_of el ++ rest.

(* The tree of a list: [nested level items nodes], for items that follow an item of
   the given level, each with its node.  An item that is deeper starts a list, which
   takes all the items that are at least as deep as it. *)
Notation item := ((token * token) * dnode)%type.
Definition level (i : item) : nat := level_of (fst i).
Inductive nested (l : nat) : list item -> list dnode -> Prop :=
| nested_nil : nested l [] []
| nested_same i its nodes : level i = l -> nested l its nodes -> nested l (i :: its) (snd i :: nodes)
| nested_deeper i subs its inner nodes :
    l < level i -> Forall (fun j => level i <= level j) subs ->
    (forall j r, its = j :: r -> level j < level i) ->
    nested (level i) subs inner -> nested l its nodes ->
    nested l (i :: subs ++ its)
      (DList (is_hash (t_value (fst (fst i)))) false 1 (snd i :: inner)
         (mkAttrs empty_args [] (merge_contexts (t_ctx (fst (fst i))) (dnode_ctx (last (snd i :: inner) (snd i))))) :: nodes).

(* m leaves the tokens alone, takes the state x to x' and gives a; or it fails *)
Definition runs {A} (m : D A) (x : dx) (a : A) (x' : dx) : Prop := forall rem, m (rem, x) = ((rem, x'), Ok a).
Definition fails {A} (m : D A) (x : dx) (e : exn) : Prop := forall rem, snd (m (rem, x)) = Exc e.

(* what an element does to the parser *)
Section Do.
  Context (cf : config) (run : run_fn).

  (* the items of a list are read in order *)
  Inductive reads_items : list (token * token) -> dx -> list item -> dx -> Prop :=
  | ri_nil x : reads_items [] x [] x
  | ri_cons h t r x n x1 its x2 : runs (dp_do_item cf h t) x n x1 -> reads_items r x1 its x2 ->
      reads_items ((h, t) :: r) x (((h, t), n) :: its) x2.

  (* the action of an element that is not a list *)
  Definition do_element (el : element) : D bool :=
    match el with
    | EBlank _ => pret true
    | ERule t => dp_do_rule t
    | EVariable o n c v => dp_do_variable o n c v
    | ELabel r t => dp_do_label cf r t
    | EControl o op c => dp_do_control o op c
    | EArguments _ t _ => dp_do_arguments t
    | EHeader h t => dp_do_header cf h t
    | EBlock o t c => dp_do_block run o t c
    | EInclude o ty None =>
        let* a := dp_pop_args in dp_do_include cf run (t_value ty) (merge_contexts (t_ctx o) (t_ctx ty)) a
    | EInclude o ty (Some (_, t)) =>
        let* boxed := dp_pop_args_opt in
        match boxed with
        | Some _ => praise (parser_error "Syntax error. You cannot specify both boxed and inline arguments."
                              (Some (merge_contexts (t_ctx o) (t_ctx ty))))
        | None => let* a := dp_inline_args t in dp_do_include cf run (t_value ty) (merge_contexts (t_ctx o) (t_ctx ty)) a
        end
    | EItems _ => pret true
    | EParagraph ls => dp_do_paragraph cf ls
    end.
  Definition acts (el : element) (x x' : dx) : Prop :=
    match el with
    | EItems items =>
        exists i its nodes x1, reads_items items x (i :: its) x1 /\ nested (level i) its nodes /\
          runs (dp_do_list (fst (fst i)) (snd i) nodes) x1 true x'
    | el => runs (do_element el) x true x'
    end.
  (* an element fails: for a list, one of its items after the previous ones, or the
     list after all of them *)
  Definition element_fails (el : element) (x : dx) (e : exn) : Prop :=
    match el with
    | EItems items =>
        (exists before h t after its x1, items = before ++ (h, t) :: after /\ reads_items before x its x1 /\
           fails (dp_do_item cf h t) x1 e) \/
        (exists i its nodes x1, reads_items items x (i :: its) x1 /\ nested (level i) its nodes /\
           fails (dp_do_list (fst (fst i)) (snd i) nodes) x1 e)
    | _ => fails (do_element el) x e
    end.
  Inductive act_all : list element -> dx -> dx -> Prop :=
  | act_nil x : act_all [] x x
  | act_cons el els x y z : acts el x y -> act_all els y z -> act_all (el :: els) x z.
End Do.
