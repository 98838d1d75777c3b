(* SpecErrors.v -- the Python exceptions, other than MauException, that a document
   can cause, and when *)
From Verif Require Export SpecDoc.

(* the aliases of the arguments are well formed: a dictionary of dictionaries, whose
   args are a dictionary and whose names can be iterated over *)
Definition tidy_aliases (e : env) : Prop :=
  match env_get e (lit "mau.parser.aliases") with
  | FDefault => True
  | FVal _ => False
  | FEnv a => exists d, env_asdict a = Ok d /\
      forall name v, dget name d = Some v -> exists r, v = EDict r /\
        (dget (lit "args") r = None \/ exists args, dget (lit "args") r = Some (EDict args)) /\
        (forall repr, dget (lit "names") r <> Some (EOther repr))
  end.
(* the styles of the highlighted lines are a dictionary *)
Definition tidy_styles (e : env) : Prop :=
  match env_get e (lit "mau.parser.source_highlight_style_aliases") with
  | FDefault => True
  | FVal _ => False
  | FEnv a => exists d, env_asdict a = Ok d
  end.
Definition config_error (tidy : Prop) (c : string) : Prop := (c = "AttributeError" \/ c = "TypeError")%string /\ ~ tidy.

(* arguments *)
Definition args_error (e : env) (c : string) : Prop := config_error (tidy_aliases e) c.
(* a text: the variable of an ifeval macro contains the macro itself, or is not text;
   a control macro has an empty condition; its arguments *)
Definition text_error (e : env) (c : string) : Prop := (c = "RecursionError" \/ c = "AttributeError")%string \/ args_error e c.

(* the text of the token gives no nodes *)
Definition no_nodes (cf : config) (e : env) (t : token) : Prop := exists p next y,
  preprocess e (t_value t) (origin_of t) = Ok p /\ tp_run (cf_depth cf) e (t_value p) (origin_of t) next = Ok y /\ tx_nodes y = [].

(* the arguments of the element are these: given before it, or on its line *)
Definition arg_of (x : dx) (k : str) : option str := match dx_args x with Some a => dget k (na_named a) | None => None end.

(* another parser, for the content of a block or for a file, raises it *)
Definition inside (run : run_fn) (c : string) : Prop := exists e n d f t o, run e n d f t o = Exc (ExPy c).

Definition may_raise (cf : config) (run : run_fn) (el : element) (x : dx) (c : string) : Prop :=
  let e := dx_env x in
  match el with
  | EBlank _ | ERule _ | EVariable _ _ _ _ => False
  | ELabel _ _ | EParagraph _ => text_error e c
  | EControl _ _ cond => c = "AttributeError"%string /\ exists p, preprocess e (t_value cond) (origin_of cond) = Ok p /\ t_value p = []
  | EArguments _ _ _ => args_error e c
  | EHeader _ t => text_error e c \/ (c = "IndexError"%string /\ no_nodes cf e t)
  | EItems items => text_error e c \/ (c = "IndexError"%string /\ exists h t, In (h, t) items /\ no_nodes cf e t) \/
      (c = "ValueError"%string /\ exists v, arg_of x (lit "start") = Some v /\ v <> lit "auto" /\ forall z, py_int v <> Ok z)
  | EBlock _ content _ =>
      content <> None /\
      ((arg_of x (lit "engine") = Some (lit "source") /\
         ((c = "ValueError"%string /\ arg_of x (lit "marker_delimiter") = Some []) \/ config_error (tidy_styles e) c)) \/
       inside run c)
  | EInclude _ ty args =>
      (args <> None /\ args_error e c) \/
      (t_value ty = lit "blockgroup" /\ c = "KeyError"%string) \/
      ((t_value ty = lit "mau" \/ t_value ty = lit "raw") /\ exists uri, cf_files cf uri = Unreadable c) \/
      (t_value ty = lit "mau" /\ (config_error (exists d, env_asdict e = Ok d) c \/ inside run c))
  end.

(* the classes of all of them *)
Definition known_class (c : string) : Prop :=
  In c ["IndexError"; "AttributeError"; "KeyError"; "ValueError"; "TypeError"; "RecursionError"]%string.

(* Why reading a document raises the Python exception c: a class or function of the
   configuration is not callable; or, after the elements that could be processed, an
   element raises it, or there is no element there (a line with the syntax of a variable
   or of an include that is not complete). *)
Definition explained (cf : config) (run : run_fn) (e : env) (next : nat) (done : list assign) (forb : list (option str)) (text : str) (o : origin) (c : string) : Prop :=
  let e1 := env_update e base_env None false in
  (c = "TypeError"%string /\ not_callable (env_get e1 (lit "mau.parser.document_wrapper")) = true) \/
  (c = "TypeError"%string /\ (not_function (env_get e1 (lit "mau.parser.footnote_unique_id_function")) = true \/
                             not_function (env_get e1 (lit "mau.parser.header_internal_id_function")) = true)) \/
  exists toks x0 els rest x, lex_document (buffer text o) = Ok toks /\ dp_init e next done forb = Ok x0 /\
    begins toks els rest /\ act_all cf run els x0 x /\
    ((exists el rest', rest = tokens_of el ++ rest' /\ shaped el /\ element_fails cf run el x (ExPy c) /\ may_raise cf run el x c) \/
     (c = "IndexError"%string /\ malformed rest)).
