(* SpecPlaces.v -- where the errors say that they are *)
From Verif Require Export SpecDoc.

(* The context is in the lines from lo to hi of the source: it starts there, and ends
   there or at the beginning of the next line (where the end of the text can be). *)
Definition within (src : option str) (lo hi : nat) (c : context) : Prop :=
  c_source c = src /\ lo <= c_start_line c <= hi /\ lo <= c_end_line c <= S hi.

(* The same for a message. *)
Definition placed (src : option str) (lo hi : nat) (m : message) : Prop :=
  match m with
  | MsgLexer _ s p => s = src /\ lo <= fst p <= hi
  | MsgParser _ (Some c) => within src lo hi c
  | _ => False
  end.

(* The last line of a text that starts at the given line. *)
Definition last_line (text : str) (first : nat) : nat := first + (length (text_lines text) - 1).

(* A text of one line. *)
Definition one_line (s : str) : Prop := ~ In NL s.

(* All the texts in the environment are of one line. *)
Fixpoint calm_val (v : env_val) : Prop :=
  match v with
  | EStr s | EOther s => one_line s
  | EList l => Forall one_line l
  | EDict d => (fix go (d : list (str * env_val)) : Prop := match d with [] => True | kv :: r => calm_val (snd kv) /\ go r end) d
  end.
Definition calm_env (e : env) : Prop := Forall (fun kv => calm_val (snd kv)) e.

(* When the element is read, a parser is made for the text t at o (the content of a
   block, or an included file), with this environment and so on: if that parser fails,
   the element fails in the same way. *)
Definition asks (cf : config) (el : element) (x : dx) (e : env) (n : nat) (d : list assign) (f : list (option str)) (t : str) (o : origin) : Prop :=
  forall run ex, run e n d f t o = Exc ex -> element_fails cf run el x ex.

(* While the text is read, or while a text inside it is, there is a variable that has
   an empty name. *)
Inductive nameless (cf : config) : nat -> env -> nat -> list assign -> list (option str) -> str -> origin -> Prop :=
| nameless_here n e next done forb text o toks x0 els rest x :
    lex_document (buffer text o) = Ok toks -> dp_init e next done forb = Ok x0 ->
    begins toks els rest -> act_all cf (dp_run n cf) els x0 x -> dget [] (dx_env x) <> None ->
    nameless cf (S n) e next done forb text o
| nameless_inside n e next done forb text o toks x0 els el rest x e' next' done' forb' text' o' :
    lex_document (buffer text o) = Ok toks -> dp_init e next done forb = Ok x0 ->
    begins toks els (tokens_of el ++ rest) -> act_all cf (dp_run n cf) els x0 x -> shaped el ->
    asks cf el x e' next' done' forb' text' o' -> nameless cf n e' next' done' forb' text' o' ->
    nameless cf (S n) e next done forb text o.

(* The error of a footnote that is defined twice: its place is lost. *)
Definition twice : message := MsgParser "Footnote has been already defined." (Some empty_context).
(* The error of a condition on a variable that is not defined: it is found at the
   next element, but its place is where the condition is. *)
Definition no_variable (c : control) : message := MsgParser "Variable has not been defined." (Some (ct_ctx c)).

(* Where an error can be: in the given lines, in a file that is included, or nowhere
   for the footnotes that are defined twice. *)
Definition accounted (cf : config) (src : option str) (lo hi : nat) (m : message) : Prop :=
  placed src lo hi m \/ (exists uri text, cf_files cf uri = File text /\ placed (Some uri) 0 (last_line text 0) m) \/ m = twice.
