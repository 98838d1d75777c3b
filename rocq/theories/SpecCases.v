(* SpecCases.v -- conditions inside a text (C87) *)
From Verif Require Export SpecText SpecPre Env.
From Verif Require Import PropertiesCond.

(* A case of the condition: its text, and how it is written.  A text in quotes that comes
   last after another has no closing brackets and no backslashes. *)
Inductive case_written (last : bool) : str -> str -> Prop :=
| ca_bare s : macro_value s -> case_written last s s
| ca_quoted s : quoted_text s -> (last = true -> last_text s) -> case_written last s ([QUOTE] ++ s ++ [QUOTE]).
(* The case for when the condition holds, and maybe one for when it does not. *)
Inductive cases_written : str -> option str -> str -> Prop :=
| cs_one s p : case_written false s p -> cases_written s None p
| cs_two s p s' p' : case_written false s p -> case_written true s' p' -> cases_written s (Some s') (p ++ lit ", " ++ p').

(* Between the brackets: "if" or "ifeval", and a condition without spaces. *)
Definition test_text (eval : bool) (v : str) (equal : bool) (w : str) : str :=
  (if eval then lit "ifeval" else lit "if") ++ [chr ":"] ++ condition_text v [] equal [] w.
Definition test_ok (v : str) (equal : bool) (w : str) : Prop :=
  var_name v /\ cond_value w /\ macro_name (condition_text v [] equal [] w) /\ ~ In (chr ":") w.
Definition cases_text (eval : bool) (v : str) (equal : bool) (w p : str) : str :=
  lit "[" ++ test_text eval v equal w ++ lit "](" ++ p ++ lit ")".
(* The variables, and those of the environment e. *)
Notation world := (str -> option env_val).
Definition of_env (e : env) : world := fun k => dget k e.
(* The condition holds for the variables V. *)
Definition holds (V : world) (v : str) (equal : bool) (w : str) (b : bool) : Prop :=
  exists x, V v = Some x /\ (b = true <-> if equal then x = EStr w else x <> EStr w).

(* What a case means: a text, or the name of a variable with the text. *)
Definition markup (s : str) (l : list itree) : Prop := written None l s /\ ~ In QUOTE s /\ hd_error (rev s) <> Some SP /\ l <> [].
Definition case_means (V : world) (eval : bool) (s : str) (l : list itree) : Prop :=
  if eval then exists t, V s = Some (EStr t) /\ markup t l else markup s l.
(* The case that is shown.  Without a second case nothing is, but for ifeval, where it
   must be there. *)
Inductive shown_case (V : world) (eval : bool) : bool -> str -> option str -> list itree -> Prop :=
| sh_yes s no l : case_means V eval s l -> shown_case V eval true s no l
| sh_no s s' l : case_means V eval s' l -> shown_case V eval false s (Some s') l
| sh_none s : eval = false -> shown_case V eval false s None [].

(* A text with conditions in it, and what it means: the cases that are shown are ok. *)
Inductive conditional (V : world) (ok : list itree -> Prop) : list itree -> str -> Prop :=
| cn_text l w : written None l w -> conditional V ok l w
| cn_cases l1 w1 eval v equal w yes no p b l l2 w2 : written None l1 w1 -> test_ok v equal w -> cases_written yes no p ->
    holds V v equal w b -> shown_case V eval b yes no l -> ok l -> conditional V ok l2 w2 ->
    conditional V ok (l1 ++ l ++ l2) (w1 ++ cases_text eval v equal w p ++ w2).
Definition any (l : list itree) : Prop := True.

(* The conditions that are an error, and its message. *)
Inductive refused (e : env) : str -> string -> Prop :=
| rf_undefined eval v equal w yes no p : test_ok v equal w -> cases_written yes no p -> dget v e = None ->
    refused e (cases_text eval v equal w p) "Variable has not been defined."
| rf_missing v equal w yes p : test_ok v equal w -> cases_written yes None p -> holds (of_env e) v equal w false ->
    refused e (cases_text true v equal w p) "The test result is negative but no value has been defined for that case."
| rf_unknown v equal w yes no p b name : test_ok v equal w -> cases_written yes no p -> holds (of_env e) v equal w b ->
    (if b then Some yes else no) = Some name -> (forall k, In k (keys e) -> k <> name /\ forall r, k <> name ++ DOT :: r) ->
    refused e (cases_text true v equal w p) "Variable has not been defined."
| rf_operator op test yes no p : firstn 2 op = lit "if" -> op <> lit "if" -> op <> lit "ifeval" -> ~ In (chr ":") op -> ~ In (chr ":") test ->
    macro_name (op ++ [chr ":"] ++ test) -> cases_written yes no p ->
    refused e (lit "[" ++ (op ++ [chr ":"] ++ test) ++ lit "](" ++ p ++ lit ")") "Control operator is not supported.".
