(* SpecPre.v -- what variable replacement does to a line *)
From Verif Require Export Str.

(* The characters with a meaning: backslash, backtick, curly braces. *)
Definition pre_meaning (c : N) : Prop := In c (lit "\`{}").
Definition no_meaning (s : str) : Prop := forall c, In c s -> ~ pre_meaning c /\ c <> NL.

(* A line is made of plain text and of these. *)
Inductive piece :=
| Ref (name : str)              (* {name} *)
| EscapedBrace (open : bool)    (* \{ and \} *)
| EscapedOther (tick : bool)    (* \` and \\ *)
| Braced (s : str)              (* {{s}} *)
| Verbatim (s : str).           (* `s` *)

Definition piece_ok (p : piece) : Prop :=
  match p with
  | Ref s | Braced s => no_meaning s
  | Verbatim s => ~ In BS s /\ ~ In 96%N s /\ ~ In NL s
  | _ => True
  end.

Definition piece_text (p : piece) : str :=
  match p with
  | Ref s => lit "{" ++ s ++ lit "}"
  | EscapedBrace true => lit "\{"
  | EscapedBrace false => lit "\}"
  | EscapedOther true => lit "\`"
  | EscapedOther false => lit "\\"
  | Braced s => lit "{{" ++ s ++ lit "}}"
  | Verbatim s => lit "`" ++ s ++ lit "`"
  end.

(* What it becomes, given the variables. *)
Definition piece_value (vars : str -> option str) (p : piece) : option str :=
  match p with
  | Ref s => vars s
  | EscapedBrace true => Some (lit "{")
  | EscapedBrace false => Some (lit "}")
  | EscapedOther _ => Some (piece_text p)
  | Braced s => Some (lit "{" ++ s ++ lit "}")
  | Verbatim s => Some (piece_text p)
  end.

(* text piece text piece ... text piece final *)
Definition line_text (ps : list (str * piece)) (final : str) : str :=
  concat_str (map (fun tp => fst tp ++ piece_text (snd tp)) ps) ++ final.
Definition line_ok (ps : list (str * piece)) (final : str) : Prop :=
  Forall (fun tp => no_meaning (fst tp) /\ piece_ok (snd tp)) ps /\ no_meaning final.

(* Spaces at the end of the line are dropped when they follow one of the pieces. *)
Definition final_value (ps : list (str * piece)) (final : str) : str :=
  match ps with [] => final | _ => if all_sp final then [] else final end.

Fixpoint line_value (vars : str -> option str) (ps : list (str * piece)) (final : str) : option str :=
  match ps with
  | [] => Some final
  | (t, p) :: r =>
      match piece_value vars p, line_value vars r final with
      | Some a, Some b => Some (t ++ a ++ b)
      | _, _ => None
      end
  end.
