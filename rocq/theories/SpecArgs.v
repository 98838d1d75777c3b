(* SpecArgs.v -- how arguments are written and what they mean *)
From Verif Require Export Str Dict.

Definition args_meaning (c : N) : Prop := In c (lit "\=," ++ [QUOTE]).

(* A key: no space, no character with a meaning. *)
Definition key_ok (k : str) : Prop := k <> [] /\ forall c, In c k -> ~ args_meaning c /\ c <> SP /\ c <> NL.

(* A value that can be written as it is: inner spaces only. *)
Definition bare_ok (v : str) : Prop :=
  (forall c, In c v -> ~ args_meaning c /\ c <> NL) /\
  v <> [] /\ hd_error v <> Some SP /\ hd_error (rev v) <> Some SP.

(* A value that can be written in quotes: a backslash is not the last character and
   is not followed by a quote. *)
Fixpoint quotable (v : str) : Prop :=
  match v with
  | [] => True
  | c :: r => c <> NL /\ (c = BS -> r <> [] /\ hd_error r <> Some QUOTE) /\ quotable r
  end.
(* Quotes are escaped. *)
Fixpoint escape (v : str) : str :=
  match v with
  | [] => []
  | c :: r => if N.eqb c QUOTE then BS :: QUOTE :: escape r else c :: escape r
  end.

Inductive writes : str -> str -> Prop :=
| w_bare v : bare_ok v -> writes v v
| w_quoted v : quotable v -> writes v ([QUOTE] ++ escape v ++ [QUOTE]).

Inductive arg := Pos (v : str) | Key (k v : str).
Inductive writes_arg : arg -> str -> Prop :=
| wa_pos v w : writes v w -> writes_arg (Pos v) w
| wa_key k v w : key_ok k -> writes v w -> writes_arg (Key k v) (k ++ [EQUALS] ++ w).

(* Arguments are separated by commas, each followed by any number of spaces. *)
Inductive writes_args : list arg -> str -> Prop :=
| ws_one a w : writes_arg a w -> writes_args [a] w
| ws_cons a w n l t : writes_arg a w -> writes_args l t -> writes_args (a :: l) (w ++ [COMMA] ++ repeat SP n ++ t).

(* The values: unnamed in order; the last one of each key, without the spaces
   around it. *)
Definition unnamed_of (l : list arg) : list str :=
  concat (map (fun a => match a with Pos v => [v] | Key _ _ => [] end) l).
Fixpoint named_of (l : list arg) (k : str) : option str :=
  match l with
  | [] => None
  | Pos _ :: r => named_of r k
  | Key k' v :: r => match named_of r k with Some w => Some w | None => if str_eqb k' k then Some (strip v) else None end
  end.
(* An unnamed argument after a named one. *)
Definition misplaced (l : list arg) : Prop := exists a k v b w c, l = a ++ Key k v :: b ++ Pos w :: c.

(* What the prefixes of the unnamed values mean. *)
Definition HASH : N := 35.
Definition STAR : N := 42.
Definition AT : N := 64.
Definition has_mark (c : N) (v : str) : bool := match v with a :: _ => N.eqb a c | [] => false end.
Definition plain_value (v : str) : bool := negb (has_mark HASH v || has_mark STAR v || has_mark AT v).
(* one mark at most: "#*x" is read as both a tag and a subtype *)
Definition single_mark (v : str) : Prop :=
  match v with
  | c :: r => In c [HASH; STAR; AT] -> plain_value r = true
  | [] => True
  end.
Definition marked_with (c : N) (us : list str) : list str := map (fun v => skipn 1 v) (filter (has_mark c) us).

(* The unnamed values that are left, the tags and the internal tags. *)
Definition INTERNAL : str := lit "mau:".
Definition is_internal (v : str) : bool := str_eqb (firstn 4 v) INTERNAL.
Definition plain_of (us : list str) : list str := filter plain_value us.
Definition tags_of (us : list str) : list str := filter (fun v => negb (is_internal v)) (marked_with HASH us).
Definition internal_tags_of (us : list str) : list str := map (skipn 4) (filter is_internal (marked_with HASH us)).
