(* Str.v -- Python strings as lists of code points, and the str methods the
   code of mau uses.  No proofs about mau here, only string facts. *)
From Coq Require Export String Ascii.
From Coq Require Export List Arith NArith ZArith Lia Bool.
From Coq Require Export ZifyBool ZifyNat ZifyN.
Export ListNotations.
#[global] Open Scope list_scope.
#[global] Open Scope nat_scope.

(* A Python str is a sequence of code points. *)
Definition str := list N.

(* Literals: [lit "abc"] is the str of an ASCII Coq string. *)
Definition lit (s : string) : str := map N_of_ascii (list_ascii_of_string s).
Definition chr (s : string) : N := hd 0%N (lit s).

Definition NL : N := 10.   (* "\n" *)
Definition SP : N := 32.   (* " " *)
Definition BS : N := 92.   (* "\\" *)
Definition QUOTE : N := 34. (* the double quote *)
Definition COMMA : N := 44.
Definition EQUALS : N := 61.

(* s == t *)
Fixpoint str_eqb (s t : str) : bool :=
  match s, t with
  | [], [] => true
  | a :: s', b :: t' => N.eqb a b && str_eqb s' t'
  | _, _ => false
  end.

Lemma str_eqb_spec s t : reflect (s = t) (str_eqb s t).
Proof.
  revert t; induction s as [|a s IH]; destruct t as [|b t]; simpl; try (constructor; congruence).
  destruct (N.eqb_spec a b) as [->|Hn]; simpl; [|constructor; congruence].
  destruct (IH t) as [->|Hn]; constructor; congruence.
Qed.

Lemma str_eqb_refl s : str_eqb s s = true.
Proof. destruct (str_eqb_spec s s); congruence. Qed.

Lemma str_eqb_eq s t : str_eqb s t = true <-> s = t.
Proof. destruct (str_eqb_spec s t); split; congruence. Qed.

Lemma str_eqb_neq s t : str_eqb s t = false <-> s <> t.
Proof. destruct (str_eqb_spec s t); split; congruence. Qed.

Lemma str_eqb_sym s t : str_eqb s t = str_eqb t s.
Proof. destruct (str_eqb_spec s t), (str_eqb_spec t s); congruence. Qed.

Definition str_eq_dec (s t : str) : {s = t} + {s <> t} := list_eq_dec N.eq_dec s t.

(* c in "..." for one character c. *)
Fixpoint mem_chr (c : N) (s : str) : bool :=
  match s with [] => false | a :: s' => N.eqb c a || mem_chr c s' end.

Lemma mem_chr_In c s : mem_chr c s = true <-> In c s.
Proof.
  induction s as [|a s IH]; simpl; [split; [discriminate|tauto]|].
  rewrite orb_true_iff, IH, N.eqb_eq. intuition congruence.
Qed.

(* s in [..] for a list of strings. *)
Fixpoint mem_str (s : str) (l : list str) : bool :=
  match l with [] => false | a :: l' => str_eqb s a || mem_str s l' end.

Lemma mem_str_In s l : mem_str s l = true <-> In s l.
Proof.
  induction l as [|a s' IH]; simpl; [split; [discriminate|tauto]|].
  rewrite orb_true_iff, IH, str_eqb_eq. intuition congruence.
Qed.

(* s.startswith(p) *)
Fixpoint startswith (p s : str) : bool :=
  match p, s with
  | [], _ => true
  | a :: p', b :: s' => N.eqb a b && startswith p' s'
  | _ :: _, [] => false
  end.

Lemma startswith_spec p s : startswith p s = true <-> exists r, s = p ++ r.
Proof.
  revert s; induction p as [|a p IH]; intros s; simpl.
  - split; [intros _; exists s; reflexivity|reflexivity].
  - destruct s as [|b s]; [split; [discriminate|intros [r Hr]; discriminate]|].
    rewrite andb_true_iff, N.eqb_eq, IH. split.
    + intros [-> [r ->]]; exists r; reflexivity.
    + intros [r Hr]; injection Hr as -> ->; split; [reflexivity|exists r; reflexivity].
Qed.

Lemma startswith_app p r : startswith p (p ++ r) = true.
Proof. apply startswith_spec; exists r; reflexivity. Qed.

(* s.endswith(p) *)
Definition endswith (p s : str) : bool := startswith (rev p) (rev s).

Lemma endswith_spec p s : endswith p s = true <-> exists r, s = r ++ p.
Proof.
  unfold endswith; rewrite startswith_spec; split; intros [r Hr].
  - exists (rev r). rewrite <- (rev_involutive s), Hr, rev_app_distr, rev_involutive. reflexivity.
  - exists (rev r). rewrite Hr, rev_app_distr. reflexivity.
Qed.

(* s.removeprefix(p) *)
Definition removeprefix (p s : str) : str :=
  if startswith p s then skipn (length p) s else s.

Lemma removeprefix_app p r : removeprefix p (p ++ r) = r.
Proof. unfold removeprefix. rewrite startswith_app, skipn_app, skipn_all, Nat.sub_diag. reflexivity. Qed.

(* s.split(c) for a one-character separator: always at least one part. *)
Fixpoint split_on (c : N) (s : str) : list str :=
  match s with
  | [] => [[]]
  | a :: s' => if N.eqb a c then [] :: split_on c s'
               else match split_on c s' with
                    | [] => [[a]]           (* unreachable *)
                    | p :: ps => (a :: p) :: ps
                    end
  end.

(* sep.join(parts) *)
Fixpoint join (sep : str) (parts : list str) : str :=
  match parts with
  | [] => []
  | [p] => p
  | p :: ps => p ++ sep ++ join sep ps
  end.

Lemma join_cons sep p ps : ps <> [] -> join sep (p :: ps) = p ++ sep ++ join sep ps.
Proof. destruct ps; [congruence|reflexivity]. Qed.

Lemma split_on_nonnil c s : split_on c s <> [].
Proof.
  destruct s as [|a s]; simpl; [congruence|].
  destruct (N.eqb a c); [congruence|]. destruct (split_on c s); congruence.
Qed.

Lemma join_split c s : join [c] (split_on c s) = s.
Proof.
  induction s as [|a s IH]; [reflexivity|]. cbn [split_on].
  destruct (N.eqb_spec a c) as [->|Hn].
  - rewrite join_cons by apply split_on_nonnil. rewrite IH. reflexivity.
  - destruct (split_on c s) as [|p ps] eqn:E; [destruct (split_on_nonnil c s E)|].
    destruct ps as [|q ps]; cbn [join] in *; rewrite <- IH; reflexivity.
Qed.

Definition no_chr (c : N) (s : str) : Prop := ~ In c s.

Lemma split_on_parts c s : Forall (no_chr c) (split_on c s).
Proof.
  induction s as [|a s IH]; cbn [split_on]; [repeat constructor; intros []|].
  destruct (N.eqb_spec a c) as [->|Hn]; [constructor; [intros []|exact IH]|].
  destruct (split_on c s) as [|p ps]; inversion IH as [|p' ps' Hp Hps]; subst; constructor; auto.
  - intros [H|[]]; congruence.
  - intros [H|H]; [congruence|exact (Hp H)].
Qed.

Lemma split_on_none c s : no_chr c s -> split_on c s = [s].
Proof.
  induction s as [|a s IH]; intros H; [reflexivity|]. cbn [split_on].
  destruct (N.eqb_spec a c) as [->|Hn]; [destruct H; left; reflexivity|].
  rewrite IH; [reflexivity|]. intros Hin; apply H; right; exact Hin.
Qed.

Lemma split_on_app c p s : no_chr c p -> split_on c (p ++ c :: s) = p :: split_on c s.
Proof.
  induction p as [|a p IH]; intros H; cbn [split_on app].
  - rewrite N.eqb_refl. reflexivity.
  - destruct (N.eqb_spec a c) as [->|Hn]; [destruct H; left; reflexivity|].
    rewrite IH; [reflexivity|]. intros Hin; apply H; right; exact Hin.
Qed.

Lemma split_join c parts : parts <> [] -> Forall (no_chr c) parts ->
  split_on c (join [c] parts) = parts.
Proof.
  induction parts as [|p ps IH]; intros Hne HF; [congruence|].
  inversion HF as [|p' ps' Hp Hps]; subst.
  destruct ps as [|q ps]; [apply split_on_none; exact Hp|].
  rewrite join_cons by congruence. cbn [app]. rewrite split_on_app by exact Hp.
  rewrite IH; [reflexivity|congruence|exact Hps].
Qed.

(* str.strip(): removes Unicode whitespace.  The set is the one of
   CPython's str.isspace for single characters. *)
Definition is_space (c : N) : bool :=
  (((9 <=? c) && (c <=? 13)) || ((28 <=? c) && (c <=? 32)) || (c =? 133) || (c =? 160)
  || (c =? 5760) || ((8192 <=? c) && (c <=? 8202)) || (c =? 8232) || (c =? 8233)
  || (c =? 8239) || (c =? 8287) || (c =? 12288))%N.
Arguments is_space c : simpl never.

Fixpoint lstrip (s : str) : str :=
  match s with [] => [] | a :: s' => if is_space a then lstrip s' else s end.
Definition rstrip (s : str) : str := rev (lstrip (rev s)).
Definition strip (s : str) : str := rstrip (lstrip s).

(* Spaces (U+0020) only: what the lexers mean by trailing spaces. *)
Fixpoint all_sp (s : str) : bool :=
  match s with [] => true | a :: s' => N.eqb a SP && all_sp s' end.

Lemma all_sp_app s t : all_sp (s ++ t) = all_sp s && all_sp t.
Proof. induction s; simpl; [reflexivity|]. rewrite IHs, andb_assoc. reflexivity. Qed.

Lemma all_sp_repeat s : all_sp s = true <-> s = repeat SP (length s).
Proof.
  induction s as [|a s IH]; simpl; [tauto|]. rewrite andb_true_iff, IH, N.eqb_eq.
  split; [intros [-> H]; rewrite <- H; reflexivity|intros H; injection H as -> H; auto].
Qed.

Lemma lstrip_id a s : is_space a = false -> lstrip (a :: s) = a :: s.
Proof. intros H; simpl; rewrite H; reflexivity. Qed.

Lemma lstrip_suffix s : exists p, s = p ++ lstrip s /\ forallb is_space p = true.
Proof.
  induction s as [|a s [p [Hp Hs]]]; [exists []; auto|]. simpl.
  destruct (is_space a) eqn:E.
  - exists (a :: p); simpl; rewrite E, Hs; split; [f_equal; exact Hp|reflexivity].
  - exists []; auto.
Qed.

Lemma rstrip_prefix s : exists p, s = rstrip s ++ p /\ forallb is_space p = true.
Proof.
  unfold rstrip. destruct (lstrip_suffix (rev s)) as [p [Hp Hs]].
  exists (rev p). split.
  - rewrite <- (rev_involutive s) at 1. rewrite Hp at 1. rewrite rev_app_distr. reflexivity.
  - rewrite forallb_forall in *. intros x Hx. apply Hs. apply in_rev. exact Hx.
Qed.

(* Run of characters satisfying p at the start of s. *)
Fixpoint span (p : N -> bool) (s : str) : str * str :=
  match s with
  | [] => ([], [])
  | a :: s' => if p a then let '(u, v) := span p s' in (a :: u, v) else ([], s)
  end.

Lemma span_app p s : fst (span p s) ++ snd (span p s) = s.
Proof.
  induction s as [|a s IH]; [reflexivity|]; simpl.
  destruct (p a); [|reflexivity]. destruct (span p s) as [u v]; simpl in *; congruence.
Qed.

Lemma span_fst_all p s : forallb p (fst (span p s)) = true.
Proof.
  induction s as [|a s IH]; [reflexivity|]; simpl.
  destruct (p a) eqn:E; [|reflexivity]. destruct (span p s) as [u v]; simpl in *; rewrite E; auto.
Qed.

Lemma span_snd_hd p s a v : snd (span p s) = a :: v -> p a = false.
Proof.
  induction s as [|b s IH]; simpl; [discriminate|].
  destruct (p b) eqn:E; [|intros H; injection H as -> ->; exact E].
  destruct (span p s) as [u w]; simpl in *; auto.
Qed.

Lemma span_all p s t : forallb p s = true -> (forall a v, t = a :: v -> p a = false) ->
  span p (s ++ t) = (s, t).
Proof.
  induction s as [|b s IH]; simpl; intros H Ht.
  - destruct t as [|a v]; [reflexivity|]. simpl. rewrite (Ht a v eq_refl). reflexivity.
  - apply andb_true_iff in H as [Hb Hs]. rewrite Hb, IH by assumption. reflexivity.
Qed.

(* Longest run, greedily. *)
Fixpoint run_length (p : N -> bool) (s : str) : nat :=
  match s with [] => 0 | a :: s' => if p a then S (run_length p s') else 0 end.

Lemma run_length_span p s : run_length p s = length (fst (span p s)).
Proof.
  induction s as [|a s IH]; [reflexivity|]; simpl. destruct (p a); [|reflexivity].
  destruct (span p s); simpl in *; congruence.
Qed.

Lemma run_length_le p s : run_length p s <= length s.
Proof. induction s as [|a s IH]; simpl; [lia|]. destruct (p a); lia. Qed.

(* Character classes. *)
Definition is_lower (c : N) : bool := (97 <=? c)%N && (c <=? 122)%N.
Definition is_upper (c : N) : bool := (65 <=? c)%N && (c <=? 90)%N.
Definition is_digit (c : N) : bool := (48 <=? c)%N && (c <=? 57)%N.
Arguments is_lower c : simpl never.
Arguments is_upper c : simpl never.
Arguments is_digit c : simpl never.

(* s.lower() restricted to ASCII letters (used only where the code compares
   ASCII words). *)
Definition lower_chr (c : N) : N := if is_upper c then (c + 32)%N else c.
Definition lower (s : str) : str := map lower_chr s.

(* str(n) for a natural number. *)
Fixpoint digits_fuel (fuel : nat) (n : N) : str :=
  match fuel with
  | 0 => []
  | S f => if (n <? 10)%N then [(48 + n)%N]
           else digits_fuel f (n / 10) ++ [(48 + n mod 10)%N]
  end.
Definition str_of_N (n : N) : str := digits_fuel (S (N.to_nat (N.log2 n))) n.
Definition str_of_nat (n : nat) : str := str_of_N (N.of_nat n).

Fixpoint concat_str (l : list str) : str := match l with [] => [] | a :: r => a ++ concat_str r end.

Lemma concat_str_app l m : concat_str (l ++ m) = concat_str l ++ concat_str m.
Proof. induction l; simpl; [reflexivity|]. rewrite IHl, app_assoc. reflexivity. Qed.

Lemma skipn_add {A} n m (l : list A) : skipn (n + m) l = skipn m (skipn n l).
Proof.
  revert l; induction n as [|n IH]; intros l; [reflexivity|].
  destruct l as [|a l]; simpl; [rewrite skipn_nil; reflexivity|apply IH].
Qed.
