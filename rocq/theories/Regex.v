(* Regex.v -- Python re.match for the regular expressions mau uses.
   A regexp is a list of items, matched greedily left to right with
   backtracking, anchored at the start of the text (re.match); every item is a
   capture group.  This covers every regexp of the lexers except the
   back-reference ^(.)\1{3}$ which DocLexer models directly. *)
From Verif Require Export Exn.

Inductive ritem :=
| RLit (s : str)                         (* a literal text *)
| RRep (p : N -> bool) (min : nat)       (* [class]* (min=0) or [class]+ (min=1), greedy *)
| ROpt (s : str)                         (* (literal)? greedy *)
| RAlt (s t : str)                       (* (s|t) *)
| REnd.                                  (* $ on a text without newline *)

(* Captures: one per item; None for an optional group that did not match. *)
Definition captures := list (option str).

(* Try n, n-1, ..., min repetitions. *)
Fixpoint try_rep (k : str -> option captures) (s : str) (min n : nat) : option captures :=
  if n <? min then None
  else match k (skipn n s) with
       | Some cs => Some (Some (firstn n s) :: cs)
       | None => match n with 0 => None | S n' => try_rep k s min n' end
       end.

Fixpoint rmatch (r : list ritem) (s : str) : option captures :=
  match r with
  | [] => Some []
  | RLit t :: r' =>
      if startswith t s then option_map (cons (Some t)) (rmatch r' (skipn (length t) s)) else None
  | RRep p min :: r' => try_rep (rmatch r') s min (run_length p s)
  | ROpt t :: r' =>
      match (if startswith t s then rmatch r' (skipn (length t) s) else None) with
      | Some cs => Some (Some t :: cs)
      | None => option_map (cons None) (rmatch r' s)
      end
  | RAlt t u :: r' =>
      match (if startswith t s then rmatch r' (skipn (length t) s) else None) with
      | Some cs => Some (Some t :: cs)
      | None => if startswith u s then option_map (cons (Some u)) (rmatch r' (skipn (length u) s))
                else None
      end
  | REnd :: r' => match s with [] => option_map (cons (Some [])) (rmatch r' s) | _ => None end
  end.

(* The text matched by a list of captures. *)
Definition cap_str (o : option str) : str := match o with Some s => s | None => [] end.
Definition caps_text (cs : captures) : str := concat_str (map cap_str cs).

(* The n-th group, as match.groupdict().get(name): "" when it did not match
   (every use in mau goes through [token_value or ""] or [if group:]). *)
Definition group (cs : captures) (n : nat) : str := cap_str (nth n cs None).

(* . in a Python regexp *)
Definition any_chr (c : N) : bool := negb (N.eqb c NL).

Lemma try_rep_spec k s min n cs : try_rep k s min n = Some cs ->
  n <= length s ->
  exists m cs', min <= m <= n /\ cs = Some (firstn m s) :: cs' /\ k (skipn m s) = Some cs'.
Proof.
  revert cs; induction n as [|n IH]; cbn [try_rep]; intros cs.
  - destruct (Nat.ltb_spec 0 min) as [Hlt|Hge]; [discriminate|].
    destruct (k (skipn 0 s)) eqn:E; [|discriminate].
    intros H _; injection H as <-. exists 0, c; repeat split; auto; lia.
  - destruct (Nat.ltb_spec (S n) min) as [Hlt|Hge]; [discriminate|].
    destruct (k (skipn (S n) s)) eqn:E.
    + intros H' _; injection H' as <-. exists (S n), c; repeat split; auto; lia.
    + intros H' Hl. destruct (IH cs H' ltac:(lia)) as (m & cs' & ? & ? & ?).
      exists m, cs'; repeat split; auto; lia.
Qed.

Lemma startswith_skipn t s : startswith t s = true -> s = t ++ skipn (length t) s.
Proof.
  intros H; apply startswith_spec in H as [r ->].
  rewrite skipn_app, skipn_all, Nat.sub_diag. reflexivity.
Qed.

(* A match consumes exactly its captures, from the start of the text. *)
Lemma rmatch_prefix r s cs : rmatch r s = Some cs -> exists rest, s = caps_text cs ++ rest.
Proof.
  revert s cs; induction r as [|i r IH]; cbn [rmatch]; intros s cs.
  - intros H; injection H as <-. exists s; reflexivity.
  - destruct i as [t|p m|t|t u|].
    + destruct (startswith t s) eqn:E; [|discriminate].
      destruct (rmatch r _) as [c|] eqn:E2; simpl; [|discriminate].
      intros H; injection H as <-. destruct (IH _ _ E2) as [rest Hr].
      exists rest. rewrite (startswith_skipn _ _ E), Hr. unfold caps_text; simpl.
      rewrite app_assoc; reflexivity.
    + intros H. apply try_rep_spec in H; [|apply run_length_le].
      destruct H as (n & cs' & Hn & -> & Hk). destruct (IH _ _ Hk) as [rest Hr].
      exists rest. unfold caps_text; simpl. rewrite <- app_assoc. fold (caps_text cs').
      rewrite <- Hr, firstn_skipn. reflexivity.
    + destruct (if startswith t s then _ else None) as [c|] eqn:E.
      * intros H; injection H as <-. destruct (startswith t s) eqn:E1; [|discriminate].
        destruct (IH _ _ E) as [rest Hr]. exists rest.
        rewrite (startswith_skipn _ _ E1), Hr. unfold caps_text; simpl. rewrite app_assoc; reflexivity.
      * destruct (rmatch r s) as [c|] eqn:E2; simpl; [|discriminate].
        intros H; injection H as <-. destruct (IH _ _ E2) as [rest Hr]. exists rest. exact Hr.
    + destruct (if startswith t s then _ else None) as [c|] eqn:E.
      * intros H; injection H as <-. destruct (startswith t s) eqn:E1; [|discriminate].
        destruct (IH _ _ E) as [rest Hr]. exists rest.
        rewrite (startswith_skipn _ _ E1), Hr. unfold caps_text; simpl. rewrite app_assoc; reflexivity.
      * destruct (startswith u s) eqn:E1; [|discriminate].
        destruct (rmatch r (skipn (length u) s)) as [c|] eqn:E2; simpl; [|discriminate].
        intros H; injection H as <-. destruct (IH _ _ E2) as [rest Hr]. exists rest.
        rewrite (startswith_skipn _ _ E1), Hr. unfold caps_text; simpl. rewrite app_assoc; reflexivity.
    + destruct s as [|a s]; [|discriminate].
      destruct (rmatch r []) as [c|] eqn:E2; simpl; [|discriminate].
      intros H; injection H as <-. destruct (IH _ _ E2) as [rest Hr]. exists rest. exact Hr.
Qed.

Lemma rmatch_length r s cs : rmatch r s = Some cs -> length cs = length r.
Proof.
  revert s cs; induction r as [|i r IH]; cbn [rmatch]; intros s cs.
  - intros H; injection H as <-; reflexivity.
  - destruct i as [t|p m|t|t u|].
    + destruct (startswith t s); [|discriminate].
      destruct (rmatch r _) as [c|] eqn:E2; simpl; [|discriminate].
      intros H; injection H as <-; simpl; f_equal; eauto.
    + intros H. apply try_rep_spec in H; [|apply run_length_le].
      destruct H as (n & cs' & Hn & -> & Hk). simpl; f_equal; eauto.
    + destruct (if startswith t s then _ else None) as [c|] eqn:E.
      * intros H; injection H as <-. destruct (startswith t s); [|discriminate]. simpl; f_equal; eauto.
      * destruct (rmatch r s) as [c|] eqn:E2; simpl; [|discriminate].
        intros H; injection H as <-; simpl; f_equal; eauto.
    + destruct (if startswith t s then _ else None) as [c|] eqn:E.
      * intros H; injection H as <-. destruct (startswith t s); [|discriminate]. simpl; f_equal; eauto.
      * destruct (startswith u s) eqn:E1; [|discriminate].
        destruct (rmatch r (skipn (length u) s)) as [c|] eqn:E2; simpl; [|discriminate].
        intros H; injection H as <-; simpl; f_equal; eauto.
    + destruct s as [|a s]; [|discriminate].
      destruct (rmatch r []) as [c|] eqn:E2; simpl; [|discriminate].
      intros H; injection H as <-; simpl; f_equal; eauto.
Qed.
