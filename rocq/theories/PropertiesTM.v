(* PropertiesTM.v -- C12 and C13: the token manager *)
From Verif Require Import TMFacts P.

(* Running a program with the operations of the token manager. *)
Fixpoint run {X A} (p : prog X A) : M X A :=
  match p with
  | PDone b => mret b
  | PRaise e => mraise e
  | PPeek ty v f k => do t <- peek_token ty v f; run (k t)
  | PPeekIs ty v f k => do b <- peek_token_is ty v f; run (k b)
  | PGet ty v f k => do t <- get_token ty v f; run (k t)
  | PCollect stops preserve k => do ts <- collect stops preserve; run (k ts)
  | PState k => do x <- mget; run (k x)
  | PModify f k => do _ <- mmod f; run k
  | PWith body k => do r <- with_tm (run body); run (k r)
  end.

(* ------------------------------------------------------------------ C12 *)
Definition keeps {X A} (m : M X A) : Prop := forall s,
  tm_tokens (fst (fst (m s))) = tm_tokens (fst s) /\ tm_stack (fst (fst (m s))) = tm_stack (fst s).

Lemma keeps_ret {X A} (a : A) : keeps (X := X) (mret a). Proof. split; reflexivity. Qed.
Lemma keeps_raise {X A} e : keeps (X := X) (A := A) (mraise e). Proof. split; reflexivity. Qed.
Lemma keeps_bind {X A B} (m : M X A) (f : A -> M X B) : keeps m -> (forall a, keeps (f a)) -> keeps (mbind m f).
Proof.
  intros Hm Hf s. unfold mbind. specialize (Hm s). destruct (m s) as [s' [a|e]]; cbn in *; [|exact Hm].
  destruct (Hf a s') as [H1 H2]. rewrite H1, H2. exact Hm.
Qed.
Lemma keeps_peek {X} ty v f : keeps (X := X) (peek_token ty v f). Proof. split; reflexivity. Qed.
Lemma keeps_peek_is {X} ty v f : keeps (X := X) (peek_token_is ty v f).
Proof.
  intros s. unfold peek_token_is, peek_token.
  destruct (let? t := peek_raw (fst s) in check_token t ty v f) as [t|[]]; split; reflexivity.
Qed.
Lemma keeps_get {X} ty v f : keeps (X := X) (get_token ty v f).
Proof.
  apply keeps_bind; [apply keeps_peek|]. intros _ s. cbn. unfold advance.
  destruct (_ <=? _); split; reflexivity.
Qed.
Lemma keeps_collect_loop {X} fuel stops preserve acc : keeps (X := X) (collect_loop fuel stops preserve acc).
Proof.
  revert acc; induction fuel as [|n IH]; intros acc; [apply keeps_raise|]. cbn [collect_loop].
  apply keeps_bind; [apply keeps_peek|]. intros t. destruct (token_in t stops); [apply keeps_ret|].
  destruct (token_eqb t escape_tok).
  - apply keeps_bind; [apply keeps_get|]. intros b. apply keeps_bind; [apply keeps_peek|]. intros u.
    apply keeps_bind; [apply keeps_get|]. intros v. apply IH.
  - apply keeps_bind; [apply keeps_get|]. intros v. apply IH.
Qed.
Lemma keeps_collect {X} stops preserve : keeps (X := X) (collect stops preserve).
Proof. intros s. apply keeps_collect_loop. Qed.
Lemma keeps_with {X A} (m : M X A) : keeps m -> keeps (with_tm m).
Proof.
  intros Hm s. unfold with_tm. set (s0 := (set_stack (fst s) (tm_pos (fst s) :: tm_stack (fst s)), snd s)).
  specialize (Hm s0). destruct (m s0) as [s' r]. cbn in Hm. destruct Hm as [H1 H2]. cbn. rewrite H2.
  destruct r as [a|[]]; cbn; split; auto.
Qed.
Lemma keeps_run {X A} (p : prog X A) : keeps (run p).
Proof.
  induction p as [A b|A e|A ty v f k IH|A ty v f k IH|A ty v f k IH|A stops pr k IH|A k IH|A f k IH|A B body IHb k IH]; cbn [run].
  - apply keeps_ret.
  - apply keeps_raise.
  - apply keeps_bind; [apply keeps_peek|exact IH].
  - apply keeps_bind; [apply keeps_peek_is|exact IH].
  - apply keeps_bind; [apply keeps_get|exact IH].
  - apply keeps_bind; [apply keeps_collect|exact IH].
  - apply keeps_bind; [split; reflexivity|exact IH].
  - apply keeps_bind; [split; reflexivity|intros _; exact IH].
  - apply keeps_bind; [apply keeps_with, IHb|exact IH].
Qed.

(* The outcome of "with self.tm: p", from any token list, position and stack. *)
Theorem C12_failed_attempts_consume_nothing {X A} (p : prog X A) tokens pos stack (x : X) :
  match with_tm (run p) (mkTms tokens pos stack, x) with
  | (s', Ok (Some b)) => (* the body returned b *)
      tm_tokens (fst s') = tokens /\ tm_stack (fst s') = stack /\
      snd (run p (mkTms tokens pos (pos :: stack), x)) = Ok b
  | (s', Ok None) => (* the body raised TokenError *)
      fst s' = mkTms tokens pos stack /\
      snd (run p (mkTms tokens pos (pos :: stack), x)) = Exc ExTokenError
  | (s', Exc e) => (* another exception is not suppressed *)
      fst s' = mkTms tokens pos stack /\ e <> ExTokenError /\
      snd (run p (mkTms tokens pos (pos :: stack), x)) = Exc e
  end.
Proof.
  unfold with_tm, set_stack; cbn [fst snd tm_pos tm_stack tm_tokens].
  pose proof (keeps_run p (mkTms tokens pos (pos :: stack), x)) as [H1 H2].
  destruct (run p (mkTms tokens pos (pos :: stack), x)) as [[[toks' pos' stack'] x'] r]. cbn in H1, H2. subst.
  destruct r as [b|[]]; cbn; repeat split; auto; discriminate.
Qed.

(* A failing attempt that went far, was nested, and collected tokens. *)
Example C12_ex :
  let a := generate T_TEXT (lit "a") in let stop := generate T_LITERAL (lit "]") in
  let p := PGet (Some T_TEXT) None None (fun _ => PWith (PGet (Some T_LITERAL) None None (fun _ => PDone true))
             (fun _ => PCollect [stop] false (fun _ => PGet (Some T_TEXT) None None (fun _ => PDone true)))) in
  with_tm (run p) (mkTms [a; a; a; a; stop; EOF_tok] 1 [7], tt) = ((mkTms [a; a; a; a; stop; EOF_tok] 1 [7], tt), Ok None).
Proof. reflexivity. Qed.

(* ------------------------------------------------------------------ C13 *)
Lemma last_token_app ts l : last_token (ts ++ [l]) = Some l.
Proof.
  destruct ts as [|t ts]; [reflexivity|]. cbn [app last_token]. f_equal.
  change (t :: ts ++ [l]) with ((t :: ts) ++ [l]). apply last_last.
Qed.

(* The tokens of a lexer end with EOF.  c are the tokens consumed. *)
Theorem C13_collect_stops_at_first_stop {X} stops preserve before eof pos stack (x : X) :
  t_type eof = T_EOF -> t_value eof = [] -> pos <= length before ->
  let tokens := before ++ [eof] in
  exists c r rest, skipn pos tokens = c ++ rest /\ collected stops preserve c r /\
    collect stops preserve (mkTms tokens pos stack, x) =
      ((mkTms tokens (pos + length c) stack, x), Ok r) /\
    match rest with
    | u :: _ => stops_at stops u              (* the stop token, not consumed *)
    | [] => exists c0 b, c = c0 ++ [b; eof] /\ backslash b   (* an escaped EOF *)
    end.
Proof.
  intros Ht Hv Hp tokens.
  assert (Hlast : last_token tokens = Some eof) by apply last_token_app.
  assert (Hstop : stops_at stops eof) by (left; auto).
  destruct (collected_exists stops preserve (skipn pos tokens)) as (c & r & rest & Hs & Hc & Hr).
  assert (Hlen : length tokens = S (length before)) by (unfold tokens; rewrite app_length; cbn; lia).
  assert (Hsk : skipn pos tokens = skipn pos before ++ [eof]).
  { unfold tokens. rewrite skipn_app. replace (pos - length before) with 0 by lia. reflexivity. }
  exists c, r, rest. split; [exact Hs|]. split; [exact Hc|].
  assert (Hr2 : match rest with u :: _ => stops_at stops u | [] => True end).
  { destruct rest as [|u rest]; [exact I|]. destruct Hr as [Hr|[Hb Hr]]; [exact Hr|].
    rewrite Hsk in Hr. apply app_inj_tail in Hr as [_ <-]. destruct (eof_not_backslash _ Ht Hb). }
  split.
  - apply (collect_run stops preserve c r tokens pos stack x rest Hc Hs); [lia|].
    unfold stop_next. destruct rest; [exists eof; auto|exact Hr2].
  - destruct rest as [|u rest]; [|exact Hr2]. rewrite app_nil_r in Hs. rewrite Hsk in Hs.
    assert (Hend : forall c r, collected stops preserve c r -> forall l, c = l ++ [eof] ->
              exists l' b, c = l' ++ [b; eof] /\ backslash b).
    { clear - Hstop Ht. induction 1 as [|t c r H1 H2 Hc IH|b u c r H1 H2 H3 Hc IH|b u c r H1 H2 H3 Hc IH]; intros l Hl.
      - destruct l; discriminate.
      - destruct l as [|a l]; [cbn in Hl; injection Hl as -> ->; contradiction|]. cbn in Hl. injection Hl as -> ->.
        destruct (IH l eq_refl) as (l' & b & -> & Hb). exists (a :: l'), b. auto.
      - destruct l as [|a [|a2 l]]; cbn in Hl; try discriminate.
        + injection Hl as -> -> ->. contradiction.
        + injection Hl as -> -> ->. destruct (IH l eq_refl) as (l' & b' & -> & Hb). exists (a :: a2 :: l'), b'. auto.
      - destruct l as [|a [|a2 l]]; cbn in Hl; try discriminate.
        + injection Hl as -> -> ->. exists [], a. auto.
        + injection Hl as -> -> ->. destruct (IH l eq_refl) as (l' & b' & -> & Hb). exists (a :: a2 :: l'), b'. auto. }
    exact (Hend c r Hc _ (eq_sym Hs)).
Qed.

(* It is a function of the tokens: what is collected is unique. *)
Theorem C13_collected_unique stops preserve l c r rest c' r' rest' :
  collected stops preserve c r -> collected stops preserve c' r' -> l = c ++ rest -> l = c' ++ rest' ->
  (exists u t, rest = u :: t /\ stops_at stops u) -> (exists u t, rest' = u :: t /\ stops_at stops u) ->
  c = c' /\ r = r'.
Proof.
  intros H. revert l c' r'. induction H as [|t c r H1 H2 Hc IH|b u c r H1 H2 H3 Hc IH|b u c r H1 H2 H3 Hc IH];
    intros l c' r' H' -> Hl' (s & tl & -> & Hst) (s' & tl' & -> & Hst').
  - inversion H' as [|t c0 r0 K1 K2 Kc|b u c0 r0 K1 K2 K3 Kc|b u c0 r0 K1 K2 K3 Kc]; subst; auto;
      cbn in Hl'; injection Hl' as -> _; contradiction.
  - inversion H' as [|t0 c0 r0 K1 K2 Kc|b u c0 r0 K1 K2 K3 Kc|b u c0 r0 K1 K2 K3 Kc]; subst; cbn in Hl'.
    + injection Hl' as -> _. contradiction.
    + injection Hl' as <- Hl'. destruct (IH _ c0 r0 Kc eq_refl Hl') as [-> ->]; eauto.
    + injection Hl' as -> _. contradiction.
    + injection Hl' as -> _. contradiction.
  - inversion H' as [|t0 c0 r0 K1 K2 Kc|b0 u0 c0 r0 K1 K2 K3 Kc|b0 u0 c0 r0 K1 K2 K3 Kc]; subst; cbn in Hl'.
    + injection Hl' as -> _. contradiction.
    + injection Hl' as <- _. contradiction.
    + injection Hl' as <- <- Hl'. destruct (IH _ c0 r0 Kc eq_refl Hl') as [-> ->]; eauto.
    + injection Hl' as <- <- _. contradiction.
  - inversion H' as [|t0 c0 r0 K1 K2 Kc|b0 u0 c0 r0 K1 K2 K3 Kc|b0 u0 c0 r0 K1 K2 K3 Kc]; subst; cbn in Hl'.
    + injection Hl' as -> _. contradiction.
    + injection Hl' as <- _. contradiction.
    + injection Hl' as <- <- _. contradiction.
    + injection Hl' as <- <- Hl'. destruct (IH _ c0 r0 Kc eq_refl Hl') as [-> ->]; eauto.
Qed.

Example C13_ex :
  let a := generate T_TEXT (lit "a") in let q := generate T_LITERAL [QUOTE] in let b := generate T_LITERAL [BS] in
  collect (X := unit) [q] false (tm_init [a; b; q; b; a; q; a; EOF_tok], tt) =
  ((mkTms [a; b; q; b; a; q; a; EOF_tok] 5 [], tt), Ok [a; q; b; a]).
Proof. reflexivity. Qed.

Print Assumptions C12_failed_attempts_consume_nothing.
Print Assumptions C13_collect_stops_at_first_stop.
Print Assumptions C13_collected_unique.
