(* PRefine.v -- the token manager of TM.v and the remaining-tokens monad of P.v
   behave the same *)
From Verif Require Import TMFacts P PropertiesTM.

(* the same programs, on the remaining tokens *)
Fixpoint prun_prog {X A} (p : prog X A) : P X A :=
  match p with
  | PDone b => pret b
  | PRaise e => praise e
  | PPeek ty v f k => let* t := ppeek ty v f in prun_prog (k t)
  | PPeekIs ty v f k => let* b := peek_is ty v f in prun_prog (k b)
  | PGet ty v f k => let* t := pget_token ty v f in prun_prog (k t)
  | PCollect stops preserve k => let* ts := pcollect stops preserve in prun_prog (k ts)
  | PState k => let* x := pget in prun_prog (k x)
  | PModify f k => let* _ := pmod f in prun_prog k
  | PWith body k => let* r := pwith (prun_prog body) in prun_prog (k r)
  end.

Section Refine.
  Variables (before : list token) (eof : token).
  Hypotheses (Ht : t_type eof = T_EOF) (Hv : t_value eof = []).
  Let toks := before ++ [eof].

  Definition view (p : nat) : list token := if p <? length (before ++ [eof]) then skipn p (before ++ [eof]) else [eof].

  Lemma toks_len : length toks = S (length before).
  Proof. unfold toks. rewrite app_length. cbn. lia. Qed.
  Lemma toks_last : last_token toks = Some eof. Proof. apply last_token_app. Qed.

  Lemma view_cons p : exists t r, view p = t :: r /\
    ((p < length toks /\ skipn p toks = t :: r) \/ (length toks <= p /\ t = eof /\ r = [])).
  Proof.
    unfold view. fold toks. destruct (Nat.ltb_spec p (length toks)) as [H|H].
    - destruct (skipn p toks) as [|t r] eqn:E.
      + apply (f_equal (@length token)) in E. rewrite skipn_length in E. cbn in E. lia.
      + exists t, r. auto.
    - exists eof, []. auto.
  Qed.

  Lemma view_next p t r : view p = t :: r -> view (S p) = next_rem (t :: r).
  Proof.
    destruct (view_cons p) as (t' & r' & E & [[H1 H2]|(H1 & -> & ->)]); intros E'; rewrite E in E'; injection E' as E1 E2; subst t r.
    - rename t' into t, r' into r. unfold view. fold toks. destruct (skipn_nth _ _ _ _ H2) as (_ & Hs & _). unfold next_rem.
      destruct (Nat.ltb_spec (S p) (length toks)) as [H|H].
      + rewrite Hs. destruct r as [|u r]; [|reflexivity].
        apply (f_equal (@length token)) in Hs. rewrite skipn_length in Hs. cbn in Hs. lia.
      + assert (r = []) as ->. { apply (f_equal (@length token)) in Hs. rewrite skipn_length in Hs. destruct r; [reflexivity|cbn in Hs; lia]. }
        assert (p = length before) as -> by (pose proof toks_len; lia).
        unfold toks in H2. rewrite skipn_app, skipn_all, Nat.sub_diag in H2. cbn in H2. injection H2 as <-. reflexivity.
    - unfold view. fold toks. destruct (Nat.ltb_spec (S p) (length toks)); [lia|]. reflexivity.
  Qed.

  (* related states *)
  Definition rel {X} (k : list nat) (s : tms * X) (s' : list token * X) : Prop :=
    exists p, p <= S (length toks) /\ s = (mkTms toks p k, snd s') /\ fst s' = view p.

  Definition rel_out {X A} (k : list nat) (o : (tms * X) * res A) (o' : (list token * X) * res A) : Prop :=
    rel k (fst o) (fst o') /\ snd o = snd o'.

  Definition same {X A} (m : M X A) (m' : P X A) : Prop :=
    forall k s s', rel k s s' -> rel_out k (m s) (m' s').

  Lemma same_ret {X A} (a : A) : same (X := X) (mret a) (pret a).
  Proof. intros k s s' H. split; auto. Qed.
  Lemma same_raise {X A} e : same (X := X) (A := A) (mraise e) (praise e).
  Proof. intros k s s' H. split; auto. Qed.
  Lemma same_bind {X A B} (m : M X A) (m' : P X A) (f : A -> M X B) (f' : A -> P X B) :
    same m m' -> (forall a, same (f a) (f' a)) -> same (mbind m f) (pbind m' f').
  Proof.
    intros Hm Hf k s s' H. unfold mbind, pbind. destruct (Hm k s s' H) as [H1 H2].
    destruct (m s) as [s1 r], (m' s') as [s1' r']. cbn in H1, H2. subst r'.
    destruct r as [a|e]; [apply Hf, H1|split; auto].
  Qed.

  Lemma peek_same p k ty v f : (let? t := peek_raw (mkTms toks p k) in check_token t ty v f) = peek_tok (view p) ty v f.
  Proof.
    destruct (view_cons p) as (t & r & -> & [[H1 H2]|(H1 & -> & ->)]).
    - rewrite (peek_raw_at _ _ _ _ _ H2). reflexivity.
    - rewrite (peek_raw_end _ _ _ _ H1 toks_last). reflexivity.
  Qed.

  Lemma same_peek {X} ty v f : same (X := X) (peek_token ty v f) (ppeek ty v f).
  Proof.
    intros k s [rem x] (p & Hp & -> & Hv'). cbn in Hv'. subst rem. unfold peek_token, ppeek. cbn [fst snd].
    rewrite (peek_same p k). split; [|reflexivity]. exists p. auto.
  Qed.

  Lemma same_peek_is {X} ty v f : same (X := X) (peek_token_is ty v f) (peek_is ty v f).
  Proof.
    intros k s [rem x] (p & Hp & -> & Hv'). cbn in Hv'. subst rem. unfold peek_token_is, peek_token, peek_is. cbn [fst snd].
    rewrite (peek_same p k).
    destruct (peek_tok (view p) ty v f) as [t|[]]; (split; [exists p; auto|reflexivity]).
  Qed.

  Lemma same_get {X} ty v f : same (X := X) (get_token ty v f) (pget_token ty v f).
  Proof.
    intros k s [rem x] (p & Hp & -> & Hv'). cbn in Hv'. subst rem. unfold get_token, peek_token, pget_token, mbind. cbn [fst snd].
    rewrite (peek_same p k). destruct (view_cons p) as (t & r & E & Hc). rewrite E. cbn [peek_tok].
    destruct (check_token t ty v f) as [u|e] eqn:Ec; [|split; [exists p; auto|reflexivity]].
    rewrite (check_ok _ _ _ _ _ Ec). cbn [fst snd]. rewrite <- (view_next p t r E).
    assert (K : exists p', p' <= S (length toks) /\ advance (mkTms toks p k) = mkTms toks p' k /\ view p' = view (S p) /\
                  current_token (mkTms toks p' k) = Ok t).
    { destruct Hc as [[H1 H2]|(H1 & -> & ->)].
      - exists (S p). rewrite (advance_at _ _ _ _ _ H2), (current_at _ _ _ _ _ H2). repeat split; auto; lia.
      - unfold advance. cbn [tm_pos tm_tokens]. destruct (Nat.leb_spec p (length toks)) as [L|L].
        + exists (S p). split; [lia|]; split; [reflexivity|]; split; [reflexivity|]. unfold current_token. cbn [tm_tokens tm_pos].
          rewrite toks_last, (proj2 (nth_error_None toks p) H1). reflexivity.
        + exists p. repeat split; auto.
          * unfold view. fold toks. destruct (Nat.ltb_spec p (length toks)), (Nat.ltb_spec (S p) (length toks)); try lia. reflexivity.
          * unfold current_token. cbn [tm_tokens tm_pos]. rewrite toks_last. destruct p as [|p]; [reflexivity|].
            rewrite (proj2 (nth_error_None toks p)) by lia. reflexivity. }
    destruct K as (p' & Hp' & -> & Hview & ->). split; [|reflexivity]. exists p'. cbn. auto.
  Qed.

  Lemma collect_list_stop stops preserve c r u tl : collected stops preserve c r -> stops_at stops u ->
    collect_list (stops ++ [EOF_tok]) preserve (c ++ u :: tl) = Ok (r, u :: tl).
  Proof.
    intros H Hu. induction H as [|t c r H1 H2 Hc IH|b w c r H1 H2 H3 Hc IH|b w c r H1 H2 H3 Hc IH]; cbn [app collect_list].
    - rewrite (proj2 (token_in_spec u stops) Hu). reflexivity.
    - rewrite (proj2 (token_in_false t stops) H1), (proj2 (escape_false t) H2). rewrite IH. reflexivity.
    - rewrite (proj2 (token_in_false b stops) H1), (proj2 (escape_spec b) H2).
      destruct (c ++ u :: tl) as [|y ys] eqn:E; [destruct c; discriminate|]. rewrite IH.
      rewrite (proj2 (token_in_false w stops) H3). reflexivity.
    - rewrite (proj2 (token_in_false b stops) H1), (proj2 (escape_spec b) H2).
      destruct (c ++ u :: tl) as [|y ys] eqn:E; [destruct c; discriminate|]. rewrite IH.
      rewrite (proj2 (token_in_spec w stops) H3). destruct preserve; reflexivity.
  Qed.

  Lemma collect_list_eof stops preserve c r : collected stops preserve c r -> forall l, c = l ++ [eof] ->
    collect_list (stops ++ [EOF_tok]) preserve c = Ok (r, [eof]).
  Proof.
    assert (Hst : stops_at stops eof) by (left; auto).
    induction 1 as [|t c r H1 H2 Hc IH|b w c r H1 H2 H3 Hc IH|b w c r H1 H2 H3 Hc IH]; intros l Hl; cbn [collect_list].
    - destruct l; discriminate.
    - rewrite (proj2 (token_in_false t stops) H1), (proj2 (escape_false t) H2).
      destruct l as [|a l]; [cbn in Hl; injection Hl as -> ->; contradiction|]. cbn in Hl. injection Hl as -> ->.
      rewrite (IH l eq_refl). reflexivity.
    - rewrite (proj2 (token_in_false b stops) H1), (proj2 (escape_spec b) H2).
      destruct l as [|a [|a2 l]]; cbn in Hl; try discriminate.
      + injection Hl as -> -> ->. contradiction.
      + injection Hl as -> -> ->. rewrite (IH l eq_refl), (proj2 (token_in_false a2 stops) H3).
        destruct (l ++ [eof]) as [|y ys] eqn:E; [destruct l; discriminate|]. reflexivity.
    - rewrite (proj2 (token_in_false b stops) H1), (proj2 (escape_spec b) H2).
      destruct l as [|a [|a2 l]]; cbn in Hl; try discriminate.
      + injection Hl as -> -> ->. inversion Hc; subst. rewrite (proj2 (token_in_spec eof stops) Hst). rewrite app_nil_r. destruct preserve; reflexivity.
      + injection Hl as -> -> ->. rewrite (IH l eq_refl), (proj2 (token_in_spec a2 stops) H3).
        destruct (l ++ [eof]) as [|y ys] eqn:E; [destruct l; discriminate|]. destruct preserve; reflexivity.
  Qed.

  Lemma same_collect {X} stops preserve : same (X := X) (collect stops preserve) (pcollect stops preserve).
  Proof.
    intros k s [rem x] (p & Hp & -> & Hv'). cbn in Hv'. subst rem. unfold pcollect. cbn [fst snd].
    destruct (Nat.ltb_spec p (length toks)) as [H|H].
    - assert (Hpb : p <= length before) by (pose proof toks_len; lia).
      destruct (C13_collect_stops_at_first_stop (X := X) stops preserve before eof p k x Ht Hv Hpb)
        as (c & r & rest & Hs & Hc & Hrun & Hrest). fold toks in Hs, Hrun. rewrite Hrun. cbn [fst snd].
      assert (Hvp : view p = c ++ rest).
      { unfold view. fold toks. destruct (Nat.ltb_spec p (length toks)); [exact Hs|lia]. }
      assert (Hlen : p + length c <= length toks).
      { apply (f_equal (@length token)) in Hs. rewrite skipn_length, app_length in Hs. lia. }
      pose proof (skipn_split _ _ _ _ Hs) as Hs2.
      rewrite Hvp. destruct rest as [|u tl].
      + destruct Hrest as (c0 & b & Ec & Hb). rewrite app_nil_r.
        assert (Ec' : c = (c0 ++ [b]) ++ [eof]) by (rewrite Ec, <- app_assoc; reflexivity).
        rewrite (collect_list_eof stops preserve c r Hc (c0 ++ [b]) Ec'). split; [|reflexivity].
        exists (p + length c). cbn. repeat split; [lia|]. unfold view. fold toks.
        destruct (Nat.ltb_spec (p + length c) (length toks)) as [L|L]; [|reflexivity].
        apply (f_equal (@length token)) in Hs2. rewrite skipn_length in Hs2. cbn in Hs2. lia.
      + rewrite (collect_list_stop stops preserve c r u tl Hc Hrest). split; [|reflexivity].
        exists (p + length c). cbn. repeat split; [lia|]. unfold view. fold toks.
        destruct (Nat.ltb_spec (p + length c) (length toks)) as [L|L]; [symmetry; exact Hs2|].
        rewrite skipn_all2 in Hs2 by lia. discriminate.
    - assert (Hvp : view p = [eof]) by (unfold view; fold toks; destruct (Nat.ltb_spec p (length toks)); [lia|reflexivity]).
      assert (Hst : token_in eof (stops ++ [EOF_tok]) = true) by (apply token_in_spec; left; auto).
      unfold collect. cbn [fst tm_tokens collect_loop]. unfold mbind, peek_token. cbn [fst].
      rewrite (peek_raw_end _ _ _ _ H toks_last). cbn [rbind check_token]. rewrite Hst. rewrite Hvp. cbn [collect_list].
      rewrite Hst. split; [|reflexivity]. exists p. cbn. auto.
  Qed.

  Lemma same_with {X A} (m : M X A) (m' : P X A) : same m m' -> same (with_tm m) (pwith m').
  Proof.
    intros Hm k s [rem x] (p & Hp & -> & Hv'). cbn in Hv'. subst rem. unfold with_tm, pwith, set_stack. cbn [fst snd tm_pos tm_stack tm_tokens].
    destruct (Hm (p :: k) (mkTms toks p (p :: k), x) (view p, x)) as [(p' & Hp' & H1 & H2) H3]; [exists p; auto|].
    destruct (m (mkTms toks p (p :: k), x)) as [s1 r], (m' (view p, x)) as [s1' r']. cbn in H1, H2, H3. subst.
    cbn [fst snd tm_stack tm_tokens tm_pos].
    destruct r' as [a|[]]; (split; [|reflexivity]); cbn; first [exists p'; cbn; auto; fail|exists p; cbn; auto].
  Qed.

  Lemma same_run {X A} (p : prog X A) : same (run p) (prun_prog p).
  Proof.
    induction p as [A b|A e|A ty v f k IH|A ty v f k IH|A ty v f k IH|A stops pr k IH|A k IH|A f k IH|A B body IHb k IH]; cbn [run prun_prog].
    - apply same_ret.
    - apply same_raise.
    - apply same_bind; [apply same_peek|exact IH].
    - apply same_bind; [apply same_peek_is|exact IH].
    - apply same_bind; [apply same_get|exact IH].
    - apply same_bind; [apply same_collect|exact IH].
    - apply same_bind; [|exact IH]. intros k0 s [rem x] (q & Hq & -> & Hv'). split; [|reflexivity]. exists q. auto.
    - apply same_bind; [|intros _; exact IH]. intros k0 s [rem x] (q & Hq & -> & Hv'). split; [|reflexivity]. exists q. auto.
    - apply same_bind; [apply same_with, IHb|exact IH].
  Qed.

  Lemma same_try {X} (fns : list (prog X bool)) : same (try_functions (map run fns)) (ptry (map prun_prog fns)).
  Proof.
    induction fns as [|f fns IH]; cbn [map try_functions ptry]; [apply same_ret|].
    apply same_bind; [apply same_with, same_run|]. intros [[]|]; [apply same_ret|exact IH|exact IH].
  Qed.

  Lemma same_loop {X} (fns : list (prog X bool)) n : forall last,
    same (parse_loop n (map run fns) last) (ploop n (map prun_prog fns) last).
  Proof.
    induction n as [|n IH]; intros last; cbn [parse_loop ploop]; [apply same_raise|].
    apply same_bind; [apply same_peek_is|]. intros [|]; [apply same_ret|].
    apply same_bind; [apply same_peek|]. intros next. destruct (_ && _); [apply same_raise|].
    apply same_bind; [apply same_try|]. intros [|]; [apply IH|].
    apply same_bind; [apply same_peek|]. intros t. apply same_raise.
  Qed.

  Lemma same_run_parser {X} (init : X) (fns : list (prog X bool)) :
    run_parser (Ok toks) init (map run fns) = prun (Ok toks) init (map prun_prog fns).
  Proof.
    unfold run_parser, prun. cbn [rbind]. unfold parse, pparse. cbn [fst tm_tokens tm_init].
    destruct (same_loop fns (S (S (2 * length toks))) (mkToken T_EOF [] empty_context) [] (tm_init toks, init) (toks, init)) as [H1 H2].
    { exists 0. split; [lia|]. split; [reflexivity|]. unfold view. fold toks. cbn [fst skipn]. destruct (Nat.ltb_spec 0 (length toks)) as [_|L]; [reflexivity|].
      pose proof toks_len; lia. }
    unfold start_token. destruct (parse_loop _ _ _ _) as [s r], (ploop _ _ _ _) as [s' r']. cbn in H1, H2. subst r'.
    destruct H1 as (p & _ & -> & _). reflexivity.
  Qed.
End Refine.

(* A parser whose methods are programs over the token manager has the same outcome
   when the token manager is replaced by the list of the remaining tokens. *)
Theorem TM_is_list_parser {X} (before : list token) (eof : token) (init : X) (methods : list (prog X bool)) :
  t_type eof = T_EOF -> t_value eof = [] ->
  run_parser (Ok (before ++ [eof])) init (map run methods) =
  prun (Ok (before ++ [eof])) init (map prun_prog methods).
Proof. intros H1 H2. apply same_run_parser; assumption. Qed.

(* A parser with backtracking that really backtracks. *)
Example TM_is_list_parser_ex :
  let a := mkToken T_TEXT (lit "a") (mkContext 0 0 0 1 None) in let b := mkToken T_LITERAL (lit "b") (mkContext 0 1 0 2 None) in
  let m1 := PGet (Some T_TEXT) None None (fun _ => PModify (cons 1) (PGet (Some T_TEXT) None None (fun _ => PDone true))) in
  let m2 := PGet None None None (fun _ => PModify (cons 2) (PDone true)) in
  prun (Ok [a; b; EOF_tok]) [] (map prun_prog [m1; m2]) = Ok [2; 2; 1].
Proof. reflexivity. Qed.

Print Assumptions TM_is_list_parser.
