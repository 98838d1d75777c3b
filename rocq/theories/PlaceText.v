(* PlaceText.v -- the errors of the arguments, of the conditions and of the texts *)
From Verif Require Import SimFacts LexerThms InlineInst ParseFacts RunFacts TermFacts TermText.
From Verif Require Export PlaceFacts.

Definition no_message (e : exn) : Prop := forall m, e <> ExMau m.

Section Hoare.
  Context (src : option str) (lo hi : nat).
  Notation Q := (within src lo hi).
  Notation E := (near src lo hi).
  Notation I := (fair src lo hi).
  Notation inn := (inner src lo hi).

  Lemma within_near c : Q c -> E c.
  Proof. unfold within, near. intros (H1 & H2 & H3). repeat split; auto; lia. Qed.
  Lemma merge_l a b : Q a -> E b -> Q (merge_contexts a b).
  Proof. unfold within, near, merge_contexts. cbn [c_source c_start_line c_end_line]. intros (H1 & H2 & H3) (K1 & K2 & K3). repeat split; auto; lia. Qed.
  Lemma merge_near a b : E a -> E b -> E (merge_contexts a b).
  Proof. unfold near, merge_contexts. cbn [c_source c_start_line c_end_line]. intros (H1 & H2 & H3) (K1 & K2 & K3). repeat split; auto; lia. Qed.

  (* the first token is the end *)
  Definition ended (rem : list token) : Prop := exists t r, rem = t :: r /\ t_type t = T_EOF.
  Definition ending (t : token) : Prop := t_type t = T_EOF /\ t_value t = [] /\ E (t_ctx t).
  Lemma fair_head rem : I rem -> exists t r, rem = t :: r /\ ((inn t /\ I r /\ r <> []) \/ (ending t /\ r = [])).
  Proof.
    intros (body & c & -> & H & Hc). destruct body as [|t body].
    - do 2 eexists. split; [reflexivity|]. right. split; [split; [reflexivity|split; [reflexivity|exact Hc]]|reflexivity].
    - inversion H; subst. do 2 eexists. split; [reflexivity|]. left. split; [assumption|]. split; [exists body, c; auto|destruct body; discriminate].
  Qed.
  Lemma fair_eof rem : I rem -> to_eof rem.
  Proof. intros (body & c & -> & _). exists body, c. reflexivity. Qed.
  Lemma fair_next rem : I rem -> I (next_rem rem).
  Proof.
    intros H. destruct (fair_head _ H) as (t & r & -> & [(_ & H1 & H2)|(_ & ->)]); [|exact H].
    destruct r; [destruct (H2 eq_refl)|exact H1].
  Qed.
  Lemma inn_near t : inn t -> E (t_ctx t).
  Proof. intros (_ & _ & H). apply within_near, H. Qed.

  (* collect *)
  Inductive taken (c rest : list token) : Prop :=
  | taken_none : c = [] -> taken c rest
  | taken_some x a : c = x :: a -> inn x -> Forall (fun t => inn t \/ ending t) a -> taken c rest
  | taken_end t : c = [t] -> ending t -> ended rest -> taken c rest.
  Lemma collect_taken stops p : token_in EOF_tok stops = true -> forall n rem, length rem <= n -> I rem -> forall c rest, collect_list stops p rem = Ok (c, rest) ->
    I rest /\ taken c rest /\ (forall t r, rem = t :: r -> token_in t stops = false -> c <> []).
  Proof.
    intros Hst. assert (Heof : forall t, t_type t = T_EOF -> t_value t = [] -> token_in t stops = true).
    { intros t Ht Hv. revert Hst. unfold token_in. rewrite !existsb_exists. intros (u & H1 & H2). exists u. split; [exact H1|]. apply token_eqb_spec in H2. apply token_eqb_spec. rewrite Ht, Hv. exact H2. }
    induction n as [|n IH]; intros rem Hn HI c rest H; destruct (fair_head _ HI) as (t & r & -> & HC); [cbn in Hn; lia|]. cbn [collect_list] in H. destruct (token_in t stops) eqn:Et.
    { apply Ok_inv, pair_equal_spec in H as [<- <-]. split; [exact HI|]. split; [apply taken_none; reflexivity|]. intros t' r' E0. congruence. }
    destruct HC as [(Ht & Hr & Hr0)|((K1 & K2 & _) & _)]; [|rewrite (Heof _ K1 K2) in Et; discriminate].
    assert (Hall : forall c rest, taken c rest -> Forall (fun t => inn t \/ ending t) c).
    { intros c0 rest0 [->|x a -> Hx Ha|x -> Hx _]; [constructor|constructor; auto|constructor; [auto|constructor]]. }
    destruct (token_eqb t escape_tok).
    - destruct (fair_head _ Hr) as (u & r' & -> & [(Hu & Hr' & Hr0')|(Hu & ->)]).
      + destruct r' as [|w ws]; [destruct (Hr0' eq_refl)|]. apply rbind_ok in H as ([c1 rest1] & H1 & H2). apply Ok_inv, pair_equal_spec in H2 as [<- <-].
        destruct (IH (w :: ws) ltac:(cbn in *; lia) Hr' _ _ H1) as (A1 & A2 & _). apply Hall in A2. split; [exact A1|]. split.
        * destruct (negb _ || p); cbn [app]; [apply (taken_some _ _ t (u :: c1))|apply (taken_some _ _ u c1)]; auto.
        * intros t' r' _ _. destruct (negb _ || p); discriminate.
      + apply Ok_inv, pair_equal_spec in H as [<- <-]. split; [exact Hr|]. assert (N : ended [u]) by (exists u, []; split; [reflexivity|apply Hu]). split.
        * destruct (negb _ || p); [apply (taken_some _ _ t [u]); auto|apply (taken_end _ _ u); auto].
        * intros t' r' _ _. destruct (negb _ || p); discriminate.
    - apply rbind_ok in H as ([c1 rest1] & H1 & H2). apply Ok_inv, pair_equal_spec in H2 as [<- <-].
      destruct (IH r ltac:(cbn in *; lia) Hr _ _ H1) as (A1 & A2 & _). apply Hall in A2. split; [exact A1|]. split; [apply (taken_some _ _ t c1); auto|discriminate].
  Qed.
  (* a text that was collected: in the lines; or empty, nowhere or at the end *)
  Definition solid (t : token) : Prop := one_line (t_value t) /\ Q (t_ctx t).
  Definition loose (t : token) : Prop := t_value t = [] /\ (E (t_ctx t) \/ t_ctx t = empty_context).
  Definition value (t : token) : Prop := solid t \/ loose t.
  Lemma value_line t : value t -> one_line (t_value t).
  Proof. intros [[H _]|[-> _]]; [exact H|intros []]. Qed.
  Lemma last_in {A} (P : A -> Prop) a l : P a -> Forall P l -> P (last (a :: l) a).
  Proof.
    intros Ha. generalize a at 2. revert a Ha. induction l as [|b l IH]; intros a Ha d H; [exact Ha|]. inversion H; subst. cbn [last]. apply (IH b); assumption.
  Qed.
  Lemma taken_join c rest : taken c rest -> (c = [] /\ join_tokens c [] = mkToken T_TEXT [] empty_context) \/ solid (join_tokens c []) \/ (loose (join_tokens c []) /\ ended rest).
  Proof.
    intros [->|x a -> Hx Ha|t -> Ht He].
    - left. auto.
    - right; left. split.
      + cbn [join_tokens t_value]. apply one_line_join; [intros []|]. apply all_filter. constructor; [apply Hx|]. induction Ha as [|y a Hy _ IH]; constructor; [|exact IH].
        destruct Hy as [(_ & Hy & _)|(_ & Hy & _)]; [exact Hy|rewrite Hy; intros []].
      + cbn [join_tokens t_ctx]. apply merge_l; [apply Hx|]. apply (last_in (fun t => E (t_ctx t))); [apply inn_near, Hx|]. eapply Forall_impl; [|exact Ha]. intros y [Hy|(_ & _ & Hy)]; [apply inn_near, Hy|exact Hy].
    - right; right. split; [|exact He]. destruct Ht as (_ & Hv & Hc). split; [cbn; rewrite Hv; reflexivity|]. left. cbn. apply merge_near; exact Hc.
  Qed.

  (* ---------------------------------------------------------- the rules *)
  Section Rules.
  Context {X : Type} (J : X -> Prop) (S : message -> Prop).
  Definition alright (e : exn) : Prop := match e with ExMau m => S m | _ => True end.
  Definition wpx {A} (Post : A -> list token * X -> Prop) (m : P X A) (s : list token * X) : Prop :=
    match m s with (s', Ok a) => Post a s' | (s', Exc e) => J (snd s') /\ alright e end.
  Definition good (s : list token * X) : Prop := I (fst s) /\ J (snd s).
  Definition does {A} (R : A -> Prop) (m : P X A) : Prop := forall s, good s -> wpx (fun a s' => good s' /\ R a) m s.

  Lemma x_ret {A} (Post : A -> _ -> Prop) a s : Post a s -> wpx Post (pret a) s.
  Proof. intros H. exact H. Qed.
  Lemma x_bind {A B} (Post : B -> _ -> Prop) (m : P X A) (f : A -> P X B) s : wpx (fun a s' => wpx Post (f a) s') m s -> wpx Post (pbind m f) s.
  Proof. unfold wpx, pbind. destruct (m s) as [s' [a|e]]; auto. Qed.
  Lemma x_weak {A} (Post Post' : A -> _ -> Prop) m s : (forall a s', Post a s' -> Post' a s') -> wpx Post m s -> wpx Post' m s.
  Proof. intros H. unfold wpx. destruct (m s) as [s' [a|e]]; auto. Qed.
  Lemma x_with {A} (Post : option A -> _ -> Prop) (m : P X A) s :
    wpx (fun a s' => Post (Some a) s') m s -> (forall x, J x -> Post None (fst s, x)) -> wpx Post (pwith m) s.
  Proof. unfold wpx, pwith. intros H H0. destruct (m s) as [s' [a|[]]]; auto; try exact H; apply H0, H. Qed.

  Lemma d_weak {A} (R R' : A -> Prop) m : (forall a, R a -> R' a) -> does R m -> does R' m.
  Proof. intros H K s Hs. eapply x_weak; [|exact (K s Hs)]. intros a s' [H1 H2]. auto. Qed.
  Lemma d_ret {A} (R : A -> Prop) a : R a -> does R (pret a).
  Proof. intros H s Hs. split; [exact Hs|exact H]. Qed.
  Lemma d_raise {A} (R : A -> Prop) e : alright e -> does R (praise e).
  Proof. intros H s [_ Hs]. split; [exact Hs|exact H]. Qed.
  Lemma d_lift {A} (R : A -> Prop) r : (forall a, r = Ok a -> R a) -> (forall m, r = Exc (ExMau m) -> S m) -> does R (plift r).
  Proof.
    intros H1 H2 s Hs. unfold wpx, plift. destruct r as [a|e]; [split; [exact Hs|apply H1; reflexivity]|]. split; [apply Hs|]. destruct e; try exact Logic.I. apply H2. reflexivity.
  Qed.
  Lemma d_bind {A B} (R : A -> Prop) (R' : B -> Prop) m (f : A -> P X B) : does R m -> (forall a, R a -> does R' (f a)) -> does R' (pbind m f).
  Proof. intros H K s Hs. apply x_bind. eapply x_weak; [|exact (H s Hs)]. cbn. intros a s' [H1 H2]. exact (K a H2 s' H1). Qed.
  Lemma d_get : does J pget.
  Proof. intros s Hs. split; [exact Hs|apply Hs]. Qed.
  Lemma d_mod g : (forall x, J x -> J (g x)) -> does (fun _ => True) (pmod g).
  Proof. intros H s [H1 H2]. unfold wpx, pmod, good. cbn [fst snd]. auto. Qed.
  Lemma d_with {A} (R : A -> Prop) m : does R m -> does (fun o => match o with Some a => R a | None => True end) (pwith m).
  Proof. intros H s Hs. apply x_with; [eapply x_weak; [|exact (H s Hs)]; cbn; auto|]. intros x Hx. split; [split; [apply Hs|exact Hx]|exact Logic.I]. Qed.
  Lemma d_if {A} (R : A -> Prop) (b : bool) m m' : does R m -> does R m' -> does R (if b then m else m').
  Proof. destruct b; auto. Qed.

  Lemma check_ok t ty v f u : check_token t ty v f = Ok u -> u = t /\ (forall k, ty = Some k -> t_type t = k).
  Proof.
    unfold check_token. destruct ty as [k|]; [destruct (tt_eqb_spec (t_type t) k); cbn [negb]; [|discriminate]|]; (destruct v; [destruct (negb _); [discriminate|]|]); (destruct f; [destruct (negb _); [discriminate|]|]);
      intros H; apply Ok_inv in H; (split; [auto|]); intros k' E0; congruence.
  Qed.
  Lemma check_exc t ty v f e : check_token t ty v f = Exc e -> alright e.
  Proof.
    unfold check_token. destruct ty as [k|]; [destruct (negb _); [intros [= <-]; exact Logic.I|]|]; (destruct v; [destruct (negb _); [intros [= <-]; exact Logic.I|]|]); (destruct f; [destruct (negb _); [intros [= <-]; exact Logic.I|]|]); discriminate.
  Qed.
  Lemma d_peek : does (fun t => inn t \/ ending t) (ppeek None None None).
  Proof. intros [rem x] Hs. destruct (fair_head _ (proj1 Hs)) as (t & r & E0 & HC). cbn [fst] in E0. subst rem. unfold wpx, ppeek. cbn [fst peek_tok check_token]. split; [exact Hs|]. tauto. Qed.
  Lemma d_get_token ty v f : ty <> T_EOF -> does inn (pget_token (Some ty) v f).
  Proof.
    intros Hty [rem x] Hs. destruct (fair_head _ (proj1 Hs)) as (t & r & E0 & HC). cbn [fst] in E0. subst rem. unfold wpx, pget_token. cbn [fst snd peek_tok].
    destruct (check_token t (Some ty) v f) as [u|e] eqn:Ec; [|split; [apply Hs|exact (check_exc _ _ _ _ _ Ec)]].
    apply check_ok in Ec as [-> Ec]. specialize (Ec ty eq_refl). split; [split; [apply fair_next, (proj1 Hs)|apply Hs]|]. destruct HC as [[H _]|[[H _] _]]; [exact H|congruence].
  Qed.
  Lemma d_get_tok : does (fun t => inn t \/ ending t) get_tok.
  Proof.
    intros [rem x] Hs. destruct (fair_head _ (proj1 Hs)) as (t & r & E0 & HC). cbn [fst] in E0. subst rem. unfold wpx, get_tok, pget_token. cbn [fst snd peek_tok check_token].
    split; [split; [apply fair_next, (proj1 Hs)|apply Hs]|]. tauto.
  Qed.
  Lemma d_is ty v f : does (fun _ => True) (peek_is ty v f).
  Proof.
    intros [rem x] Hs. destruct (fair_head _ (proj1 Hs)) as (t & r & E0 & HC). cbn [fst] in E0. subst rem. unfold wpx, peek_is. cbn [fst peek_tok].
    destruct (check_token t ty v f) as [u|e] eqn:Ec; [split; auto|]. pose proof (check_exc _ _ _ _ _ Ec) as K. destruct e; [split; auto|split; [apply Hs|exact K]|split; [apply Hs|exact K]|split; [apply Hs|exact K]].
  Qed.
  Lemma x_collect stops p s : good s -> wpx (fun t s' => good s' /\ ((loose t /\ t_ctx t = empty_context) \/ solid t \/ (loose t /\ ended (fst s'))) /\
      (forall u r, fst s = u :: r -> token_in u (stops ++ [EOF_tok]) = false -> solid t \/ (loose t /\ ended (fst s')))) (pcollect_join stops [] p) s.
  Proof.
    intros Hs. unfold pcollect_join. apply x_bind. unfold wpx at 1, pcollect.
    assert (He : token_in EOF_tok (stops ++ [EOF_tok]) = true) by (unfold token_in; rewrite existsb_app; cbn; rewrite orb_true_r; reflexivity).
    destruct (collect_list (stops ++ [EOF_tok]) p (fst s)) as [[c rest]|e] eqn:Ec.
    - destruct (collect_taken _ p He _ _ (le_n _) (proj1 Hs) _ _ Ec) as (A1 & A2 & A3). apply x_ret. cbn [fst snd]. split; [split; [exact A1|apply Hs]|]. pose proof (taken_join _ _ A2) as A4. split.
      + destruct A4 as [[_ ->]|A4]; [left; split; [split; [reflexivity|right; reflexivity]|reflexivity]|tauto].
      + intros u r Hu Hn. specialize (A3 u r Hu Hn). tauto.
    - destruct (collect_calm (stops ++ [EOF_tok]) p (fst s) (fair_eof _ (proj1 Hs)) He) as (c & rest & K & _). congruence.
  Qed.
  Lemma d_collect stops p : does value (pcollect_join stops [] p).
  Proof. intros s Hs. eapply x_weak; [|exact (x_collect stops p s Hs)]. intros t s' (H1 & [[H2 _]|[H2|[H2 _]]] & _); (split; [exact H1|]); unfold value; auto. Qed.

  (* the loop *)
  Context (HS : forall msg c, Q c -> S (MsgParser msg (Some c))).
  Lemma x_try fns : Forall (does (fun b => b = true)) fns -> forall s, good s -> wpx (fun b s' => good s' /\ (b = false -> fst s' = fst s)) (ptry fns) s.
  Proof.
    induction 1 as [|f fns Hf _ IH]; intros s Hs; [apply x_ret; auto|]. cbn [ptry]. apply x_bind, x_with.
    - eapply x_weak; [|exact (Hf s Hs)]. intros b s' [H1 ->]. apply x_ret. split; [exact H1|discriminate].
    - intros x Hx. assert (Hs' : good (fst s, x)) by (split; [apply Hs|exact Hx]). eapply x_weak; [|exact (IH _ Hs')]. cbn. auto.
  Qed.
  Lemma x_loop fns : Forall (does (fun b => b = true)) fns -> forall n last s, good s -> wpx (fun _ s' => good s') (ploop n fns last) s.
  Proof.
    intros Hf. induction n as [|n IH]; intros last [rem x] Hs; [split; [apply Hs|exact Logic.I]|].
    destruct (fair_head _ (proj1 Hs)) as (t & r & E0 & HC). cbn [fst] in E0. subst rem. cbn [ploop]. apply x_bind.
    unfold wpx at 1, is_ty, peek_is. cbn [fst peek_tok]. unfold check_token. destruct (tt_eqb_spec (t_type t) T_EOF) as [Et|Et]; cbn [negb]; [apply x_ret, Hs|].
    destruct HC as [(Ht & _)|((K & _) & _)]; [|contradiction]. apply x_bind. unfold wpx at 1, ppeek at 1. cbn [fst peek_tok check_token].
    destruct (_ && _); [split; [apply Hs|apply HS, Ht]|]. apply x_bind. eapply x_weak; [|exact (x_try fns Hf _ Hs)]. intros [|] s' [H1 H2]; [apply IH, H1|].
    specialize (H2 eq_refl). destruct s' as [rem' x']. cbn [fst] in H2. subst rem'. apply x_bind. unfold wpx at 1, ppeek. cbn [fst peek_tok check_token]. split; [apply H1|apply HS, Ht].
  Qed.
  Lemma run_places fns toks x0 : Forall (does (fun b => b = true)) fns -> I toks -> J x0 ->
    match prun (Ok toks) x0 fns with Ok x => J x | Exc e => alright e end.
  Proof.
    intros Hf Hi Hj. unfold prun, pparse. cbn [rbind fst]. pose proof (x_loop fns Hf (Datatypes.S (Datatypes.S (2 * length toks))) start_token (toks, x0) (conj Hi Hj)) as K. unfold wpx in K.
    destruct (ploop _ fns start_token (toks, x0)) as [s [u|e]]; apply K.
  Qed.
  End Rules.
End Hoare.
