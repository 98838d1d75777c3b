(* MonoFacts.v -- the result of a document that does not run out of depth does not
   depend on the depth *)
From Verif Require Import DocFacts SimFacts.

Section Approx.
  Context (bot : exn) (Hbot : bot <> ExTokenError).
  (* the first gives up, or they do the same *)
  Definition below {A} (r1 r2 : res A) : Prop := r1 = Exc bot \/ r1 = r2.
  Definition approx {A} (m1 m2 : D A) : Prop := forall s, snd (m1 s) = Exc bot \/ m1 s = m2 s.

  Lemma approx_refl {A} (m : D A) : approx m m.
  Proof. intros s. right. reflexivity. Qed.
  Lemma approx_bind {A B} (m1 m2 : D A) (f1 f2 : A -> D B) : approx m1 m2 -> (forall a, approx (f1 a) (f2 a)) -> approx (pbind m1 f1) (pbind m2 f2).
  Proof.
    intros H1 H2 s. destruct (H1 s) as [E|E].
    - left. apply bind_exc, E.
    - unfold pbind. rewrite <- E. destruct (m1 s) as [s' [a|e]]; [apply H2|right; reflexivity].
  Qed.
  Lemma approx_lift {A} (r1 r2 : res A) : below r1 r2 -> approx (plift r1) (plift r2).
  Proof. intros [->| ->] s; [left|right]; reflexivity. Qed.
  Lemma approx_with {A} (m1 m2 : D A) : approx m1 m2 -> approx (pwith m1) (pwith m2).
  Proof.
    intros H s. destruct (H s) as [E|E]; unfold pwith.
    - left. destruct (m1 s) as [s' r]. cbn [snd] in E. subst r. destruct bot; [congruence| | |]; reflexivity.
    - right. rewrite E. reflexivity.
  Qed.
  Lemma approx_try fns1 fns2 : Forall2 approx fns1 fns2 -> approx (ptry fns1) (ptry fns2).
  Proof.
    induction 1 as [|f g l l' H H' IH]; [apply approx_refl|]. cbn [ptry]. apply approx_bind; [apply approx_with, H|].
    intros [[|]|]; [apply approx_refl|exact IH|exact IH].
  Qed.
  Lemma approx_loop n fns1 fns2 : Forall2 approx fns1 fns2 -> forall last, approx (ploop n fns1 last) (ploop n fns2 last).
  Proof.
    intros H. induction n as [|n IH]; intros last; [apply approx_refl|]. cbn [ploop]. apply approx_bind; [apply approx_refl|]. intros [|]; [apply approx_refl|].
    apply approx_bind; [apply approx_refl|]. intros t. destruct (_ && _); [apply approx_refl|]. apply approx_bind; [apply approx_try, H|].
    intros [|]; [apply IH|apply approx_refl].
  Qed.
  Lemma approx_run toks x0 fns1 fns2 : Forall2 approx fns1 fns2 -> below (prun (Ok toks) x0 fns1) (prun (Ok toks) x0 fns2).
  Proof.
    intros H. unfold prun, pparse. cbn [rbind fst]. destruct (approx_loop (S (S (2 * length toks))) _ _ H start_token (toks, x0)) as [E|E].
    - left. destruct (ploop _ fns1 start_token (toks, x0)) as [s r]. cbn [snd] in E. rewrite E. reflexivity.
    - right. rewrite E. reflexivity.
  Qed.

  Context (cf : config) (run1 run2 : run_fn) (Hrun : forall e n d f t o, below (run1 e n d f t o) (run2 e n d f t o)).
  Lemma approx_engine engine ctx content classes a : approx (dp_engine run1 engine ctx content classes a) (dp_engine run2 engine ctx content classes a).
  Proof.
    unfold dp_engine. destruct (str_eqb engine (lit "default")); [|apply approx_refl]. apply approx_bind; [|intros; apply approx_refl].
    unfold dp_default_engine. destruct content as [t|]; [|apply approx_refl]. destruct (token_truthy t); [|apply approx_refl].
    apply approx_bind; [apply approx_refl|]. intros x. apply approx_bind; [apply approx_lift, Hrun|]. intros y. apply approx_refl.
  Qed.
  Lemma approx_block : approx (dp_block run1) (dp_block run2).
  Proof.
    unfold dp_block. do 4 (apply approx_bind; [apply approx_refl|intro]). unfold dp_do_block. apply approx_bind; [apply approx_refl|]. intros b.
    destruct (pop_arg b (lit "classes")) as [cl q1]. destruct (pop_arg q1 (lit "engine")) as [en q2]. apply approx_bind; [apply approx_engine|]. intros r. apply approx_refl.
  Qed.
  Lemma approx_mau a ctx : approx (dp_mau cf run1 a ctx) (dp_mau cf run2 a ctx).
  Proof.
    unfold dp_mau. destruct (pop_arg _ (lit "uri")) as [u a1]. destruct (pop_arg a1 (lit "pass_environment")) as [p a2].
    do 3 (apply approx_bind; [apply approx_refl|intro]). destruct (source_in _ _); [apply approx_refl|].
    do 4 (apply approx_bind; [apply approx_refl|intro]). cbv zeta. apply approx_bind; [apply approx_lift, Hrun|]. intros y. apply approx_refl.
  Qed.
  Lemma approx_include : approx (dp_include cf run1) (dp_include cf run2).
  Proof.
    unfold dp_include. do 5 (apply approx_bind; [apply approx_refl|intro]). unfold dp_do_include. apply approx_bind; [|intro; apply approx_refl].
    destruct (str_eqb _ _); [apply approx_refl|]. destruct (str_eqb _ _); [apply approx_mau|]. apply approx_refl.
  Qed.
  Lemma approx_fns : Forall2 approx (dp_fns cf run1) (dp_fns cf run2).
  Proof.
    unfold dp_fns. repeat (constructor; [first [apply approx_block | apply approx_include | apply approx_refl]|]). constructor.
  Qed.
End Approx.

(* one level of the parser of documents, whatever reads blocks and files *)
Definition dp_level (cf : config) (run : run_fn) : run_fn := fun e next done forbidden text o =>
  let? tokens := lex_document (buffer text o) in
  let? x0 := dp_init e next done forbidden in
  let? x := prun (Ok tokens) x0 (dp_fns cf run) in
  dp_finalise cf (dx_env x0) x.
Lemma level_below bot cf run1 run2 : bot <> ExTokenError -> (forall e n d f t o, below bot (run1 e n d f t o) (run2 e n d f t o)) ->
  forall e n d f t o, below bot (dp_level cf run1 e n d f t o) (dp_level cf run2 e n d f t o).
Proof.
  intros Hb H e n d f t o. unfold dp_level. destruct (lex_document _) as [toks|]; cbn [rbind]; [|right; reflexivity].
  destruct (dp_init e n d f) as [x0|]; cbn [rbind]; [|right; reflexivity].
  destruct (approx_run bot Hb toks x0 _ _ (approx_fns bot cf _ _ H)) as [E|E]; rewrite E; [left|right]; reflexivity.
Qed.
Lemma dp_run_level n cf e next done forb text o : dp_run (S n) cf e next done forb text o = dp_level cf (dp_run n cf) e next done forb text o.
Proof. reflexivity. Qed.

Lemma run_below cf n m : n <= m -> forall e next done forb text o,
  below (ExPy "RecursionError") (dp_run n cf e next done forb text o) (dp_run m cf e next done forb text o).
Proof.
  revert m. induction n as [|n IH]; intros m Hm e next done forb text o; [left; reflexivity|]. destruct m as [|m]; [lia|].
  rewrite !dp_run_level. apply level_below; [discriminate|]. intros e' n' d' f' t' o'. exact (IH m ltac:(lia) e' n' d' f' t' o').
Qed.
