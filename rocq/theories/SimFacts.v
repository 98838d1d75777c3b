(* SimFacts.v -- two document parsers whose inner parsers agree where they are
   used do the same *)
From Verif Require Import DocFacts.

Section Sim.
  Context (toks : list token) (F : list (option str)) (Hdoc : doc_tokens toks).

  (* what holds of the parser's state all along *)
  Definition inv (s : list token * dx) : Prop :=
    ((exists pre, toks = pre ++ fst s) /\ doc_tokens (fst s)) /\ incl F (dx_forbidden (snd s)).
  Definition same {A} (m1 m2 : D A) : Prop := forall s, inv s -> m1 s = m2 s /\ inv (fst (m1 s)).

  Lemma same_bind {A B} (m1 m2 : D A) (f1 f2 : A -> D B) : same m1 m2 -> (forall a, same (f1 a) (f2 a)) -> same (pbind m1 f1) (pbind m2 f2).
  Proof.
    intros H1 H2 s Hs. destruct (H1 s Hs) as [E K]. unfold pbind. rewrite <- E. destruct (m1 s) as [s' [a|e]]; cbn [fst] in *; [exact (H2 a s' K)|].
    split; [reflexivity|exact K].
  Qed.
  Lemma at_bind {A B} (m : D A) (f1 f2 : A -> D B) s s' : fst (m s) = s' -> inv s' -> (forall a, f1 a s' = f2 a s' /\ inv (fst (f1 a s'))) ->
    pbind m f1 s = pbind m f2 s /\ inv (fst (pbind m f1 s)).
  Proof. unfold pbind. destruct (m s) as [s1 [a|e]]; cbn [fst]; intros -> Hs H; [apply H|split; [reflexivity|exact Hs]]. Qed.
  Lemma same_still {A} (r : list token * dx -> res A) : same (fun s => (s, r s)) (fun s => (s, r s)).
  Proof. intros s H. split; [reflexivity|exact H]. Qed.
  Lemma same_ret {A} (a : A) : same (pret a) (pret a).
  Proof. exact (same_still (fun _ => Ok a)). Qed.
  Lemma same_raise {A} e : same (praise e : D A) (praise e).
  Proof. exact (same_still (fun _ => Exc e)). Qed.
  Lemma same_lift {A} (r : res A) : same (plift r) (plift r).
  Proof. exact (same_still (fun _ => r)). Qed.
  Lemma same_get : same pget pget.
  Proof. exact (same_still (fun s => Ok (snd s))). Qed.
  Lemma same_peek ty v f : same (ppeek ty v f) (ppeek ty v f).
  Proof. exact (same_still (fun s => peek_tok (fst s) ty v f)). Qed.
  Lemma same_peek_is ty v f : same (peek_is ty v f) (peek_is ty v f).
  Proof. intros s H. split; [reflexivity|exact H]. Qed.
  Lemma same_mod g : (forall x, incl F (dx_forbidden x) -> incl F (dx_forbidden (g x))) -> same (pmod g) (pmod g).
  Proof. intros H s [H1 H2]. split; [reflexivity|]. split; [exact H1|]. apply H, H2. Qed.
  Lemma next_suffix rem : (exists pre, toks = pre ++ rem) /\ doc_tokens rem -> (exists pre, toks = pre ++ next_rem rem) /\ doc_tokens (next_rem rem).
  Proof.
    intros [[pre ->] Hd]. destruct rem as [|t [|u r]]; [split; [exists pre; reflexivity|exact Hd]|split; [exists pre; reflexivity|exact Hd]|]. split.
    - exists (pre ++ [t]). rewrite <- app_assoc. reflexivity.
    - apply (doc_tokens_cons t (u :: r) Hd). intros E. pose proof (doc_tokens_eof _ _ Hd E). discriminate.
  Qed.
  Lemma same_get_token ty v f : same (pget_token ty v f) (pget_token ty v f).
  Proof.
    intros s H. split; [reflexivity|]. unfold pget_token. destruct (peek_tok (fst s) ty v f); [|exact H]. split; [apply next_suffix, H|apply H].
  Qed.
  Lemma same_with {A} (m1 m2 : D A) : same m1 m2 -> same (pwith m1) (pwith m2).
  Proof.
    intros H s Hs. destruct (H s Hs) as [E [K1 K2]]. unfold pwith. rewrite <- E. destruct (m1 s) as [s' [a|e]]; cbn [fst snd] in *.
    - split; [reflexivity|split; assumption].
    - destruct e; (split; [reflexivity|split; [apply Hs|exact K2]]).
  Qed.
  Lemma same_try fns1 fns2 : Forall2 same fns1 fns2 -> same (ptry fns1) (ptry fns2).
  Proof.
    induction 1 as [|f g l l' H H' IH]; [apply same_ret|]. cbn [ptry]. apply same_bind; [apply same_with, H|]. intros [[|]|]; [apply same_ret|exact IH|exact IH].
  Qed.
  Lemma same_loop n fns1 fns2 : Forall2 same fns1 fns2 -> forall last, same (ploop n fns1 last) (ploop n fns2 last).
  Proof.
    intros H. induction n as [|n IH]; intros last; [apply same_raise|]. cbn [ploop]. apply same_bind; [apply same_peek_is|]. intros [|]; [apply same_ret|].
    apply same_bind; [apply same_peek|]. intros t. destruct (_ && _); [apply same_raise|]. apply same_bind; [apply same_try, H|]. intros [|]; [apply IH|].
    apply same_bind; [apply same_peek|]. intros u. apply same_raise.
  Qed.
  Lemma same_run fns1 fns2 x0 : Forall2 same fns1 fns2 -> incl F (dx_forbidden x0) ->
    prun (Ok toks) x0 fns1 = prun (Ok toks) x0 fns2 /\ forall y, prun (Ok toks) x0 fns1 = Ok y -> incl F (dx_forbidden y).
  Proof.
    intros H Hx. assert (I0 : inv (toks, x0)) by (split; [split; [exists []; reflexivity|exact Hdoc]|exact Hx]). unfold prun, pparse. cbn [rbind fst].
    destruct (same_loop (S (S (2 * length toks))) _ _ H start_token _ I0) as [E [_ K]]. rewrite <- E. split; [reflexivity|].
    intros y. destruct (ploop _ fns1 start_token (toks, x0)) as [s [u|e]]; [|discriminate]. intros Hy. apply Ok_inv in Hy. subst y. exact K.
  Qed.

  (* --------------------------------------------------------- the processors *)
  Ltac set_ok := let x := fresh "x" in let H := fresh "H" in intros x H; exact H.
  Ltac sm := repeat first
    [ apply same_ret | apply same_raise | apply same_lift | apply same_get | apply same_peek | apply same_peek_is | apply same_get_token
    | apply same_mod; set_ok
    | apply same_bind; [|intro]
    | match goal with
      | |- same (if ?c then _ else _) _ => destruct c
      | |- same (match ?c with _ => _ end) _ => destruct c
      end ].
  Lemma same_finish n : same (dp_finish n) (dp_finish n).
  Proof. unfold dp_finish, dp_admitted, dp_save. sm. Qed.
  Lemma same_pop_opt : same dp_pop_args_opt dp_pop_args_opt.
  Proof. unfold dp_pop_args_opt. sm. Qed.
  Lemma same_pop : same dp_pop_args dp_pop_args.
  Proof. unfold dp_pop_args, dp_pop_args_opt. sm. Qed.
  Lemma same_pop_labels : same dp_pop_labels dp_pop_labels.
  Proof. unfold dp_pop_labels. sm. Qed.
  Lemma same_fresh : same dp_fresh dp_fresh.
  Proof. unfold dp_fresh. sm. Qed.
  Lemma same_text cf t o : same (dp_text cf t o) (dp_text cf t o).
  Proof. unfold dp_text. sm. Qed.
  Lemma same_first_last {A} (l : list A) : same (first_last l) (first_last l).
  Proof. unfold first_last. sm. Qed.
  Ltac sn := repeat first [ apply same_finish | apply same_pop_opt | apply same_pop | apply same_pop_labels | apply same_fresh | apply same_text | apply same_first_last
    | progress sm ].

  Lemma same_eol : same dp_eol dp_eol.
  Proof. unfold dp_eol, get_ty. sn. Qed.
  Lemma same_rule : same dp_rule dp_rule.
  Proof. unfold dp_rule, dp_do_rule, get_ty. sn. Qed.
  Lemma same_variable : same dp_variable dp_variable.
  Proof. unfold dp_variable, dp_do_variable, get_ty, get_tv, get_tok. sn. Qed.
  Lemma same_label cf : same (dp_label cf) (dp_label cf).
  Proof. unfold dp_label, dp_do_label, get_ty. sn. Qed.
  Lemma same_control : same dp_control dp_control.
  Proof. unfold dp_control, dp_do_control, get_ty, get_tv. sn. Qed.
  Lemma same_arguments : same dp_arguments dp_arguments.
  Proof. unfold dp_arguments, dp_do_arguments, get_ty, get_tv. sn. Qed.
  Lemma same_header cf : same (dp_header cf) (dp_header cf).
  Proof. unfold dp_header, dp_do_header, dp_save, dp_admitted, get_ty. sn. Qed.
  Lemma same_item cf : same (dp_item cf) (dp_item cf).
  Proof. unfold dp_item, dp_do_item, get_ty. sn. Qed.
  Lemma same_items cf n : forall l, same (dp_items cf n l) (dp_items cf n l).
  Proof.
    induction n as [|n IH]; intros l; [apply same_raise|]. cbn [dp_items]. unfold is_ty. repeat first [apply same_item | apply IH | progress sn].
  Qed.
  Lemma same_list cf : same (dp_list cf) (dp_list cf).
  Proof.
    intros s Hs. unfold dp_list. revert Hs. generalize (S (length (fst s))). intros k Hs. revert s Hs.
    change (same (let* head := ppeek (Some T_LIST) None None in let* item := dp_item cf in let* rest := dp_items cf k (length (t_value head)) in dp_do_list head item rest)
                 (let* head := ppeek (Some T_LIST) None None in let* item := dp_item cf in let* rest := dp_items cf k (length (t_value head)) in dp_do_list head item rest)).
    unfold dp_do_list. repeat first [apply same_item | apply same_items | progress sn].
  Qed.
  Lemma same_lines n : same (dp_lines n) (dp_lines n).
  Proof. induction n as [|n IH]; [apply same_raise|]. cbn [dp_lines]. unfold get_ty. repeat first [apply IH | progress sn]. Qed.
  Lemma same_line_nodes cf l : same (dp_line_nodes cf l) (dp_line_nodes cf l).
  Proof. induction l as [|t l IH]; [apply same_ret|]. cbn [dp_line_nodes]. repeat first [apply IH | progress sn]. Qed.
  Lemma same_paragraph cf : same (dp_paragraph cf) (dp_paragraph cf).
  Proof.
    intros s Hs. unfold dp_paragraph. revert Hs. generalize (S (length (fst s))). intros k Hs. revert s Hs.
    change (same (let* ts := dp_lines k in dp_do_paragraph cf ts) (let* ts := dp_lines k in dp_do_paragraph cf ts)).
    unfold dp_do_paragraph. repeat first [apply same_lines | apply same_line_nodes | progress sn].
  Qed.

  (* ------------------------------------------------ blocks and inclusions *)
  Context (cf : config) (run1 run2 : run_fn).
  Definition after_block (t : token) : Prop := exists a f b, toks = a ++ f :: t :: b /\ t_type f = T_BLOCK /\ t_type t = T_TEXT.
  Context (Hblock : forall t, after_block t -> forall e n d o, run1 e n d [] (t_value t) o = run2 e n d [] (t_value t) o).
  Context (Hmau : (exists t, In t toks /\ t_type t = T_INCLUDE) ->
    forall uri text forb, cf_files cf uri = File text -> incl F forb -> In (Some uri) forb -> ~ In (Some uri) F ->
    forall e n d o, run1 e n d forb text o = run2 e n d forb text o).
  Context (Hmono : forall e n d forb text o y, run1 e n d forb text o = Ok y -> incl forb (dx_forbidden y)).

  Lemma same_do_block o t c : (forall u, t = Some u -> after_block u) -> same (dp_do_block run1 o t c) (dp_do_block run2 o t c).
  Proof.
    intros Ht. unfold dp_do_block. apply same_bind; [apply same_pop|]. intros a. destruct (pop_arg a (lit "classes")) as [cl a1]. destruct (pop_arg a1 (lit "engine")) as [en a2].
    apply same_bind; [|intros [[node a3] nctx]; sn].
    unfold dp_engine. destruct (str_eqb _ _).
    - apply same_bind; [|intros nodes; apply same_ret]. unfold dp_default_engine. destruct t as [t|]; [|apply same_ret]. destruct (token_truthy t); [|apply same_ret].
      apply same_bind; [apply same_get|]. intros x. rewrite (Hblock t (Ht t eq_refl)). sn.
    - sn.
  Qed.
  Lemma inv_next t r x : inv (t :: r, x) -> t_type t <> T_EOF -> inv (r, x) /\ (forall u r', r = u :: r' -> exists a, toks = a ++ t :: u :: r').
  Proof.
    intros [[[pre E] Hd] Hx] Ht. destruct (doc_tokens_cons _ _ Hd Ht) as [Hd' _]. split.
    - split; [split; [exists (pre ++ [t]); rewrite <- app_assoc; exact E|exact Hd']|exact Hx].
    - intros u r' ->. exists pre. exact E.
  Qed.
  Lemma same_block : same (dp_block run1) (dp_block run2).
  Proof.
    intros [rem x] Hs. unfold dp_block. destruct rem as [|o r]; [exfalso; exact (doc_tokens_ne _ (proj2 (proj1 Hs)) eq_refl)|].
    destruct (tt_eqb_spec (t_type o) T_BLOCK) as [Eo|No]; [|rewrite !get_ty_no by exact No; split; [reflexivity|exact Hs]].
    pose proof (proj2 (proj1 Hs)) as Hd. rewrite !get_ty_ok by (try exact Hd; try exact Eo; discriminate).
    destruct (inv_next o r x Hs ltac:(congruence)) as [Hs1 Ha]. clear Hs Hd. destruct r as [|t r]; [exfalso; exact (doc_tokens_ne _ (proj2 (proj1 Hs1)) eq_refl)|].
    specialize (Ha t r eq_refl). destruct Ha as [a Ha].
    rewrite !(bind_ok (ppeek None None None) _ (t :: r, x) (t :: r, x) t eq_refl).
    destruct (tt_eqb_spec (t_type t) T_TEXT) as [Et|Nt].
    - assert (G : (let* t := get_ty T_TEXT in pret (Some t)) (t :: r, x) = ((r, x), Ok (Some t))).
      { rewrite get_ty_ok; [reflexivity|exact Et|exact (proj2 (proj1 Hs1))|discriminate]. }
      rewrite !(bind_ok _ _ _ _ _ G). destruct (inv_next t r x Hs1 ltac:(congruence)) as [Hs2 _].
      refine (same_bind _ _ _ _ (same_get_token _ _ _) _ _ Hs2). intros c. apply same_do_block. intros u Eu. injection Eu as <-. exists a, o, r. auto.
    - rewrite !(bind_ok (pret None) _ (t :: r, x) (t :: r, x) None eq_refl). refine (same_bind _ _ _ _ (same_get_token _ _ _) _ _ Hs1).
      intros c. apply same_do_block. discriminate.
  Qed.

  (* the state of the parser when the included file is read *)
  Lemma source_in_spec u l : source_in u l = true <-> In u l.
  Proof.
    unfold source_in. rewrite existsb_exists. split.
    - intros (v & H & E). destruct u as [u|], v as [v|]; try discriminate; [|exact H]. destruct (str_eqb_spec u v) as [->|]; [exact H|discriminate].
    - intros H. exists u. split; [exact H|]. destruct u; [apply str_eqb_refl|reflexivity].
  Qed.
  Lemma add_source_incl u l : incl l (add_source u l) /\ In u (add_source u l).
  Proof.
    unfold add_source. destruct (source_in u l) eqn:E; [split; [apply incl_refl|apply source_in_spec, E]|].
    split; [apply incl_appl, incl_refl|apply in_or_app; right; left; reflexivity].
  Qed.
  Lemma same_need_uri u c : same (need_uri u c) (need_uri u c).
  Proof. unfold need_uri. sn. Qed.
  Lemma same_mau a ctx : (exists t, In t toks /\ t_type t = T_INCLUDE) -> same (dp_mau cf run1 a ctx) (dp_mau cf run2 a ctx).
  Proof.
    intros Hi. unfold dp_mau. destruct (pop_arg _ (lit "uri")) as [u a1]. destruct (pop_arg _ (lit "pass_environment")) as [pass a2].
    apply same_bind; [apply same_need_uri|]. intros uri.
    apply same_bind; [apply same_mod; intros x Hx; cbn; intros v Hv; apply add_source_incl, Hx, Hv|]. intros _.
    intros [rem x] Hs. rewrite !(bind_ok pget _ (rem, x) (rem, x) x eq_refl).
    destruct (source_in (Some uri) (dx_forbidden x)) eqn:Eu; [exact (same_raise _ _ Hs)|].
    assert (Nu : ~ In (Some uri) F).
    { intros K. apply (proj2 Hs) in K. apply source_in_spec in K. cbn [snd] in K. congruence. }
    cbv zeta. pose (y := set_forbidden x (add_source (Some uri) (dx_forbidden x))).
    assert (Hy : inv (rem, y)) by (split; [exact (proj1 Hs)|]; intros v Hv; apply add_source_incl, (proj2 Hs), Hv).
    assert (Yu : In (Some uri) (dx_forbidden y)) by apply add_source_incl.
    rewrite !(bind_ok (pmod _) _ (rem, x) (rem, y) tt eq_refl). clearbody y. clear x Hs Eu.
    unfold dp_read. destruct (cf_files cf uri) as [text| |cl] eqn:Ef; [|exact (same_raise _ _ Hy)|exact (same_raise _ _ Hy)].
    rewrite !(bind_ok (pret text) _ (rem, y) (rem, y) text eq_refl), !(bind_ok pget _ (rem, y) (rem, y) y eq_refl).
    apply (at_bind _ _ _ (rem, y) (rem, y)); [destruct (str_eqb _ _); reflexivity|exact Hy|].
    intros e. cbv beta.
    rewrite <- (Hmau Hi uri text (dx_forbidden y) Ef (proj2 Hy) Yu Nu).
    destruct (run1 _ _ _ (dx_forbidden y) text _) as [z|ex] eqn:Er; [|exact (same_lift _ _ Hy)].
    rewrite !(bind_ok (plift (Ok z)) _ (rem, y) (rem, y) z eq_refl). apply Hmono in Er.
    refine (same_bind _ _ _ _ (same_mod _ _) (fun _ => same_ret _) _ Hy). intros x _. cbn. intros v Hv. apply Er, (proj2 Hy), Hv.
  Qed.
  Lemma same_include : same (dp_include cf run1) (dp_include cf run2).
  Proof.
    intros [rem x] Hs. unfold dp_include. destruct rem as [|o r]; [exfalso; exact (doc_tokens_ne _ (proj2 (proj1 Hs)) eq_refl)|].
    destruct (tt_eqb_spec (t_type o) T_INCLUDE) as [Eo|No]; [|rewrite !get_ty_no by exact No; split; [reflexivity|exact Hs]].
    pose proof (proj2 (proj1 Hs)) as Hd. rewrite !get_ty_ok by (try exact Hd; try exact Eo; discriminate).
    destruct (inv_next o r x Hs ltac:(congruence)) as [Hs1 _].
    assert (Hi : exists t, In t toks /\ t_type t = T_INCLUDE).
    { destruct Hs as [[[pre E] _] _]. exists o. split; [rewrite E; apply in_or_app; right; left; reflexivity|exact Eo]. }
    clear Hs Hd. revert Hs1. generalize (r, x). clear r x.
    match goal with |- forall s, _ -> ?f s = ?g s /\ _ => change (same f g) end.
    apply same_bind; [apply same_get_token|]. intros ty. apply same_bind; [apply same_pop_opt|]. intros boxed. apply same_bind; [apply same_peek_is|]. intros colon.
    apply same_bind; [unfold dp_inline_args, get_tv, get_ty; sn|]. intros a. unfold dp_do_include.
    apply same_bind; [|intros p; sn]. destruct (str_eqb _ _). { unfold dp_image. repeat first [apply same_need_uri | progress sn]. }
    destruct (str_eqb _ _); [apply same_mau, Hi|]. destruct (str_eqb _ _). { unfold dp_include_raw, dp_read. repeat first [apply same_need_uri | progress sn]. }
    unfold dp_toc, dp_footnotes, dp_blockgroup. sn.
  Qed.
  Lemma same_fns : Forall2 same (dp_fns cf run1) (dp_fns cf run2).
  Proof.
    unfold dp_fns. repeat (constructor; [first [apply same_eol | apply same_rule | apply same_variable | apply same_label | apply same_control | apply same_arguments
      | apply same_header | apply same_block | apply same_include | apply same_list | apply same_paragraph]|]). constructor.
  Qed.
End Sim.

(* a parser keeps the forbidden files, and adds to them *)
Lemma finalise_frame cf e x y : dp_finalise cf e x = Ok y -> dx_forbidden y = dx_forbidden x /\ dx_calls y = dx_calls x.
Proof.
  unfold dp_finalise. intros H. destruct (fm_process _ _ _) as [[a b]|]; [|discriminate]. cbn [rbind] in H.
  destruct (tm_process _ _) as [[[a' b'] c']|]; [|discriminate]. cbn [rbind] in H. destruct (hm_process _) as [h|]; [|discriminate]. cbn [rbind] in H.
  destruct (gm_process _) as [g|]; [|discriminate]. cbn [rbind] in H. apply Ok_inv in H. subst y. split; reflexivity.
Qed.
Lemma init_forbidden e n d f x : dp_init e n d f = Ok x -> dx_forbidden x = f.
Proof. unfold dp_init. destruct (not_callable _); [discriminate|]. intros H. apply Ok_inv in H. subst x. reflexivity. Qed.
Lemma run_forbidden cf n : forall e next done forb text o y, dp_run n cf e next done forb text o = Ok y -> incl forb (dx_forbidden y).
Proof.
  induction n as [|n IH]; intros e next done forb text o y; [discriminate|]. cbn [dp_run]. destruct (lex_document (buffer text o)) as [toks|] eqn:El; [|discriminate].
  cbn [rbind]. destruct (dp_init e next done forb) as [x0|] eqn:Ei; [|discriminate]. cbn [rbind]. destruct (prun _ _ _) as [x|] eqn:Er; [|discriminate]. cbn [rbind].
  intros Hf. apply finalise_frame in Hf as [-> _]. apply init_forbidden in Ei. subst forb.
  refine (proj2 (same_run toks (dx_forbidden x0) (lex_doc_tokens _ _ _ El) _ _ x0 (same_fns _ _ (lex_doc_tokens _ _ _ El) cf (dp_run n cf) (dp_run n cf) _ _ IH) (incl_refl _)) x Er); reflexivity.
Qed.
