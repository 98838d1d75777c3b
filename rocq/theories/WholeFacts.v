(* WholeFacts.v -- the managers know every header, list and group of the document *)
From Verif Require Export NumDoc SpecWhole.
#[local] Notation length := List.length.

Lemma ss_refl {A} (l : list A) : subseq l l.
Proof. induction l; constructor; assumption. Qed.
Lemma ss_app {A} (a b c d : list A) : subseq a b -> subseq c d -> subseq (a ++ c) (b ++ d).
Proof.
  intros H K. induction H as [l|x a b H IH|x a b H IH]; cbn [app]; [|constructor; exact IH|constructor; exact IH].
  induction l as [|x l IH]; cbn [app]; [exact K|constructor; exact IH].
Qed.
Lemma ss_more {A} (a b c : list A) : subseq a b -> subseq a (b ++ c).
Proof. intros H. rewrite <- (app_nil_r a). apply ss_app; [exact H|constructor]. Qed.
Lemma ss_left {A} (a b c : list A) : subseq (a ++ b) c -> subseq a c.
Proof.
  remember (a ++ b) as l eqn:E. intros H. revert a b E. induction H as [l|x l c H IH|x l c H IH]; intros a b E.
  - destruct a; [constructor|discriminate].
  - constructor. apply (IH a b E).
  - destruct a as [|y a]; [constructor|]. injection E as -> ->. apply ss_take, (IH a b eq_refl).
Qed.
Lemma ss_in {A} (a b : list A) : subseq a b -> incl a b.
Proof.
  induction 1 as [l|x a b H IH|x a b H IH]; [intros ? []|intros y Hy; right; auto|]. intros y [->|Hy]; [left; reflexivity|right; auto].
Qed.

Definition registered (x : dx) (m : nat * later) : Prop :=
  match snd m with
  | LHeader _ => In (fst m) (map h_id (tm_headers (dx_toc x)))
  | LFootnotes => In (fst m) (fm_lists (dx_foot x))
  | LGroup _ => In (fst m) (map mn_id (gm_groups (dx_groups x)))
  | _ => True
  end.
Definition known (x : dx) (m : nat * later) : Prop := filled (dx_done x) m \/ registered x m.
Definition stock (x : dx) : marks := nmarks (dx_nodes x) ++ bmarks (fm_bodies (dx_foot x)) ++ gmarks (gm_items (dx_groups x)).
(* so are the nodes in the groups and in the footnotes *)
Definition groups_filled (done : list assign) : Prop :=
  forall b, In b (flat_map set_apart done) -> forall m, In m (dmarks b) -> filled done m.
Section Whole.
Context (d0 : list assign).
(* M, H, T: the marks, headers and tables of contents of the node in hand *)
Record whole (M : marks) (H : list header) (T : list nat) (x : dx) : Prop := mkWhole {
  w_reg : forall m, In m (M ++ stock x) -> known x m;
  w_heads : subseq (map bare (flat_map toc_headers (dx_nodes x) ++ H)) (map bare (tm_headers (dx_toc x)));
  w_tocs : incl (flat_map toc_places (dx_nodes x) ++ T) (tm_nodes (dx_toc x));
  w_done : incl d0 (dx_done x);
  w_groups : groups_filled (dx_done x) }.

(* the managers of z have those of x, and more *)
Definition grows (x z : dx) : Prop :=
  (exists l, tm_headers (dx_toc z) = tm_headers (dx_toc x) ++ l) /\ incl (tm_nodes (dx_toc x)) (tm_nodes (dx_toc z)) /\
  incl (fm_lists (dx_foot x)) (fm_lists (dx_foot z)) /\ incl (gm_groups (dx_groups x)) (gm_groups (dx_groups z)) /\
  incl (dx_done x) (dx_done z).
Lemma known_grows x z m : grows x z -> known x m -> known z m.
Proof.
  intros ((l & E) & _ & G2 & G3 & G4) [H|H].
  - left. unfold filled in *. destruct (snd m); auto.
    + destruct H as (s & H). eauto.
    + destruct H as (s & H). eauto.
    + destruct H as (s & t & H). eauto.
  - right. unfold registered in *. destruct (snd m); auto.
    + rewrite E, map_app. apply in_or_app. auto.
    + apply (incl_map mn_id) in G3. auto.
Qed.
Lemma known_inline x m : inline m -> known x m.
Proof. intros H. right. unfold inline, registered in *. destruct (snd m); auto; contradiction. Qed.
Lemma whole_grows M H T x z : whole M H T x -> grows x z -> dx_nodes z = dx_nodes x -> incl (stock z) (stock x) -> dx_done z = dx_done x -> whole M H T z.
Proof.
  intros [W1 W2 W3 W4 W5] G En Hi Ed. constructor.
  - intros m Hm. apply (known_grows x); [exact G|]. apply W1. rewrite in_app_iff in *. destruct Hm as [Hm|Hm]; auto.
  - rewrite En. destruct G as ((l & E) & _). rewrite E, (map_app bare (tm_headers (dx_toc x))). apply ss_more, W2.
  - rewrite En. eapply incl_tran; [exact W3|]. apply G.
  - eapply incl_tran; [exact W4|]. apply G.
  - rewrite Ed. exact W5.
Qed.
Lemma grows_refl x z : dx_toc z = dx_toc x -> fm_lists (dx_foot z) = fm_lists (dx_foot x) -> gm_groups (dx_groups z) = gm_groups (dx_groups x) -> dx_done z = dx_done x -> grows x z.
Proof. intros E1 E2 E3 E4. unfold grows. rewrite E1, E2, E3, E4. split; [exists []; symmetry; apply app_nil_r|]. repeat split; apply incl_refl. Qed.
Lemma whole_same M H T x z : whole M H T x -> dx_nodes z = dx_nodes x -> dx_foot z = dx_foot x -> dx_toc z = dx_toc x -> dx_groups z = dx_groups x -> dx_done z = dx_done x -> whole M H T z.
Proof.
  intros W E1 E2 E3 E4 E5. eapply whole_grows; [exact W|apply grows_refl; congruence|exact E1| |exact E5]. unfold stock. rewrite E1, E2, E4. apply incl_refl.
Qed.
Lemma whole_mentions M H T x ms hs next : whole M H T x -> whole M H T (mentions x ms hs next).
Proof. intros W. eapply whole_grows; [exact W|apply grows_refl; reflexivity|reflexivity|apply incl_refl|reflexivity]. Qed.
Lemma whole_drop M H T x : whole M H T x -> whole [] [] [] x.
Proof.
  intros [W1 W2 W3 W4 W5]. constructor.
  - intros m Hm. apply W1. apply in_or_app. auto.
  - rewrite app_nil_r. rewrite map_app in W2. exact (ss_left _ _ _ W2).
  - rewrite app_nil_r. intros i Hi. apply W3, in_or_app. auto.
  - exact W4.
  - exact W5.
Qed.
Lemma whole_save M H T x n : whole M H T x -> (forall m, In m (dmarks n) -> In m M \/ inline m) -> toc_headers n = H -> toc_places n = T ->
  whole [] [] [] (set_nodes x (dx_nodes x ++ [n])).
Proof.
  intros [W1 W2 W3 W4 W5] Hm <- <-. constructor; cbn [set_nodes dx_nodes dx_toc].
  - intros m Hi. change (known (set_nodes x (dx_nodes x ++ [n])) m) with (known x m). cbn [app] in Hi. unfold stock in Hi. cbn [set_nodes dx_nodes dx_foot dx_groups] in Hi.
    rewrite nmarks_app, !in_app_iff in Hi. unfold nmarks at 2 in Hi. cbn [flat_map] in Hi. rewrite app_nil_r in Hi.
    destruct Hi as [[Hi|Hi]|Hi].
    + apply W1. unfold stock. rewrite !in_app_iff. auto.
    + destruct (Hm _ Hi) as [K|K]; [apply W1, in_or_app; auto|apply known_inline, K].
    + apply W1. unfold stock. rewrite !in_app_iff. tauto.
  - rewrite flat_map_app. cbn [flat_map]. rewrite !app_nil_r. exact W2.
  - rewrite flat_map_app. cbn [flat_map]. rewrite !app_nil_r. exact W3.
  - exact W4.
  - exact W5.
Qed.
Lemma whole_finish M H T x n y ok : whole M H T x -> (forall m, In m (dmarks n) -> In m M \/ inline m) -> toc_headers n = H -> toc_places n = T ->
  y = (if ok : bool then set_nodes (set_control x None) (dx_nodes x ++ [n]) else set_control x None) -> whole [] [] [] y.
Proof.
  intros W Hm Eh Et ->. destruct ok.
  - eapply whole_same; [eapply (whole_save _ _ _ x n); eassumption|..]; reflexivity.
  - eapply whole_same; [eapply whole_drop; exact W|..]; reflexivity.
Qed.

Definition child_whole (d : list assign) (y : dx) : Prop :=
  (forall m, In m (nmarks (dx_nodes y) ++ bmarks (fm_bodies (dx_foot y))) -> filled (dx_done y) m) /\ incl d (dx_done y) /\ groups_filled (dx_done y) /\
  subseq (map bare (flat_map toc_headers (dx_nodes y))) (map bare (tm_headers (dx_toc y))) /\
  incl (flat_map toc_places (dx_nodes y)) (tm_nodes (dx_toc y)).

Lemma grows_after x y iso : incl (dx_done x) (dx_done y) -> grows x (after_child x y iso).
Proof.
  intros H. unfold after_child. destruct iso; unfold grows; cbn.
  - split; [exists []; symmetry; apply app_nil_r|]. repeat split; try apply incl_refl. exact H.
  - split; [eexists; reflexivity|]. repeat split; try apply incl_refl; try apply incl_appl, incl_refl. exact H.
Qed.
Lemma whole_after x y (iso : bool) : whole [] [] [] x -> child_whole (dx_done x) y ->
  whole (nmarks (dx_nodes y)) (if iso then [] else flat_map toc_headers (dx_nodes y)) (if iso then [] else flat_map toc_places (dx_nodes y)) (after_child x y iso).
Proof.
  intros W (C1 & C2 & C5 & C3 & C4). pose proof (grows_after x y iso C2) as G. destruct W as [W1 W2 W3 W4 W5].
  assert (En : dx_nodes (after_child x y iso) = dx_nodes x) by (unfold after_child; destruct iso; reflexivity).
  assert (Ed : dx_done (after_child x y iso) = dx_done y) by (unfold after_child; destruct iso; reflexivity).
  assert (Eg : dx_groups (after_child x y iso) = dx_groups x) by (unfold after_child; destruct iso; reflexivity).
  constructor.
  - intros m Hm. assert (K : In m (nmarks (dx_nodes y) ++ bmarks (fm_bodies (dx_foot y))) \/ In m (stock x)).
    { unfold stock in *. rewrite En, Eg in Hm. rewrite !in_app_iff in *. destruct Hm as [Hm|[Hm|[Hm|Hm]]]; try tauto.
      unfold after_child in Hm. destruct iso; cbn [set_toc set_foot set_shared set_env dx_foot fm_update fm_bodies] in Hm; [tauto|].
      apply (proj1 (vmarks_dupd dmarks _ _)) in Hm. apply in_app_or in Hm as [Hm|Hm]; unfold bmarks; tauto. }
    destruct K as [K|K]; [left; rewrite Ed; apply C1, K|]. apply (known_grows x); [exact G|]. apply W1. exact K.
  - rewrite En. rewrite app_nil_r in W2. destruct iso.
    + rewrite app_nil_r. exact W2.
    + unfold after_child. cbn [set_toc dx_toc tm_update tm_headers]. rewrite !map_app. apply ss_app; assumption.
  - rewrite En. rewrite app_nil_r in W3. destruct iso.
    + rewrite app_nil_r. exact W3.
    + unfold after_child. cbn [set_toc dx_toc tm_update tm_nodes]. apply incl_app; [apply incl_appl, W3|apply incl_appr, C4].
  - rewrite Ed. eapply incl_tran; eassumption.
  - rewrite Ed. exact C5.
Qed.

Section Elements.
  Context (cf : config) (run : run_fn) (run_ok : forall e n d f t o, fine_res (run e n d f t o)).
  Context (run_child : forall e n d f t o y, run e n d f t o = Ok y -> groups_filled d -> child_whole d y).

  Lemma header_whole hd t x b z : whole [] [] [] x -> runs (dp_do_header cf hd t) x b z -> whole [] [] [] z.
  Proof.
    intros W H. apply do_header_inv in H as (nodes & ms & hs & next & ctx & ok & _ & _ & H). cbv zeta in H.
    match type of H with context [mkHeader ?a ?b ?c ?d ?e ?f ?g ?h] => set (hh := mkHeader a b c d e f g h) in H end.
    match type of H with context [set_control ?y None] => set (y0 := y) in * end.
    assert (W0 : whole [] [] [] y0).
    { apply (whole_same _ _ _ (mentions (set_shared x (S (dx_next x)) (dx_done x)) ms hs next)); try reflexivity. apply whole_mentions.
      eapply whole_same; [exact W|..]; reflexivity. }
    destruct ok; [|subst z; eapply whole_same; [exact W0|..]; reflexivity]. destruct H as (links & _ & ->).
    pose (x1 := set_toc (set_links (set_control y0 None) links) (tm_add_header (dx_toc x) hh)).
    change (whole [] [] [] (set_nodes x1 (dx_nodes x1 ++ [DHeader hh]))).
    assert (G : grows x x1).
    { unfold grows. cbn. split; [eexists; reflexivity|]. repeat split; apply incl_refl. }
    apply (whole_save [(h_id hh, LHeader (bare hh))] [hh] []).
    - destruct W as [W1 W2 W3 W4 W5]. constructor.
      + intros m [<-|Hm]; [right; unfold registered; cbn; rewrite map_app; apply in_or_app; right; left; reflexivity|]. apply (known_grows x); [exact G|]. apply W1. exact Hm.
      + rewrite app_nil_r in W2. cbn [x1 set_toc dx_toc tm_add_header tm_headers]. rewrite !map_app. apply ss_app; [exact W2|apply ss_refl].
      + exact W3.
      + exact W4.
      + exact W5.
    - intros m [<-|Hm]; [left; left; reflexivity|]. right. apply in_app_or in Hm as [Hm|Hm].
      + pose proof (tmarks_inline (h_content hh)) as K. rewrite Forall_forall in K. exact (K _ Hm).
      + pose proof (lmarks_inline (h_labels hh)) as K. rewrite Forall_forall in K. exact (K _ Hm).
    - reflexivity.
    - reflexivity.
  Qed.
  Lemma all_inline l m : Forall inline l -> In m l -> inline m.
  Proof. intros H. rewrite Forall_forall in H. auto. Qed.
  Lemma lines_inline (lines : list (list inode * context)) : Forall inline (flat_map (fun l => tmarks (fst l)) lines).
  Proof. induction lines as [|l lines IH]; cbn [flat_map]; [constructor|]. apply Forall_app. split; [apply tmarks_inline|exact IH]. Qed.
  Lemma items_inline items x its z : reads_items cf items x its z -> Forall inline (flat_map (fun i : item => dmarks (snd i)) its).
  Proof.
    induction 1 as [x|h t r x n x1 its x2 H _ IH]; [constructor|]. cbn [flat_map snd]. apply Forall_app. split; [|exact IH].
    unfold dp_do_item in H. apply runs_bind_inv in H as (c & y & _ & H); [|apply text_quiet]. apply runs_first_last in H as (u & q & _ & H). apply runs_ret in H as [-> _]. apply tmarks_inline.
  Qed.
  Lemma simple x n y ok : whole [] [] [] x -> Forall inline (dmarks n) -> toc_headers n = [] -> toc_places n = [] ->
    y = (if ok : bool then set_nodes (set_control x None) (dx_nodes x ++ [n]) else set_control x None) -> whole [] [] [] y.
  Proof. intros W Hi E1 E2 ->. eapply whole_finish; [exact W| |exact E1|exact E2|reflexivity]. intros m Hm. right. exact (all_inline _ _ Hi Hm). Qed.

  Lemma block_whole o t c x b z : whole [] [] [] x -> runs (dp_do_block run o t c) x b z -> whole [] [] [] z.
  Proof.
    intros W H. apply do_block_inv in H as (node & a' & nctx & y & He & H); [|exact run_ok].
    assert (W1 : whole [] [] [] (set_args x None)) by (eapply whole_same; [exact W|..]; reflexivity).
    assert (K : exists N Hs Ts, whole N Hs Ts y /\ (forall at_, incl (dmarks (node at_)) (N ++ lmarks (at_labels at_))) /\
      forall l cx, toc_headers (node (mkAttrs a' l cx)) = Hs /\ toc_places (node (mkAttrs a' l cx)) = Ts).
    { pose proof He as H0. apply engine_inv in H0 as [[-> Hd]|(Ed & t' & y' & -> & _ & Er & -> & -> & -> & ->)]; [| |exact run_ok].
      - exists [], [], []. split; [exact W1|]. unfold dp_engine in He. destruct (str_eqb_spec (block_engine x) (lit "default")) as [E|Nd].
        + destruct (Hd E) as (_ & _ & -> & _). split; [intros at_; apply incl_refl|]. intros l cx. cbn. destruct (not_isolated _); auto.
        + destruct (str_eqb _ (lit "raw")); [apply runs_ret in He as [E _]; injection E as -> -> ->; split; [intros at_; apply incl_refl|auto]|].
          destruct (str_eqb _ (lit "source")); [|destruct (runs_raise _ _ _ _ He)].
          destruct t as [t|]; [|apply runs_ret in He as [E _]; injection E as -> -> ->; split; [intros at_; apply incl_refl|auto]].
          destruct (token_truthy t); [|apply runs_ret in He as [E _]; injection E as -> -> ->; split; [intros at_; apply incl_refl|auto]].
          apply runs_pget in He. apply runs_lift in He as ([[lg ls] a2] & _ & He). apply runs_ret in He as [E _]. injection E as -> -> ->; split; [intros at_; apply incl_refl|auto].
      - apply run_child in Er; [|apply W1]. do 3 eexists. split; [exact (whole_after _ _ (isolated (block_args x)) W1 Er)|]. split; [intros at_; apply incl_refl|].
        intros l cx. cbn [toc_headers toc_places]. unfold not_isolated, isolated. cbn [at_args].
        destruct (dget (lit "isolate") (na_named (block_args x))) as [v|]; cbn [or_else]; [destruct (str_eqb v (lit "false")); cbn [negb]; auto|]. cbn. auto. }
    destruct K as (N & Hs & Ts & W2 & K1 & K2).
    assert (W3 : whole N Hs Ts (set_labels y [])) by (eapply whole_same; [exact W2|..]; reflexivity).
    assert (K3 : forall at_ m, In m (dmarks (node at_)) -> In m N \/ inline m).
    { intros at_ m Hm. apply K1 in Hm. apply in_app_or in Hm as [Hm|Hm]; [auto|]. right. exact (all_inline _ _ (lmarks_inline _) Hm). }
    destruct (nonempty (dget (lit "footnote") (na_named a'))) as [name|].
    { destruct H as (m & E & ->). unfold fm_add_body in E. destruct (dmem _ _); [discriminate|]. injection E as <-. 
      set (bb := node _) in *. destruct (whole_drop _ _ _ _ W3) as [D1 D2 D3 D4 D5]. constructor; [|exact D2|exact D3|exact D4|exact D5].
      intros m Hm. assert (Q : In m (stock y) \/ In m (dmarks bb)).
      { unfold stock in *. cbn [app set_foot set_labels dx_nodes dx_foot dx_groups fm_bodies] in Hm. rewrite !in_app_iff in *. destruct Hm as [Hm|[Hm|Hm]]; try tauto.
        apply (proj1 (vmarks_dset dmarks _ _ _)) in Hm. apply in_app_or in Hm as [Hm|Hm]; unfold bmarks; tauto. }
      apply (known_grows y); [apply grows_refl; reflexivity|]. destruct Q as [Q|Q]; [apply (w_reg _ _ _ _ W2), in_or_app; auto|].
      destruct (K3 _ _ Q) as [Q1|Q1]; [apply (w_reg _ _ _ _ W2), in_or_app; auto|apply known_inline, Q1]. }
    assert (Fin : forall ok, z = (if ok : bool then set_nodes (set_control (set_labels y []) None) (dx_nodes y ++ [node (mkAttrs a' (dx_labels y) (merge_contexts (t_ctx o) (t_ctx c)))]) else set_control (set_labels y []) None) -> whole [] [] [] z).
    { intros ok Hz. eapply whole_finish; [exact W3|apply K3|apply K2|apply K2|exact Hz]. }
    destruct (nonempty (dget (lit "group") (na_named a'))) as [g|]; [|destruct H as (ok & _ & Hz); exact (Fin ok Hz)].
    destruct (nonempty (dget (lit "position") (na_named a'))) as [p|]; [|destruct H as (ok & _ & Hz); exact (Fin ok Hz)].
    destruct H as (m & E & ->). unfold gm_add_block in E. destruct (dmem _ _); [discriminate|]. injection E as <-.
    set (bb := node _) in *. destruct (whole_drop _ _ _ _ W3) as [D1 D2 D3 D4 D5]. constructor; [|exact D2|exact D3|exact D4|exact D5].
    intros m Hm. assert (Q : In m (stock y) \/ In m (dmarks bb)).
    { unfold stock in *. cbn [app set_groups set_labels dx_nodes dx_foot dx_groups gm_items] in Hm. rewrite !in_app_iff in *. destruct Hm as [Hm|[Hm|Hm]]; try tauto.
      assert (Ub : sub (gmarks (dset g (dset p bb (gm_group (dx_groups y) g)) (gm_items (dx_groups y)))) (gmarks (gm_items (dx_groups y)) ++ dmarks bb)).
      { unfold gmarks. apply (vmarks_dset_more bmarks g _ (gm_group (dx_groups y) g)).
        - unfold gm_group. destruct (dget g (gm_items (dx_groups y))); auto.
        - apply vmarks_dset. }
      apply (proj1 Ub) in Hm. apply in_app_or in Hm as [Hm|Hm]; tauto. }
    apply (known_grows y); [apply grows_refl; reflexivity|]. destruct Q as [Q|Q]; [apply (w_reg _ _ _ _ W2), in_or_app; auto|].
    destruct (K3 _ _ Q) as [Q1|Q1]; [apply (w_reg _ _ _ _ W2), in_or_app; auto|apply known_inline, Q1].
  Qed.

  Lemma include_node_whole ty ctx ar x node a' z : whole [] [] [] x -> runs (include_node cf run ty ctx ar) x (node, a') z ->
    exists N Ts, whole N [] Ts z /\ (forall at_, incl (dmarks (node at_)) (N ++ lmarks (at_labels at_))) /\ forall at_, toc_headers (node at_) = [] /\ toc_places (node at_) = Ts.
  Proof.
    intros W H. unfold include_node in H. destruct (str_eqb _ _).
    { unfold dp_image in H. cbn [pop_arg] in H. apply runs_need_uri in H as (uri & _ & _ & H). apply runs_ret in H as [E ->]. injection E as -> _. exists [], [].
      split; [exact W|]. split; [intros at_; apply incl_refl|auto]. }
    destruct (str_eqb _ _).
    { apply mau_inv in H as (uri & text & e & y & _ & _ & _ & _ & Er & -> & ->). apply run_child in Er; [|apply W]. exists (nmarks (dx_nodes y)), [].
      split; [|split; [intros at_; apply incl_refl|auto]]. pose proof (whole_after _ _ true W Er) as K. eapply whole_same; [exact K|..]; reflexivity. }
    destruct (str_eqb _ _).
    { unfold dp_include_raw in H. cbn [pop_arg] in H. apply runs_need_uri in H as (uri & _ & _ & H). apply runs_read in H as (t & _ & H).
      apply runs_ret in H as [E ->]. injection E as -> _. exists [], []. split; [exact W|]. split; [intros at_; apply incl_refl|auto]. }
    destruct (str_eqb _ _).
    { apply runs_bind_inv in H as (f & y & H1 & H); [|unfold dp_toc; apply quiet_bind; [apply fresh_quiet|]; intros id; quiet].
      unfold dp_toc in H1. apply runs_fresh in H1. apply runs_pmod in H1. apply runs_ret in H1 as [-> ->]. apply runs_ret in H as [E ->]. injection E as -> _.
      exists [(dx_next x, LToc)], [dx_next x]. split; [|split; [intros at_; apply incl_refl|auto]]. destruct W as [W1 W2 W3 W4 W5]. constructor.
      - intros m [<-|Hm]; [right; exact I|]. apply (known_grows x); [|exact (W1 m Hm)]. unfold grows. cbn. split; [exists []; symmetry; apply app_nil_r|]. repeat split; try apply incl_refl. apply incl_appl, incl_refl.
      - exact W2.
      - cbn [set_toc set_shared dx_nodes dx_toc tm_add_toc tm_nodes]. rewrite app_nil_r in W3. apply incl_app; [apply incl_appl, W3|apply incl_appr, incl_refl].
      - exact W4.
      - exact W5. }
    destruct (str_eqb _ _).
    { apply runs_bind_inv in H as (f & y & H1 & H); [|unfold dp_footnotes; apply quiet_bind; [apply fresh_quiet|]; intros id; quiet].
      unfold dp_footnotes in H1. apply runs_fresh in H1. apply runs_pmod in H1. apply runs_ret in H1 as [-> ->]. apply runs_ret in H as [E ->]. injection E as -> _.
      exists [(dx_next x, LFootnotes)], []. split; [|split; [intros at_; apply incl_refl|auto]]. destruct W as [W1 W2 W3 W4 W5]. constructor; [|exact W2|exact W3|exact W4|exact W5].
      intros m [<-|Hm]; [right; unfold registered; cbn; apply in_or_app; right; left; reflexivity|]. apply (known_grows x); [|exact (W1 m Hm)]. unfold grows. cbn. split; [exists []; symmetry; apply app_nil_r|]. repeat split; try apply incl_refl. apply incl_appl, incl_refl. }
    destruct (str_eqb _ _); [|apply runs_ret in H as [E ->]; injection E as -> _; exists [], []; split; [exact W|]; split; [intros at_; apply incl_refl|auto]].
    unfold dp_blockgroup in H. cbn [pop_arg] in H. destruct (dget (lit "group") _) as [g|]; [|destruct (runs_raise _ _ _ _ H)].
    apply runs_fresh in H. apply runs_pmod in H. apply runs_ret in H as [E ->]. injection E as -> _.
    exists [(dx_next x, LGroup g)], []. split; [|split; [intros at_; apply incl_refl|auto]]. destruct W as [W1 W2 W3 W4 W5]. constructor; [|exact W2|exact W3|exact W4|exact W5].
    intros m [<-|Hm]; [right; unfold registered; cbn; rewrite map_app; apply in_or_app; right; left; reflexivity|]. apply (known_grows x); [|exact (W1 m Hm)]. unfold grows. cbn. split; [exists []; symmetry; apply app_nil_r|]. repeat split; try apply incl_refl. apply incl_appl, incl_refl.
  Qed.
  Lemma include_whole o ty args x b z : whole [] [] [] x -> runs (do_element cf run (EInclude o ty args)) x b z -> whole [] [] [] z.
  Proof.
    intros W H. apply element_include_inv in H as (ar & _ & H). apply do_include_inv in H as (node & a' & y & ok & H1 & (F1 & F2 & _) & _ & Hz); [|exact run_ok].
    assert (W1 : whole [] [] [] (set_args x None)) by (eapply whole_same; [exact W|..]; reflexivity).
    destruct (include_node_whole _ _ _ _ _ _ _ W1 H1) as (N & Ts & K & Em & Et). rewrite <- F1, <- F2 in Hz.
    eapply (whole_finish N [] Ts (set_labels y [])); [eapply whole_same; [exact K|..]; reflexivity| |apply Et|apply Et|exact Hz].
    intros m Hm. apply Em in Hm. apply in_app_or in Hm as [Hm|Hm]; [auto|]. right. exact (all_inline _ _ (lmarks_inline _) Hm).
  Qed.
  Lemma acts_whole el x z : whole [] [] [] x -> acts cf run el x z -> whole [] [] [] z.
  Proof.
    intros W H. destruct el as [t|t|o n c v|r t|o op c|o t c|h t|o t c|o ty ar|items|ls]; cbn [acts] in H.
    - apply runs_ret in H as [_ ->]. exact W.
    - apply do_rule_inv in H as (ok & _ & Hz). eapply (simple (set_labels (set_args x None) [])); [eapply whole_same; [exact W|..]; reflexivity| | | |exact Hz]; [apply lmarks_inline|reflexivity|reflexivity].
    - apply do_variable_inv in H as (k & s & _ & ->). eapply whole_same; [exact W|..]; reflexivity.
    - apply do_label_inv in H as (nodes & ms & hs & next & ->). eapply whole_same; [apply (whole_mentions _ _ _ x ms hs next W)|..]; reflexivity.
    - apply do_control_inv in H as (k & _ & ->). eapply whole_same; [exact W|..]; reflexivity.
    - apply do_arguments_inv in H as (k & _ & ->). eapply whole_same; [exact W|..]; reflexivity.
    - eapply header_whole; eassumption.
    - eapply block_whole; eassumption.
    - eapply include_whole; eassumption.
    - destruct H as (i & its & nodes & x1 & Hr & Hn & Hl). pose proof (items_inline _ _ _ _ Hr) as Hi. apply runs_items in Hr as (ms & hs & next & ->).
      apply do_list_inv in Hl as (start & latest & ctx & ok & _ & Hz & _). eapply simple; [|..|exact Hz].
      + eapply whole_same; [apply (whole_mentions _ _ _ x ms hs next W)|..]; reflexivity.
      + cbn [dmarks at_labels flat_map]. change (flat_map dmarks nodes) with (nmarks nodes). rewrite (nested_marks _ _ _ Hn). apply Forall_app. split; [exact Hi|apply lmarks_inline].
      + reflexivity.
      + reflexivity.
    - apply do_paragraph_inv in H as (lines & ms & hs & next & ctx & ok & _ & Hz). eapply simple; [|..|exact Hz].
      + eapply whole_same; [apply (whole_mentions _ _ _ x ms hs next W)|..]; reflexivity.
      + apply Forall_app. split; [apply lines_inline|apply lmarks_inline].
      + reflexivity.
      + reflexivity.
  Qed.
  Lemma act_all_whole els x z : act_all cf run els x z -> whole [] [] [] x -> whole [] [] [] z.
  Proof. induction 1 as [x|el els x y z H _ IH]; intros W; [exact W|]. apply IH. exact (acts_whole _ _ _ W H). Qed.
End Elements.

End Whole.

Lemma each_out {A B} (f : A -> res B) l : forall bs, for_each f l = Ok bs -> forall a, In a l -> exists b, In b bs /\ f a = Ok b.
Proof.
  induction l as [|a l IH]; cbn [for_each]; intros bs H c Hc; [destruct Hc|].
  destruct (f a) as [b|] eqn:E; [|discriminate]. cbn [rbind] in H. destruct (for_each f l) as [cs|]; [|discriminate]. cbn [rbind] in H. injection H as <-.
  destruct Hc as [<-|Hc]; [exists b; split; [left; reflexivity|exact E]|]. destruct (IH _ eq_refl _ Hc) as (d & Hd & Ed). exists d. split; [right; exact Hd|exact Ed].
Qed.
Lemma give_bare f hs : forall gs, for_each (give_internal f) hs = Ok gs -> map bare gs = map bare hs /\ map h_id gs = map h_id hs /\ Forall (fun h => h_internal h <> None) gs.
Proof.
  induction hs as [|h hs IH]; cbn [for_each]; intros gs H; [injection H as <-; auto|].
  destruct (give_internal f h) as [g|] eqn:E; [|discriminate]. cbn [rbind] in H. destruct (for_each (give_internal f) hs) as [gs'|]; [|discriminate]. cbn [rbind] in H. injection H as <-.
  destruct (IH _ eq_refl) as (E1 & E2 & E3). unfold give_internal in E. destruct (h_internal h) as [s|] eqn:Ei.
  - injection E as ->. cbn [map]. rewrite E1, E2. split; [reflexivity|]. split; [reflexivity|]. constructor; [rewrite Ei; discriminate|exact E3].
  - destruct (f h) as [s|]; [|discriminate]. cbn [rbind] in E. injection E as <-. cbn [map]. rewrite E1, E2. split; [reflexivity|]. split; [reflexivity|]. constructor; [discriminate|exact E3].
Qed.

(* what the end of a parser does with the table of contents *)
Definition toc_done (y : dx) : Prop :=
  (tm_headers (dx_toc y) = [] \/
   (tm_nested (dx_toc y) = nest_headers (tm_headers (dx_toc y)) /\
    exists before after, dx_done y = before ++ map (fun i => AToc i (tm_nested (dx_toc y)) (tm_headers (dx_toc y))) (tm_nodes (dx_toc y)) ++ after /\
      forall i n p, ~ In (AToc i n p) after)).
Lemma finalise_whole cf e d x y : whole d [] [] [] x -> dp_finalise cf e x = Ok y -> child_whole d y /\ toc_done y.
Proof.
  intros [W1 W2 W3 W4 W5] H. unfold dp_finalise in H.
  match type of H with rbind (fm_process ?c ?i ?f) _ = _ => set (cpy := c) in H; set (fid := i) in H end.
  destruct (fm_process cpy fid (dx_foot x)) as [[flinks flists]|] eqn:Ef; [|discriminate]. cbn [rbind] in H.
  match type of H with rbind (tm_process ?i ?f) _ = _ => set (hid := i) in H end.
  destruct (tm_process hid (dx_toc x)) as [[[toc ids] tocs]|] eqn:Et; [|discriminate]. cbn [rbind] in H.
  destruct (hm_process (dx_links x)) as [hlinks|] eqn:Eh; [|discriminate]. cbn [rbind] in H.
  destruct (gm_process (dx_groups x)) as [groups|] eqn:Eg; [|discriminate]. cbn [rbind] in H.
  match type of H with Ok (set_shared _ _ (_ ++ ?l)) = _ => set (A := l) in H end. assert (Ey : y = set_shared (set_toc x toc) (dx_next x) (dx_done x ++ A)) by congruence. clear H.
  assert (Hl : forall i, In i (fm_lists (dx_foot x)) -> exists l, In (AFootnotes i l) A).
  { intros i Hi. unfold fm_process in Ef. destruct (fm_footnotes cpy fid (dx_foot x)) as [fs|]; [|discriminate]. cbn [rbind] in Ef.
    destruct (for_each (fm_link fs) (fm_macros (dx_foot x))) as [ls|]; [|discriminate]. cbn [rbind] in Ef.
    assert (map (fun id => (id, map snd fs)) (fm_lists (dx_foot x)) = flists) as <- by congruence.
    eexists. unfold A. apply in_or_app. right. apply in_or_app. left. apply in_map_iff. exists (i, map snd fs). split; [reflexivity|]. apply in_map_iff. eauto. }
  assert (Hg : forall i, In i (map mn_id (gm_groups (dx_groups x))) -> exists made items, In (AGroup i made items) A).
  { intros i Hi. apply in_map_iff in Hi as (m & <- & Hm). destruct (each_out _ _ _ Eg _ Hm) as ([j it] & Hj & E). unfold gm_link in E.
    destruct (dget _ _); [|discriminate]. assert (j = mn_id m) as -> by congruence. do 2 eexists. unfold A. rewrite !in_app_iff. do 5 right.
    apply in_map_iff. exists (mn_id m, it). split; [reflexivity|exact Hj]. }
  assert (Ht : map bare (tm_headers toc) = map bare (tm_headers (dx_toc x)) /\ tm_nodes toc = tm_nodes (dx_toc x) /\
    (forall i, In i (map h_id (tm_headers (dx_toc x))) -> exists s, In (i, s) ids) /\
    (tm_headers toc = [] \/ (tm_nested toc = nest_headers (tm_headers toc) /\ tocs = map (fun id => (id, (tm_nested toc, tm_headers toc))) (tm_nodes toc)))).
  { unfold tm_process in Et. destruct (tm_headers (dx_toc x)) as [|h0 hs0] eqn:Ehs.
    - assert (dx_toc x = toc) as <- by congruence. rewrite Ehs. split; [reflexivity|]. split; [reflexivity|]. split; [intros i []|auto].
    - rewrite <- Ehs in *. destruct (for_each (give_internal hid) (tm_headers (dx_toc x))) as [hs|] eqn:Egi; [|discriminate]. cbn [rbind] in Et.
      apply give_bare in Egi as (E1 & E2 & E3).
      assert (mkTman hs (tm_nodes (dx_toc x)) (nest_headers hs) = toc) as <- by congruence.
      assert (flat_map (fun h => match h_internal h with Some i => [(h_id h, i)] | None => [] end) hs = ids) as <- by congruence.
      assert (map (fun id => (id, (nest_headers hs, hs))) (tm_nodes (dx_toc x)) = tocs) as <- by congruence. clear Et.
      cbn [tm_headers tm_nodes tm_nested]. split; [exact E1|]. split; [reflexivity|]. split; [|auto]. intros i Hi. rewrite <- E2 in Hi. apply in_map_iff in Hi as (h & <- & Hh).
      rewrite Forall_forall in E3. specialize (E3 _ Hh). destruct (h_internal h) as [s|] eqn:Es; [|contradiction]. exists s. apply in_flat_map. exists h. rewrite Es. split; [exact Hh|left; reflexivity]. }
  destruct Ht as (T1 & T2 & T3 & T4). subst y. assert (I1 : incl (dx_done x) (dx_done x ++ A)) by (apply incl_appl, incl_refl). assert (I2 : incl A (dx_done x ++ A)) by (apply incl_appr, incl_refl).
  assert (Hk : forall m, known x m -> filled (dx_done x ++ A) m).
  { intros m K. unfold filled. destruct K as [K|K]; [unfold filled in K|unfold registered in K]; destruct (snd m); auto.
      - destruct K as (s & K). eauto.
      - destruct K as (s & K). eauto.
      - destruct K as (s & t & K). eauto.
      - destruct (T3 _ K) as (s & Hs). exists s. apply I2. unfold A. rewrite !in_app_iff. right. right. left. apply in_map_iff. exists (fst m, s). split; [reflexivity|exact Hs].
      - destruct (Hl _ K) as (l & Hi). eauto.
      - destruct (Hg _ K) as (a & b & Hi). eauto. }
  unfold child_whole, toc_done. cbn [set_shared set_toc dx_next dx_nodes dx_foot dx_toc dx_done]. split.
  - split; [|split; [|split; [|split]]].
    + intros m Hm. apply Hk, W1. unfold stock. rewrite in_app_iff in *. cbn [In]. right. rewrite !in_app_iff. tauto.
    + apply incl_appl, W4.
    + intros b Hb m Hm. rewrite flat_map_app in Hb. apply in_app_or in Hb as [Hb|Hb].
      * apply Hk. left. exact (W5 _ Hb _ Hm).
      * apply Hk, W1. cbn [app]. apply in_flat_map in Hb as (ac & Hi & Hb).
        assert (Hf : forall f, In f (notes_of ac) -> incl (dmarks (snd (fn_content f))) (bmarks (fm_bodies (dx_foot x)))).
        { intros f Hf. assert (Ha : (exists i, In (i, f) flinks) \/ (exists i l, In (i, l) flists /\ In f l)).
          { unfold A in Hi. rewrite !in_app_iff in Hi. repeat match type of Hi with _ \/ _ => destruct Hi as [Hi|Hi] end; apply in_map_iff in Hi as ([i v] & <- & Hi); cbn [notes_of fst snd] in Hf; try contradiction.
            - destruct Hf as [<-|[]]. left. exists i. exact Hi.
            - right. exists i, v. auto. }
          unfold fm_process in Ef. destruct (fm_footnotes cpy fid (dx_foot x)) as [fs|] eqn:Efs; [|discriminate]. cbn [rbind] in Ef.
          destruct (for_each (fm_link fs) (fm_macros (dx_foot x))) as [ls|] eqn:El; [|discriminate]. cbn [rbind] in Ef.
          assert (ls = flinks) as -> by congruence. assert (map (fun id => (id, map snd fs)) (fm_lists (dx_foot x)) = flists) as <- by congruence. clear Ef.
          assert (Hn : exists k, In (k, f) fs).
          { destruct Ha as [(i & Ha)|(i & l & Ha & Hl2)].
            - destruct (each_in _ _ _ El _ Ha) as (g & _ & E). unfold fm_link in E. destruct (dget (mn_name g) fs) as [f'|] eqn:E2; [|discriminate]. assert (f' = f) as -> by congruence. exists (mn_name g). apply dget_in', E2.
            - apply in_map_iff in Ha as (j & E & _). assert (l = map snd fs) as -> by congruence. apply in_map_iff in Hl2 as ([k f'] & <- & Hl2). exists k. exact Hl2. }
          destruct Hn as (k & Hn). unfold fm_footnotes in Efs. destruct (each_in _ _ _ Efs _ Hn) as ([n [nm b']] & Hb' & E). apply enum_in in Hb'.
          destruct (fid _) as [s|]; [|discriminate]. cbn [rbind] in E. assert (f = mkFootnote nm (str_of_nat n) s (cpy b')) as -> by congruence.
          cbn [fn_content cpy snd]. exact (vmarks_in _ _ _ _ Hb'). }
        unfold stock. rewrite !in_app_iff. right. destruct ac as [i f|i l|i v|i n' p'|i h' c'|i made items]; cbn [set_apart notes_of] in *; try contradiction.
        -- destruct Hb as [<-|[]]. left. exact (Hf f (or_introl eq_refl) _ Hm).
        -- apply in_map_iff in Hb as (f & <- & Hb). left. exact (Hf f Hb _ Hm).
        -- right. unfold A in Hi. rewrite !in_app_iff in Hi. repeat (destruct Hi as [Hi|Hi]; [apply in_map_iff in Hi as (? & Ea & ?); discriminate|]).
           apply in_map_iff in Hi as ([i' it] & Ea & Hi). cbn [fst snd] in Ea. assert (it = items) as -> by congruence. clear Ea.
           destruct (each_in _ _ _ Eg _ Hi) as (g & _ & E). unfold gm_link in E. destruct (dget (mn_name g) (gm_items (dx_groups x))) as [dd|] eqn:E2; [|discriminate].
           apply dget_in' in E2. assert (items = dupd (dupd [] dd) dd) as -> by congruence. apply in_map_iff in Hb as ([p b'] & <- & Hp).
           assert (Hp' : In (p, b') dd). { apply dupd_in in Hp as [Hp|Hp]; [|exact Hp]. apply dupd_in in Hp as [[]|Hp]; exact Hp. }
           apply (vmarks_in _ _ _ _ E2). exact (vmarks_in _ _ _ _ Hp' m Hm).
    + rewrite T1. rewrite app_nil_r in W2. exact W2.
    + rewrite T2. rewrite app_nil_r in W3. exact W3.
  - destruct T4 as [T4|[T4 T5]]; [left; exact T4|right]. split; [exact T4|].
    exists (dx_done x ++ map (fun l : nat * footnote copy => AFootnote (fst l) (snd l)) flinks ++
         map (fun l : nat * list (footnote copy) => AFootnotes (fst l) (snd l)) flists ++
         map (fun l : nat * str => AInternal (fst l) (snd l)) ids),
      (map (fun l : nat * (header * list inode) => AHeader (fst l) (fst (snd l)) (snd (snd l))) hlinks ++
       map (fun l : nat * dict dnode => AGroup (fst l) (length (dx_done x)) (snd l)) groups). split.
    + unfold A. rewrite T5, map_map. cbn [fst snd]. rewrite <- !app_assoc. reflexivity.
    + intros i n p Hi. apply in_app_or in Hi as [Hi|Hi]; apply in_map_iff in Hi as (? & E & _); discriminate.
Qed.
Lemma init_whole e next done forb x : dp_init e next done forb = Ok x -> groups_filled done -> whole done [] [] [] x.
Proof.
  unfold dp_init. destruct (not_callable _); [discriminate|]. intros E Hd. injection E as <-. constructor; cbn.
  - intros m [].
  - constructor.
  - intros m [].
  - apply incl_refl.
  - exact Hd.
Qed.
Lemma run_whole n : forall cf e next done forb text o y, dp_run n cf e next done forb text o = Ok y -> groups_filled done -> child_whole done y /\ toc_done y.
Proof.
  induction n as [|n IH]; intros cf e next done forb text o y H Hd; [discriminate|].
  apply dp_run_inv in H as (m & toks & x0 & els & x & En & _ & Ei & _ & Ha & Hf). injection En as <-.
  pose proof (init_whole _ _ _ _ _ Ei Hd) as Hi.
  pose proof (act_all_whole done cf (dp_run n cf) (fun e n' d f t o => dp_run_fine n cf e n' d f t o) (fun e n' d f t o y H K => proj1 (IH cf e n' d f t o y H K)) _ _ _ Ha Hi) as K.
  exact (finalise_whole _ _ _ _ _ K Hf).
Qed.
