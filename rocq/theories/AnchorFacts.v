(* AnchorFacts.v -- every id that is assigned is the id of a header of the document *)
From Verif Require Export NumDoc SpecAnchors.
From Verif Require Import WholeFacts.
#[local] Notation length := List.length.

(* ------------------------------------------------------ the numbers only go up *)
Definition rises {A} (m : D A) : Prop := forall x a z, runs m x a z -> dx_next x <= dx_next z.
Lemma rises_ret {A} (a : A) : rises (pret a).
Proof. intros x b z H. apply runs_ret in H as [_ ->]. lia. Qed.
Lemma text_rises cf t o x nodes z : runs (dp_text cf t o) x nodes z -> dx_next x <= dx_next z.
Proof.
  intros H. unfold dp_text in H. apply runs_pget in H. apply runs_lift in H as (p & _ & H). apply runs_lift in H as (t' & Et & H).
  apply runs_pmod in H. apply runs_ret in H as [_ ->]. apply run_marks in Et as (G & (L & _) & _). exact L.
Qed.
Lemma line_nodes_rises cf ls : forall x r z, runs (dp_line_nodes cf ls) x r z -> dx_next x <= dx_next z.
Proof.
  induction ls as [|t ls IH]; intros x r z H; cbn [dp_line_nodes] in H; [apply runs_ret in H as [_ ->]; lia|].
  apply runs_bind_inv in H as (nodes & y & H1 & H); [|apply text_quiet]. apply text_rises in H1.
  apply runs_bind_inv in H as (rest & y2 & H2 & H); [|apply line_nodes_quiet]. apply IH in H2. apply runs_ret in H as [_ ->]. lia.
Qed.
Lemma items_rise cf items x its z : reads_items cf items x its z -> dx_next x <= dx_next z.
Proof.
  induction 1 as [x|h t r x n x1 its x2 H _ IH]; [lia|]. unfold dp_do_item in H. apply runs_bind_inv in H as (c & y & H1 & H); [|apply text_quiet].
  apply text_rises in H1. apply runs_first_last in H as (u & q & _ & H). apply runs_ret in H as [_ ->]. lia.
Qed.
Lemma label_rises cf p t x b z : runs (dp_do_label cf p t) x b z -> dx_next x <= dx_next z.
Proof.
  intros H. unfold dp_do_label in H. apply runs_bind_inv in H as (nodes & y & H1 & H); [|apply text_quiet]. apply text_rises in H1.
  apply runs_pmod in H. apply runs_ret in H as [_ ->]. exact H1.
Qed.
Lemma header_rises cf hd t x b z : runs (dp_do_header cf hd t) x b z -> S (dx_next x) <= dx_next z.
Proof.
  intros H. unfold dp_do_header in H. apply runs_fresh in H. apply runs_bind_inv in H as (nodes & y & H1 & H); [|apply text_quiet]. apply text_rises in H1. cbn [set_shared dx_next] in H1.
  apply runs_pop_args in H. cbn [pop_arg] in H. apply runs_first_last in H as (u & r & E & H).
  apply runs_pop_labels in H. apply runs_admitted in H as (ok & Ha & H). destruct ok; [|apply runs_ret in H as [_ ->]; exact H1].
  apply runs_bind_inv in H as (v & y2 & H2 & H).
  2: { destruct (dget (lit "name") _) as [[|c n]|]; [quiet| |quiet]. quiet; apply quiet_lift, hm_add_fine. }
  apply runs_pmod in H. unfold dp_save in H. apply runs_pmod in H. apply runs_ret in H as [_ ->]. cbn.
  assert (E2 : dx_next y2 = dx_next y).
  { destruct (dget (lit "name") _) as [[|c n]|].
    - apply runs_ret in H2 as [_ ->]. reflexivity.
    - apply runs_pget in H2. apply runs_lift in H2 as (m & Em & H2). specialize (H2 []). unfold pmod in H2. injection H2 as H2 _. subst y2. reflexivity.
    - apply runs_ret in H2 as [_ ->]. reflexivity. }
  lia.
Qed.
Lemma paragraph_rises cf ls x b z : runs (dp_do_paragraph cf ls) x b z -> dx_next x <= dx_next z.
Proof.
  intros H. unfold dp_do_paragraph in H. apply runs_bind_inv in H as (lines & y & H1 & H); [|apply line_nodes_quiet]. apply line_nodes_rises in H1.
  apply runs_pop_args in H. apply runs_first_last in H as (u & r & E & H). apply runs_pop_labels in H. apply runs_finish in H as (ok & _ & ->). destruct ok; exact H1.
Qed.

(* ----------------------------------------------------------- headers and marks *)
Lemma heads_marks : forall d h, In h (headings d) -> In (h_id h, LHeader (bare h)) (dmarks d).
Proof.
  fix IH 1. intros d h.
  assert (L : forall l, In h (flat_map headings l) -> In (h_id h, LHeader (bare h)) (flat_map dmarks l)).
  { fix IHl 1. intros [|a l]; cbn [flat_map]; [intros []|]. intros H. apply in_app_or in H as [H|H]; apply in_or_app; [left; apply IH, H|right; apply IHl, H]. }
  destruct d; cbn [headings dmarks]; try (intros []); try (intros H; apply in_or_app; left; apply L, H).
  - subst. left. reflexivity.
  - contradiction.
Qed.
Lemma no_heads d : Forall inline (dmarks d) -> headings d = [].
Proof.
  intros H. destruct (headings d) as [|h l] eqn:E; [reflexivity|]. exfalso. rewrite Forall_forall in H.
  apply (H (h_id h, LHeader (bare h))). apply heads_marks. rewrite E. left. reflexivity.
Qed.

(* -------------------------------------------------------------- the invariant *)
Section Anchors.
Context (cf : config).
Definition same_ids (H : list header) : Prop := forall h g, In h H -> In g H -> h_id h = h_id g -> h = g.
Definition born (lo hi : nat) (H : list header) : Prop := lo <= hi /\ Forall (fun h => lo <= h_id h < hi) H /\ same_ids H.
Lemma born_more a b c H : born a b H -> b <= c -> born a c H.
Proof. intros (L & F & S) Hl. split; [lia|]. split; [|exact S]. eapply Forall_impl; [|exact F]. cbn. intros; lia. Qed.
Lemma born_app a b c H K : born a b H -> born b c K -> born a c (H ++ K).
Proof.
  intros (L & F & S) (L' & F' & S'). split; [lia|]. split.
  - apply Forall_app. split; [eapply Forall_impl; [|exact F]|eapply Forall_impl; [|exact F']]; cbn; intros; lia.
  - rewrite Forall_forall in *. intros h g Hh Hg E. apply in_app_or in Hh as [Hh|Hh]; apply in_app_or in Hg as [Hg|Hg]; auto.
    + specialize (F _ Hh). specialize (F' _ Hg). lia.
    + specialize (F' _ Hh). specialize (F _ Hg). lia.
Qed.

Definition given (H : list header) (g : header) : Prop := exists h, In h H /\ (g = h \/ g = with_anchor cf h).
Definition marked (H : list header) (g : header) : Prop := exists h, In h H /\ g = with_anchor cf h.
Definition hits (H : list header) (a : assign) : Prop :=
  incl (flat_map headings (set_apart a)) H /\
  match a with
  | AInternal i s => exists h, In h H /\ h_id h = i /\ s = anchor cf h
  | AToc _ nested plain => Forall (marked H) plain /\ incl (flat_map preorder nested) plain
  | AHeader _ h _ => In h H
  | AFootnote _ f => note_ok cf f
  | AFootnotes _ l => Forall (note_ok cf) l /\ numbered l
  | AGroup _ _ _ => True
  end.
Lemma hits_more H K a : incl H K -> hits H a -> hits K a.
Proof.
  intros I [A B]. split; [eapply incl_tran; eassumption|]. destruct a; auto.
  - destruct B as (h & Hh & E). exists h. auto.
  - destruct B as [B C]. split; [|exact C]. eapply Forall_impl; [|exact B]. intros g (h & Hh & E). exists h. auto.
Qed.
Lemma given_more H K g : incl H K -> given H g -> given K g.
Proof. intros I (h & Hh & E). exists h. auto. Qed.

(* d, a: the assignments and the number at the start of the parser; H: the headers made
   since; M: the nodes in hand *)
Record told (d : list assign) (a : nat) (H : list header) (M : list dnode) (x : dx) : Prop := mkTold {
  t_born : born a (dx_next x) H;
  t_tree : incl (flat_map headings (M ++ dx_nodes x ++ in_store x)) H;
  t_toc : Forall (given H) (tm_headers (dx_toc x));
  t_links : forall k h, In (k, h) (hm_headers (dx_links x)) -> In h H;
  t_keys : NoDup (keys (fm_bodies (dx_foot x)));
  t_done : exists new, dx_done x = d ++ new /\ Forall (hits H) new }.
Definition tells (d : list assign) (a : nat) (x : dx) : Prop := exists H, told d a H [] x.

Lemma told_same d a H M x z : told d a H M x -> dx_nodes z = dx_nodes x -> in_store z = in_store x -> tm_headers (dx_toc z) = tm_headers (dx_toc x) ->
  hm_headers (dx_links z) = hm_headers (dx_links x) -> fm_bodies (dx_foot z) = fm_bodies (dx_foot x) -> dx_done z = dx_done x -> dx_next x <= dx_next z -> told d a H M z.
Proof.
  intros [T1 T2 T3 T4 T5 T6] E1 E2 E3 E4 E5 E6 E7. constructor; rewrite ?E1, ?E2, ?E3, ?E4, ?E5, ?E6; auto. exact (born_more _ _ _ _ T1 E7).
Qed.
Lemma told_mentions d a H M x ms hs next : told d a H M x -> dx_next x <= next -> told d a H M (mentions x ms hs next).
Proof. intros T L. eapply told_same; [exact T|..]; try reflexivity. exact L. Qed.
Lemma told_drop d a H M x : told d a H M x -> told d a H [] x.
Proof. intros [T1 T2 T3 T4 T5 T6]. constructor; auto. cbn [app]. rewrite flat_map_app in T2. intros h Hh. apply T2, in_or_app. auto. Qed.
Lemma told_hand d a H M N x : told d a H M x -> incl (flat_map headings N) (flat_map headings M) -> told d a H N x.
Proof.
  intros [T1 T2 T3 T4 T5 T6] I. constructor; auto. rewrite flat_map_app in *. intros h Hh. apply T2. rewrite in_app_iff in *. destruct Hh; auto.
Qed.
Lemma told_save d a H x n : told d a H [n] x -> told d a H [] (set_nodes x (dx_nodes x ++ [n])).
Proof.
  intros [T1 T2 T3 T4 T5 T6]. constructor; auto. change (in_store (set_nodes x (dx_nodes x ++ [n]))) with (in_store x). cbn [app set_nodes dx_nodes] in *.
  intros h Hh. apply T2. cbn [flat_map]. rewrite !flat_map_app in *. cbn [flat_map] in *. rewrite !in_app_iff in *. cbn [In] in Hh. tauto.
Qed.
Lemma told_finish d a H x n y ok : told d a H [n] x -> y = (if ok : bool then set_nodes (set_control x None) (dx_nodes x ++ [n]) else set_control x None) -> told d a H [] y.
Proof.
  intros T ->. destruct ok.
  - eapply told_same; [exact (told_save _ _ _ _ _ T)|..]; try reflexivity; cbn; lia.
  - eapply told_same; [exact (told_drop _ _ _ _ _ T)|..]; try reflexivity; cbn; lia.
Qed.
Lemma told_simple d a H x n y ok : told d a H [] x -> Forall inline (dmarks n) ->
  y = (if ok : bool then set_nodes (set_control x None) (dx_nodes x ++ [n]) else set_control x None) -> told d a H [] y.
Proof. intros T Hi Hy. eapply told_finish; [|exact Hy]. eapply told_hand; [exact T|]. cbn [flat_map]. rewrite (no_heads _ Hi). apply incl_refl. Qed.

(* at the end of a parser *)
Definition child_told (d : list assign) (a : nat) (H : list header) (y : dx) : Prop :=
  born a (dx_next y) H /\ incl (flat_map headings (dx_nodes y ++ map snd (fm_bodies (dx_foot y)))) H /\ Forall (given H) (tm_headers (dx_toc y)) /\
  exists new, dx_done y = d ++ new /\ Forall (hits H) new.
Lemma told_after d a H x K y iso : told d a H [] x -> child_told (dx_done x) (dx_next x) K y -> told d a (H ++ K) (dx_nodes y) (after_child x y iso).
Proof.
  intros [T1 T2 T3 T4 T5 T6] (C1 & C2 & C3 & new & C4 & C5).
  assert (I1 : incl H (H ++ K)) by (apply incl_appl, incl_refl). assert (I2 : incl K (H ++ K)) by (apply incl_appr, incl_refl).
  assert (En : dx_nodes (after_child x y iso) = dx_nodes x) by (unfold after_child; destruct iso; reflexivity).
  assert (Ed : dx_done (after_child x y iso) = dx_done y) by (unfold after_child; destruct iso; reflexivity).
  assert (Ex : dx_next (after_child x y iso) = dx_next y) by (unfold after_child; destruct iso; reflexivity).
  assert (El : dx_links (after_child x y iso) = dx_links x) by (unfold after_child; destruct iso; reflexivity).
  assert (Es : forall c, In c (in_store (after_child x y iso)) -> In c (in_store x) \/ In c (map snd (fm_bodies (dx_foot y)))).
  { intros c Hc. unfold after_child in Hc. destruct iso; [left; exact Hc|]. unfold in_store in *. cbn [set_shared set_toc set_foot dx_foot dx_groups fm_update fm_bodies] in Hc.
    rewrite in_app_iff in *. destruct Hc as [Hc|Hc]; [|tauto]. apply in_map_iff in Hc as ([k v] & <- & Hk). apply dupd_in in Hk as [Hk|Hk]; apply (in_map snd) in Hk; tauto. }
  constructor.
  - rewrite Ex. exact (born_app _ _ _ _ _ T1 C1).
  - rewrite En. intros h Hh. cbn [app] in T2. rewrite !flat_map_app in *. rewrite !in_app_iff in Hh. destruct Hh as [Hh|[Hh|Hh]].
    + apply I2, C2, in_or_app. auto.
    + apply I1, T2, in_or_app. auto.
    + apply in_flat_map in Hh as (c & Hc & Hh). destruct (Es _ Hc) as [Hc'|Hc'].
      * apply I1, T2, in_or_app. right. apply in_flat_map. eauto.
      * apply I2, C2, in_or_app. right. apply in_flat_map. eauto.
  - unfold after_child. destruct iso; cbn; [eapply Forall_impl; [|exact T3]; intros g; apply given_more, I1|].
    apply Forall_app. split; [eapply Forall_impl; [|exact T3]; intros g; apply given_more, I1|eapply Forall_impl; [|exact C3]; intros g; apply given_more, I2].
  - rewrite El. eauto.
  - unfold after_child. destruct iso; cbn; [exact T5|]. apply dupd_nodup, T5.
  - rewrite Ed. destruct T6 as (new' & E' & F'). exists (new' ++ new). split; [rewrite C4, E', app_assoc; reflexivity|].
    apply Forall_app. split; [eapply Forall_impl; [|exact F']; intros g; apply hits_more, I1|eapply Forall_impl; [|exact C5]; intros g; apply hits_more, I2].
Qed.
Lemma told_body d a H x name b ctx m : told d a H [b] x -> fm_add_body (dx_foot x) name b ctx = Ok m -> told d a H [] (set_foot x m).
Proof.
  intros [T1 T2 T3 T4 T5 T6] E. unfold fm_add_body in E. destruct (dmem _ _); [discriminate|]. injection E as <-. constructor; auto.
  - intros h Hh. apply T2. cbn [app] in *. rewrite flat_map_app in Hh. cbn [flat_map]. rewrite flat_map_app. rewrite !in_app_iff in *. destruct Hh as [Hh|Hh]; [tauto|].
    apply in_flat_map in Hh as (c & Hc & Hh). unfold in_store in Hc. cbn [set_foot dx_foot dx_groups fm_bodies] in Hc. apply in_app_or in Hc as [Hc|Hc].
    + apply in_map_iff in Hc as ([k v] & <- & Hk). apply in_dset in Hk as [[-> ->]|Hk]; [left; exact Hh|]. right. right. apply in_flat_map. exists v. split; [|exact Hh].
      unfold in_store. apply in_or_app. left. apply (in_map snd) in Hk. exact Hk.
    + right. right. apply in_flat_map. exists c. split; [|exact Hh]. unfold in_store. apply in_or_app. right. exact Hc.
  - cbn. apply dset_nodup, T5.
Qed.
Lemma told_group d a H x g p b ctx m : told d a H [b] x -> gm_add_block (dx_groups x) g p b ctx = Ok m -> told d a H [] (set_groups x m).
Proof.
  intros [T1 T2 T3 T4 T5 T6] E. unfold gm_add_block in E. destruct (dmem _ _); [discriminate|]. injection E as <-. constructor; auto.
  intros h Hh. apply T2. cbn [app] in *. rewrite flat_map_app in Hh. cbn [flat_map]. rewrite flat_map_app. rewrite !in_app_iff in *. destruct Hh as [Hh|Hh]; [tauto|].
  apply in_flat_map in Hh as (c & Hc & Hh). assert (Hc' : c = b \/ In c (in_store x)).
  { unfold in_store in *. cbn [set_groups dx_foot dx_groups gm_items] in Hc. rewrite in_app_iff in *. destruct Hc as [Hc|Hc]; [tauto|]. apply in_flat_map in Hc as ([g' d'] & H1 & H2).
    cbn [snd] in H2. apply in_dset in H1 as [[-> ->]|H1]; [|right; right; apply in_flat_map; exists (g', d'); auto]. apply in_map_iff in H2 as ([p' b'] & <- & H2). apply in_dset in H2 as [[-> ->]|H2]; [auto|].
    right. right. unfold gm_group in H2. destruct (dget g (gm_items (dx_groups x))) as [d0|] eqn:Eg; [|destruct H2]. apply in_flat_map. exists (g, d0). split; [apply dget_in', Eg|]. apply (in_map snd) in H2. exact H2. }
  destruct Hc' as [->|Hc']; [left; exact Hh|]. right. right. apply in_flat_map. eauto.
Qed.

Section Elements.
  Context (run : run_fn) (run_ok : forall e n d f t o, fine_res (run e n d f t o)).
  Context (run_child : forall e n d f t o y, run e n d f t o = Ok y -> exists K, child_told d n K y).

  Lemma header_told d a hd t x b z : tells d a x -> runs (dp_do_header cf hd t) x b z -> tells d a z.
  Proof.
    intros (H & T) R. pose proof (header_rises _ _ _ _ _ _ R) as L. apply do_header_inv in R as (nodes & ms & hs & next & ctx & ok & _ & _ & R). cbv zeta in R.
    match type of R with context [mkHeader ?a ?b ?c ?d ?e ?f ?g ?h] => set (hh := mkHeader a b c d e f g h) in R end.
    match type of R with context [set_control ?y None] => set (y0 := y) in * end.
    assert (Ln : dx_next z = next) by (destruct ok; [destruct R as (links & _ & ->)|subst z]; reflexivity). rewrite Ln in L.
    assert (T0 : told d a H [] y0) by (eapply told_same; [exact T|..]; try reflexivity; cbn; lia).
    destruct ok; [|subst z; exists H; eapply told_same; [exact T0|..]; try reflexivity; cbn; lia]. destruct R as (links & Hl & ->).
    exists (H ++ [hh]). assert (I1 : incl H (H ++ [hh])) by (apply incl_appl, incl_refl). assert (I2 : In hh (H ++ [hh])) by (apply in_or_app; right; left; reflexivity).
    destruct T as [T1 T2 T3 T4 T5 T6]. constructor.
    - cbn. apply (born_app _ (dx_next x)); [exact T1|]. split; [lia|]. split; [repeat constructor; cbn; lia|]. intros h g [<-|[]] [<-|[]] _. reflexivity.
    - change (in_store _) with (in_store x). cbn [set_nodes dx_nodes app] in *. intros h Hh. rewrite !flat_map_app in *. cbn [flat_map headings] in Hh. rewrite !in_app_iff in Hh.
      destruct Hh as [[Hh|[Hh|Hh]]|Hh]; [apply I1, T2, in_or_app; auto|destruct Hh as [<-|[]]; exact I2|destruct Hh|apply I1, T2, in_or_app; auto].
    - cbn. apply Forall_app. split; [eapply Forall_impl; [|exact T3]; intros g; apply given_more, I1|]. constructor; [|constructor]. exists hh. auto.
    - cbn. intros k h Hk. destruct (nonempty _) as [n|]; [|subst links; apply I1, (T4 k), Hk].
      unfold hm_add_header in Hl. destruct (dmem _ _); [discriminate|]. assert (links = mkHman (hm_macros (dx_links y0)) (dset n hh (hm_headers (dx_links y0)))) as -> by congruence.
      apply in_dset in Hk as [[-> ->]|Hk]; [exact I2|]. apply I1, (T4 k), Hk.
    - exact T5.
    - destruct T6 as (new & E & F). exists new. split; [exact E|]. eapply Forall_impl; [|exact F]. intros g. apply hits_more, I1.
  Qed.
  Lemma block_told d a o t c x b z : tells d a x -> runs (dp_do_block run o t c) x b z -> tells d a z.
  Proof.
    intros (H & T) R. apply do_block_inv in R as (node & a' & nctx & y & He & R); [|exact run_ok].
    assert (T1 : told d a H [] (set_args x None)) by (eapply told_same; [exact T|..]; try reflexivity; cbn; lia).
    assert (K : exists K, forall at_, told d a K [node at_] y).
    { pose proof He as H0. apply engine_inv in H0 as [[-> Hd]|(Ed & t' & y' & -> & _ & Er & -> & -> & -> & ->)]; [| |exact run_ok].
      - exists H. intros at_. eapply told_hand; [exact T1|]. unfold dp_engine in He. destruct (str_eqb_spec (block_engine x) (lit "default")) as [E|Nd].
        + destruct (Hd E) as (_ & _ & -> & _). apply incl_refl.
        + destruct (str_eqb _ (lit "raw")); [apply runs_ret in He as [E _]; injection E as -> -> ->; apply incl_refl|].
          destruct (str_eqb _ (lit "source")); [|destruct (runs_raise _ _ _ _ He)].
          destruct t as [t|]; [|apply runs_ret in He as [E _]; injection E as -> -> ->; apply incl_refl].
          destruct (token_truthy t); [|apply runs_ret in He as [E _]; injection E as -> -> ->; apply incl_refl].
          apply runs_pget in He. apply runs_lift in He as ([[lg ls] a2] & _ & He). apply runs_ret in He as [E _]. injection E as -> -> ->; apply incl_refl.
      - apply run_child in Er as (K & Er). exists (H ++ K). intros at_. eapply told_hand; [exact (told_after _ _ _ _ _ _ (isolated (block_args x)) T1 Er)|].
        cbn [flat_map headings]. rewrite app_nil_r. apply incl_refl. }
    destruct K as (K & T2). exists K.
    assert (T3 : forall at_, told d a K [node at_] (set_labels y [])) by (intros at_; eapply told_same; [exact (T2 at_)|..]; try reflexivity; cbn; lia).
    destruct (nonempty (dget (lit "footnote") (na_named a'))) as [name|].
    { destruct R as (m & E & ->). exact (told_body _ _ _ _ _ _ _ _ (T3 _) E). }
    assert (Fin : forall ok, z = (if ok : bool then set_nodes (set_control (set_labels y []) None) (dx_nodes y ++ [node (mkAttrs a' (dx_labels y) (merge_contexts (t_ctx o) (t_ctx c)))]) else set_control (set_labels y []) None) -> told d a K [] z).
    { intros ok Hz. eapply told_finish; [apply T3|exact Hz]. }
    destruct (nonempty (dget (lit "group") (na_named a'))) as [g|]; [|destruct R as (ok & _ & Hz); exact (Fin ok Hz)].
    destruct (nonempty (dget (lit "position") (na_named a'))) as [p|]; [|destruct R as (ok & _ & Hz); exact (Fin ok Hz)].
    destruct R as (m & E & ->). exact (told_group _ _ _ _ _ _ _ _ _ (T3 _) E).
  Qed.
  Lemma include_node_told d a ty ctx ar x node a' z : tells d a x -> runs (include_node cf run ty ctx ar) x (node, a') z ->
    exists K, forall at_, told d a K [node at_] z.
  Proof.
    intros (H & T) R.
    assert (Plain : forall n y, headings n = [] -> told d a H [] y -> told d a H [n] y).
    { intros n y E Ty. eapply told_hand; [exact Ty|]. cbn [flat_map]. rewrite E. apply incl_refl. }
    unfold include_node in R. destruct (str_eqb _ _).
    { unfold dp_image in R. cbn [pop_arg] in R. apply runs_need_uri in R as (uri & _ & _ & R). apply runs_ret in R as [E ->]. injection E as -> _. exists H. intros at_. apply Plain; [reflexivity|exact T]. }
    destruct (str_eqb _ _).
    { apply mau_inv in R as (uri & text & e & y & _ & _ & _ & _ & Er & -> & ->). apply run_child in Er as (K & Er). exists (H ++ K). intros at_.
      pose proof (told_after _ _ _ _ _ _ true T Er) as T'. eapply told_hand; [eapply told_same; [exact T'|..]; try reflexivity; cbn; lia|].
      cbn [flat_map headings]. rewrite app_nil_r. apply incl_refl. }
    destruct (str_eqb _ _).
    { unfold dp_include_raw in R. cbn [pop_arg] in R. apply runs_need_uri in R as (uri & _ & _ & R). apply runs_read in R as (t & _ & R).
      apply runs_ret in R as [E ->]. injection E as -> _. exists H. intros at_. apply Plain; [reflexivity|exact T]. }
    destruct (str_eqb _ _).
    { apply runs_bind_inv in R as (f & y & H1 & R); [|unfold dp_toc; apply quiet_bind; [apply fresh_quiet|]; intros id; quiet].
      unfold dp_toc in H1. apply runs_fresh in H1. apply runs_pmod in H1. apply runs_ret in H1 as [-> ->]. apply runs_ret in R as [E ->]. injection E as -> _.
      exists H. intros at_. apply Plain; [reflexivity|]. eapply told_same; [exact T|..]; try reflexivity; cbn; lia. }
    destruct (str_eqb _ _).
    { apply runs_bind_inv in R as (f & y & H1 & R); [|unfold dp_footnotes; apply quiet_bind; [apply fresh_quiet|]; intros id; quiet].
      unfold dp_footnotes in H1. apply runs_fresh in H1. apply runs_pmod in H1. apply runs_ret in H1 as [-> ->]. apply runs_ret in R as [E ->]. injection E as -> _.
      exists H. intros at_. apply Plain; [reflexivity|]. eapply told_same; [exact T|..]; try reflexivity; cbn; lia. }
    destruct (str_eqb _ _); [|apply runs_ret in R as [E ->]; injection E as -> _; exists H; intros at_; apply Plain; [reflexivity|exact T]].
    unfold dp_blockgroup in R. cbn [pop_arg] in R. destruct (dget (lit "group") _) as [g|]; [|destruct (runs_raise _ _ _ _ R)].
    apply runs_fresh in R. apply runs_pmod in R. apply runs_ret in R as [E ->]. injection E as -> _.
    exists H. intros at_. apply Plain; [reflexivity|]. eapply told_same; [exact T|..]; try reflexivity; cbn; lia.
  Qed.
  Lemma include_told d a o ty args x b z : tells d a x -> runs (do_element cf run (EInclude o ty args)) x b z -> tells d a z.
  Proof.
    intros (H & T) R. apply element_include_inv in R as (ar & _ & R). apply do_include_inv in R as (node & a' & y & ok & H1 & (F1 & F2 & _) & _ & Hz); [|exact run_ok].
    assert (T1 : tells d a (set_args x None)) by (exists H; eapply told_same; [exact T|..]; try reflexivity; cbn; lia).
    destruct (include_node_told _ _ _ _ _ _ _ _ _ T1 H1) as (K & T2). rewrite <- F1, <- F2 in Hz. exists K.
    eapply told_finish; [|exact Hz]. eapply told_same; [apply T2|..]; try reflexivity; cbn; lia.
  Qed.
  Lemma acts_told d a el x z : tells d a x -> acts cf run el x z -> tells d a z.
  Proof.
    intros W R. destruct el as [t|t|o n c v|r t|o op c|o t c|h t|o t c|o ty ar|items|ls]; cbn [acts] in R.
    - apply runs_ret in R as [_ ->]. exact W.
    - destruct W as (H & T). apply do_rule_inv in R as (ok & _ & Hz). exists H. eapply told_simple; [| |exact Hz]; [eapply told_same; [exact T|..]; try reflexivity; cbn; lia|apply lmarks_inline].
    - destruct W as (H & T). apply do_variable_inv in R as (k & s & _ & ->). exists H. eapply told_same; [exact T|..]; try reflexivity; cbn; lia.
    - destruct W as (H & T). pose proof (label_rises _ _ _ _ _ _ R) as L. apply do_label_inv in R as (nodes & ms & hs & next & ->). cbn in L. exists H. eapply told_same; [exact T|..]; try reflexivity. exact L.
    - destruct W as (H & T). apply do_control_inv in R as (k & _ & ->). exists H. eapply told_same; [exact T|..]; try reflexivity; cbn; lia.
    - destruct W as (H & T). apply do_arguments_inv in R as (k & _ & ->). exists H. eapply told_same; [exact T|..]; try reflexivity; cbn; lia.
    - eapply header_told; eassumption.
    - eapply block_told; eassumption.
    - eapply include_told; eassumption.
    - destruct W as (H & T). destruct R as (i & its & nodes & x1 & Hr & Hn & Hl). pose proof (items_inline _ _ _ _ _ Hr) as Hi. pose proof (items_rise _ _ _ _ _ Hr) as L. apply runs_items in Hr as (ms & hs & next & ->).
      apply do_list_inv in Hl as (start & latest & ctx & ok & _ & Hz & _). exists H. eapply told_simple; [| |exact Hz].
      + eapply told_same; [exact T|..]; try reflexivity. exact L.
      + cbn [dmarks at_labels flat_map]. change (flat_map dmarks nodes) with (nmarks nodes). rewrite (nested_marks _ _ _ Hn). apply Forall_app. split; [exact Hi|apply lmarks_inline].
    - destruct W as (H & T). pose proof (paragraph_rises _ _ _ _ _ R) as L. apply do_paragraph_inv in R as (lines & ms & hs & next & ctx & ok & _ & Hz). exists H. eapply told_simple; [| |exact Hz].
      + eapply told_same; [exact T|..]; try reflexivity. cbn. destruct ok; subst z; exact L.
      + apply Forall_app. split; [apply lines_inline|apply lmarks_inline].
  Qed.
  Lemma act_all_told d a els x z : act_all cf run els x z -> tells d a x -> tells d a z.
  Proof. induction 1 as [x|el els x y z H _ IH]; intros W; [exact W|]. apply IH. exact (acts_told _ _ _ _ _ W H). Qed.
End Elements.
End Anchors.

Lemma give_given cf H f hs : (forall h s, f h = Ok s -> s = cf_header_id cf h) -> Forall (given cf H) hs -> forall gs, for_each (give_internal f) hs = Ok gs -> Forall (marked cf H) gs.
Proof.
  intros Hf F gs E. rewrite Forall_forall in *. intros g Hg. destruct (each_in _ _ _ E _ Hg) as (h & Hh & Eg). destruct (F _ Hh) as (w & Hw & [->| ->]); exists w; (split; [exact Hw|]); unfold give_internal in Eg.
  - unfold with_anchor, anchor. destruct (h_internal w) as [i|] eqn:Ei.
    + assert (g = w) as -> by congruence. destruct w as [w1 w2 w3 w4 w5 w6 w7 w8]. cbn [h_internal] in Ei. rewrite Ei. reflexivity.
    + destruct (f w) as [s|] eqn:Es; [|discriminate]. cbn [rbind] in Eg. apply Ok_inv in Eg. rewrite <- Eg, (Hf _ _ Es). reflexivity.
  - cbn [with_anchor h_internal] in Eg. apply Ok_inv in Eg. symmetry. exact Eg.
Qed.
Lemma enum_nth {A} (l : list A) : forall n k, nth_error (enumerate_from n l) k = match nth_error l k with Some a => Some (n + k, a) | None => None end.
Proof. induction l as [|a l IH]; intros n [|k]; cbn [enumerate_from nth_error]; try reflexivity; [rewrite Nat.add_0_r; reflexivity|]. rewrite IH. destruct (nth_error l k); [|reflexivity]. f_equal. f_equal. lia. Qed.
Lemma each_nth {A B} (f : A -> res B) l : forall bs, for_each f l = Ok bs -> forall k b, nth_error bs k = Some b -> exists a, nth_error l k = Some a /\ f a = Ok b.
Proof.
  induction l as [|a l IH]; cbn [for_each]; intros bs H k b Hk; [assert (bs = []) as -> by congruence; destruct k; discriminate|].
  destruct (f a) as [c|] eqn:E; [|discriminate]. cbn [rbind] in H. destruct (for_each f l) as [cs|]; [|discriminate]. cbn [rbind] in H. apply Ok_inv in H. subst bs.
  destruct k as [|k]; cbn [nth_error] in *; [exists a; split; [reflexivity|congruence]|exact (IH _ eq_refl _ _ Hk)].
Qed.
Lemma each_map {A B C} (f : A -> res B) (p : A -> C) (q : B -> C) l : (forall a b, f a = Ok b -> q b = p a) -> forall bs, for_each f l = Ok bs -> map q bs = map p l.
Proof.
  intros Hf. induction l as [|a l IH]; cbn [for_each]; intros bs H; [assert (bs = []) as -> by congruence; reflexivity|].
  destruct (f a) as [c|] eqn:E; [|discriminate]. cbn [rbind] in H. destruct (for_each f l) as [cs|]; [|discriminate]. cbn [rbind] in H. apply Ok_inv in H. subst bs.
  cbn [map]. rewrite (Hf _ _ E), (IH _ eq_refl). reflexivity.
Qed.
Lemma enum_names {A} (l : list A) : forall n, map snd (enumerate_from n l) = l.
Proof. induction l as [|a l IH]; intros n; cbn [enumerate_from map snd]; [reflexivity|rewrite IH; reflexivity]. Qed.

Lemma finalise_told cf e d a H x y : told cf d a H [] x -> dp_finalise cf e x = Ok y -> child_told cf d a H y.
Proof.
  intros [T1 T2 T3 T4 T5 T6] R. unfold dp_finalise in R.
  match type of R with rbind (fm_process ?c ?i ?f) _ = _ => set (cpy := c) in R; set (fid := i) in R end.
  assert (Hfid : forall f s, fid f = Ok s -> s = cf_footnote_id cf f).
  { unfold fid. intros f s. generalize (not_function (env_get e (lit "mau.parser.footnote_unique_id_function"))). intros [|]; congruence. } clearbody fid.
  match type of R with rbind _ (fun q => let '(_, _) := q in rbind (tm_process ?i _) _) = _ => set (hid := i) in R end.
  assert (Hhid : forall h s, hid h = Ok s -> s = cf_header_id cf h).
  { unfold hid. intros h s. generalize (not_function (env_get e (lit "mau.parser.header_internal_id_function"))). intros [|]; congruence. } clearbody hid.
  destruct (fm_process cpy fid (dx_foot x)) as [[flinks flists]|] eqn:Ef; [|discriminate]. cbn [rbind] in R.
  destruct (tm_process hid (dx_toc x)) as [[[toc ids] tocs]|] eqn:Et; [|discriminate]. cbn [rbind] in R.
  destruct (hm_process (dx_links x)) as [hlinks|] eqn:Eh; [|discriminate]. cbn [rbind] in R.
  destruct (gm_process (dx_groups x)) as [groups|] eqn:Eg; [|discriminate]. cbn [rbind] in R.
  match type of R with Ok (set_shared _ _ (_ ++ ?l)) = _ => set (A := l) in R end. assert (Ey : y = set_shared (set_toc x toc) (dx_next x) (dx_done x ++ A)) by congruence. clear R.
  assert (Is : incl (flat_map headings (in_store x)) H) by (cbn [app] in T2; rewrite flat_map_app in T2; intros h Hh; apply T2, in_or_app; auto).
  (* footnotes *)
  assert (R1 : Forall (fun l : nat * footnote copy => hits cf H (AFootnote (fst l) (snd l))) flinks /\
               Forall (fun l : nat * list (footnote copy) => hits cf H (AFootnotes (fst l) (snd l))) flists).
  { unfold fm_process in Ef. destruct (fm_footnotes cpy fid (dx_foot x)) as [fs|] eqn:Efs; [|discriminate]. cbn [rbind] in Ef.
    destruct (for_each (fm_link fs) (fm_macros (dx_foot x))) as [ls|] eqn:El; [|discriminate]. cbn [rbind] in Ef.
    assert (ls = flinks) as -> by congruence. assert (map (fun id => (id, map snd fs)) (fm_lists (dx_foot x)) = flists) as <- by congruence. clear Ef.
    unfold fm_footnotes in Efs.
    assert (Hf : forall k q, nth_error fs k = Some q -> note_ok cf (snd q) /\ fn_public_id (snd q) = str_of_nat (S k) /\ In (snd (fn_content (snd q))) (in_store x)).
    { intros k q Hk. destruct (each_nth _ _ _ Efs _ _ Hk) as ([n [nm b]] & Hn & E). rewrite enum_nth in Hn.
      destruct (nth_error (fm_bodies (dx_foot x)) k) as [p|] eqn:Ep; [|discriminate]. assert (n = 1 + k) as -> by congruence. assert (p = (nm, b)) as -> by congruence.
      destruct (fid (mkFootnote nm (str_of_nat (1 + k)) [] (cpy b))) as [s|] eqn:Es; [|discriminate]. cbn [rbind] in E. apply Ok_inv in E. subst q. cbn [snd fn_public_id fn_content]. split; [|split; [reflexivity|]].
      - unfold note_ok. cbn [fn_internal_id fn_name fn_public_id fn_content]. exact (Hfid _ _ Es).
      - apply nth_error_In, (in_map snd) in Ep. unfold in_store. apply in_or_app. left. exact Ep. }
    assert (Hi : forall q, In q fs -> note_ok cf (snd q) /\ In (snd (fn_content (snd q))) (in_store x)).
    { intros q Hq. apply In_nth_error in Hq as (k & Hk). destruct (Hf _ _ Hk) as (Q1 & _ & Q2). auto. }
    assert (Hn : map (fun q : str * footnote copy => fn_name (snd q)) fs = keys (fm_bodies (dx_foot x))).
    { assert (Q : map (fun q : str * footnote copy => fn_name (snd q)) fs = map (fun p : nat * (str * dnode) => fst (snd p)) (enumerate_from 1 (fm_bodies (dx_foot x)))).
      { refine (each_map _ _ _ _ _ _ Efs). intros [n [nm b]] q. destruct (fid (mkFootnote nm (str_of_nat n) [] (cpy b))); cbn [rbind]; [|discriminate]. intros Q. apply Ok_inv in Q. subst q. reflexivity. }
      rewrite Q.
      rewrite <- (map_map snd fst), enum_names. reflexivity. }
    split; rewrite Forall_forall.
    - intros [id f] Hl. destruct (each_in _ _ _ El _ Hl) as (m & Hm & E). unfold fm_link in E. destruct (dget (mn_name m) fs) as [f'|] eqn:E2; [|discriminate].
      assert (f' = f) as -> by congruence. apply dget_in' in E2. destruct (Hi _ E2) as [Q1 Q2]. cbn [fst snd] in *. split; [|exact Q1].
      cbn [set_apart flat_map]. rewrite app_nil_r. intros h Hh. apply Is, in_flat_map. eauto.
    - intros [id l] Hl. apply in_map_iff in Hl as (i & E & _). assert (l = map snd fs) as -> by congruence. cbn [fst snd]. split; [|split; [|split]].
      + cbn [set_apart]. rewrite map_map. intros h Hh. apply in_flat_map in Hh as (c & Hc & Hh). apply in_map_iff in Hc as (q & <- & Hq). apply Is, in_flat_map. exists (snd (fn_content (snd q))). split; [apply Hi, Hq|exact Hh].
      + apply Forall_forall. intros f Hq. apply in_map_iff in Hq as (q & <- & Hq). apply Hi, Hq.
      + intros k f Hk. rewrite nth_error_map in Hk. destruct (nth_error fs k) as [q|] eqn:Eq; [|discriminate]. cbn [option_map] in Hk. assert (snd q = f) as <- by congruence. apply (Hf _ _ Eq).
      + rewrite map_map. unfold copy in *. refine (eq_ind_r (fun l => NoDup l) _ Hn). exact T5. }
  (* table of contents *)
  assert (R2 : Forall (given cf H) (tm_headers toc) /\
               Forall (fun l : nat * str => hits cf H (AInternal (fst l) (snd l))) ids /\
               Forall (fun l : nat * (list toc_item * list header) => hits cf H (AToc (fst l) (fst (snd l)) (snd (snd l)))) tocs).
  { unfold tm_process in Et. destruct (tm_headers (dx_toc x)) as [|h0 hs0] eqn:Ehs.
    - assert (dx_toc x = toc) as <- by congruence. assert ([] = ids) as <- by congruence. assert ([] = tocs) as <- by congruence.
      rewrite Ehs. auto.
    - rewrite <- Ehs in *. destruct (for_each (give_internal hid) (tm_headers (dx_toc x))) as [hs|] eqn:Egi; [|discriminate]. cbn [rbind] in Et.
      pose proof (give_given _ _ _ _ Hhid T3 _ Egi) as Hh.
      assert (mkTman hs (tm_nodes (dx_toc x)) (nest_headers hs) = toc) as <- by congruence.
      assert (flat_map (fun h => match h_internal h with Some i => [(h_id h, i)] | None => [] end) hs = ids) as <- by congruence.
      assert (map (fun id => (id, (nest_headers hs, hs))) (tm_nodes (dx_toc x)) = tocs) as <- by congruence. clear Et.
      cbn [tm_headers tm_nodes]. split; [eapply Forall_impl; [|exact Hh]; intros g (h & Q1 & Q2); exists h; auto|]. split.
      + rewrite Forall_forall in *. intros [id s] Hl. apply in_flat_map in Hl as (g & Hg & Hl). destruct (Hh _ Hg) as (h & Q1 & ->). cbn [with_anchor h_internal h_id] in Hl. destruct Hl as [E|[]].
        split; [intros m []|]. exists h. cbn [fst snd]. split; [exact Q1|]. split; congruence.
      + rewrite Forall_forall. intros [id [n p]] Hl. apply in_map_iff in Hl as (i & E & Hi). assert (p = hs) as -> by congruence. cbn [fst snd].
        split; [intros m []|]. split; [exact Hh|]. assert (n = nest_headers hs) as -> by congruence. apply nest_incl. }
  destruct R1 as [R1a R1b], R2 as (R2a & R2b & R2c).
  assert (R3 : Forall (fun l : nat * (header * list inode) => hits cf H (AHeader (fst l) (fst (snd l)) (snd (snd l)))) hlinks).
  { rewrite Forall_forall in *. intros [id [h c]] Hl. destruct (each_in _ _ _ Eh _ Hl) as (m & Hm & E). unfold hm_link in E.
    destruct (dget (mn_name (fst m)) (hm_headers (dx_links x))) as [h'|] eqn:E2; [|discriminate]. apply dget_in' in E2.
    assert (h = h') as -> by congruence. cbn [fst snd] in *. split; [intros k []|]. exact (T4 _ _ E2). }
  assert (R4 : Forall (fun l : nat * dict dnode => hits cf H (AGroup (fst l) (length (dx_done x)) (snd l))) groups).
  { rewrite Forall_forall. intros [id items] Hl. destruct (each_in _ _ _ Eg _ Hl) as (m & Hm & E). unfold gm_link in E.
    destruct (dget (mn_name m) (gm_items (dx_groups x))) as [dd|] eqn:E2; [|discriminate]. apply dget_in' in E2. assert (items = dupd (dupd [] dd) dd) as -> by congruence.
    split; [|exact I]. cbn [fst snd set_apart]. intros h Hh. apply in_flat_map in Hh as (b & Hb & Hh). apply in_map_iff in Hb as ([p b'] & <- & Hp).
    assert (Hp' : In (p, b') dd). { apply dupd_in in Hp as [Hp|Hp]; [|exact Hp]. apply dupd_in in Hp as [[]|Hp]; exact Hp. }
    apply Is, in_flat_map. exists b'. split; [|exact Hh]. unfold in_store. apply in_or_app. right. apply in_flat_map. exists (mn_name m, dd). split; [exact E2|]. apply (in_map snd) in Hp'. exact Hp'. }
  subst y. unfold child_told. cbn [set_shared set_toc dx_next dx_nodes dx_foot dx_toc dx_done]. split; [exact T1|]. split.
  { intros h Hh. apply T2. cbn [app]. rewrite flat_map_app in *. rewrite in_app_iff in *. destruct Hh as [Hh|Hh]; [auto|]. right. unfold in_store. rewrite flat_map_app. apply in_or_app. auto. }
  split; [exact R2a|]. destruct T6 as (new & E & F). exists (new ++ A). split; [rewrite E, app_assoc; reflexivity|]. apply Forall_app. split; [exact F|].
  unfold A. rewrite !Forall_app, !Forall_map. auto 10.
Qed.
Lemma run_told n : forall cf e next done forb text o y, dp_run n cf e next done forb text o = Ok y -> exists H, child_told cf done next H y.
Proof.
  induction n as [|n IH]; intros cf e next done forb text o y R; [discriminate|].
  apply dp_run_inv in R as (m & toks & x0 & els & x & En & _ & Ei & _ & Ha & Hf). injection En as <-.
  assert (T0 : tells cf done next x0).
  { unfold dp_init in Ei. destruct (not_callable _); [discriminate|]. apply Ok_inv in Ei. subst x0. exists []. constructor; cbn; try constructor; auto.
    - split; [constructor|]. intros h g [].
    - intros ? [].
    - exists []. split; [symmetry; apply app_nil_r|constructor]. }
  destruct (act_all_told cf (dp_run n cf) (fun e n' d f t o => dp_run_fine n cf e n' d f t o) (fun e n' d f t o y H => IH cf e n' d f t o y H) _ _ _ _ _ Ha T0) as (H & T).
  exists H. exact (finalise_told _ _ _ _ _ _ _ T Hf).
Qed.
