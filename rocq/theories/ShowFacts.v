(* ShowFacts.v -- the levels of the groups of a document *)
From Verif Require Import NumDoc Build BuildFacts SpecVisitor SpecRender PropertiesVisitor PropertiesVisit PropertiesBuild RenderFacts.
From Coq Require Import List Lia PeanoNat.
Import ListNotations.
#[local] Open Scope list_scope.
#[local] Notation length := List.length.

(* ------------------------------------------------------------- numbers and marks *)
Definition kind_later (w : later) : kind :=
  match w with
  | LMention _ _ => KMacroFootnote | LLink _ _ _ => KMacroHeader | LHeader _ => KHeader
  | LToc => KToc | LFootnotes => KFootnotes | LGroup _ => KBlockGroup
  end.
(* the object has the class that its number says *)
Definition marked (M : marks) (c : cell) : Prop := forall i, snd c = Some i -> exists w, In (i, w) M /\ o_kind (fst c) = kind_later w.
Lemma marked_incl M N c : incl M N -> marked M c -> marked N c.
Proof. intros I H i E. destruct (H i E) as (w & Hw & K). exists w. split; [exact (I _ Hw) | exact K]. Qed.
Lemma all_marked_incl M N cs : incl M N -> Forall (marked M) cs -> Forall (marked N) cs.
Proof. intros I. apply Forall_impl. intro c. exact (marked_incl M N c I). Qed.
Lemma marked_none M o : marked M (o, None).
Proof. intros i E. discriminate E. Qed.
Lemma place_marked {A} (f : nat -> A -> list cell) (g : A -> marks) (l : list A) base :
  (forall b a, In a l -> Forall (marked (g a)) (f b a)) -> Forall (marked (flat_map g l)) (snd (place f base l)).
Proof.
  intros H. apply place_all. intros b a Ha. apply (all_marked_incl (g a)); [| exact (H b a Ha)]. intros m Hm. apply in_flat_map. eauto.
Qed.
Lemma inode_marked i : forall parent base, Forall (marked (imarks i)) (inode_cells parent base i).
Proof.
  induction i using inode_all; intros parent base; cbn [inode_cells imarks]; unfold with_content;
    try (constructor; [apply marked_none |]; try constructor; apply place_marked; intros b a Ha; rewrite Forall_forall in H; exact (H a Ha _ _)).
  - constructor; [intros j E; injection E as <-; eexists; split; [left; reflexivity | reflexivity] |].
    apply (all_marked_incl (flat_map imarks l)); [apply incl_tl, incl_refl |]. apply place_marked. intros b a Ha. rewrite Forall_forall in H. exact (H a Ha _ _).
  - constructor; [| constructor]. intros j E. injection E as <-. eexists. split; [left; reflexivity | reflexivity].
Qed.
Lemma inodes_marked l parent base : Forall (marked (tmarks l)) (snd (place (inode_cells parent) base l)).
Proof. apply place_marked. intros b a _. apply inode_marked. Qed.
Lemma labels_marked (l : labels) host base : Forall (marked (lmarks l)) (snd (place (label_cells host) base l)).
Proof. apply place_marked. intros b a _. unfold label_cells, with_content. constructor; [apply marked_none | apply inodes_marked]. Qed.
Lemma with_labels_marked o num base l p M : (forall i ls lb, num = Some i -> exists w, In (i, w) M /\ o_kind (o ls lb) = kind_later w) -> Forall (marked M) (snd p) -> incl (lmarks l) M ->
  Forall (marked M) (with_labels o num base l p).
Proof.
  intros Hn Hp Hl. unfold with_labels. pose proof (labels_marked l base (S base + length (snd p))) as K. destruct (place (label_cells base) _ l) as [ls cs]. cbn [snd] in K.
  constructor; [intros i E; exact (Hn i _ _ E) |]. apply Forall_app. split; [exact Hp | exact (all_marked_incl _ _ _ Hl K)].
Qed.
Lemma header_marked parent base h : Forall (marked (hmarks h)) (header_cells parent base h).
Proof.
  unfold header_cells. apply with_labels_marked.
  - intros i ls lb E. injection E as <-. eexists. split; [left; reflexivity | reflexivity].
  - apply (all_marked_incl (tmarks (h_content h))); [intros m Hm; right; apply in_or_app; left; exact Hm | apply inodes_marked].
  - intros m Hm. right. apply in_or_app. right. exact Hm.
Qed.
Lemma dnode_marked d : forall parent base, Forall (marked (dmarks d)) (dnode_cells parent base d).
Proof.
  assert (Hin : forall l, Forall (fun d => forall parent base, Forall (marked (dmarks d)) (dnode_cells parent base d)) l -> forall parent base,
    Forall (marked (flat_map dmarks l)) (snd (place (dnode_cells parent) base l))).
  { intros l F parent base. apply place_marked. intros b a Ha. rewrite Forall_forall in F. exact (F a Ha _ _). }
  assert (Hl : forall (M : marks) a, incl M (M ++ lmarks (at_labels a))) by (intros; apply incl_appl, incl_refl).
  assert (Hr : forall (M : marks) a, incl (lmarks (at_labels a)) (M ++ lmarks (at_labels a))) by (intros; apply incl_appr, incl_refl).
  induction d using dnode_all; intros parent base; cbn [dmarks].
  - cbn [dnode_cells]. apply with_labels_marked; [discriminate | eapply all_marked_incl; [apply Hl | apply Hin, H] | apply Hr].
  - cbn [dnode_cells]. apply with_labels_marked; [discriminate | eapply all_marked_incl; [apply Hl | apply Hin, H] | apply Hr].
  - destruct l as [| n l]; cbn [dnode_cells]; (apply with_labels_marked; [discriminate | | apply Hr]); [constructor |].
    pose proof (Hin _ H (Some (S base)) (S (S base))) as S1.
    destruct (place (dnode_cells (Some (S base))) (S (S base)) (n :: l)) as [ls cs]. cbn [snd] in *. constructor; [apply marked_none |]. eapply all_marked_incl; [apply Hl | exact S1].
  - destruct d; try destruct H; cbn [dnode_cells dmarks];
      try apply header_marked;
      try (apply with_labels_marked; [first [discriminate | intros ? ? ? E; injection E as <-; eexists; split; [left; reflexivity | reflexivity]] | try apply Forall_nil | first [apply incl_refl | apply incl_tl, incl_refl | apply Hr]]).
    + eapply all_marked_incl; [apply Hl |]. apply place_marked. intros b a' _. unfold line_cells, with_content. constructor; [apply marked_none | apply inodes_marked].
    + apply place_all. intros b a' _. constructor; [apply marked_none | constructor].
    + apply place_all. intros b a' _. unfold source_line_cells. constructor; [apply marked_none |]. destruct (sl_marker a') as [[v c] |]; [constructor; [apply marked_none | constructor] | constructor].
    + unfold with_content. constructor; [apply marked_none | apply inodes_marked].
    + apply place_all. intros b a' _. constructor; [apply marked_none | constructor].
Qed.
Lemma first_number_in cs i : first_number cs = Some i -> exists o, In (o, Some i) cs.
Proof.
  induction cs as [| [o [j |]] cs IH]; cbn [first_number]; [discriminate | intros E; injection E as ->; exists o; left; reflexivity |].
  intros E. destruct (IH E) as [o' Ho]. exists o'. right. exact Ho.
Qed.
Lemma first_mark parent base d i : first_number (dnode_cells parent base d) = Some i -> In i (map fst (dmarks d)).
Proof.
  intros E. destruct (first_number_in _ _ E) as [o Ho]. pose proof (dnode_marked d parent base) as F. rewrite Forall_forall in F. destruct (F _ Ho i eq_refl) as (w & Hw & _).
  apply in_map_iff. exists (i, w). split; [reflexivity | exact Hw].
Qed.

(* ------------------------------------------------------------- levels *)
Definition group_ids (d : dnode) : list nat := flat_map (fun m : nat * later => match snd m with LGroup _ => [fst m] | _ => [] end) (dmarks d).
Lemma group_ids_in d i : In i (group_ids d) <-> exists nm, In (i, LGroup nm) (dmarks d).
Proof.
  unfold group_ids. rewrite in_flat_map. split.
  - intros ([j w] & Hm & Hi). destruct w; cbn in Hi; try contradiction. destruct Hi as [<- | []]. eauto.
  - intros (nm & H). eexists. split; [exact H | left; reflexivity].
Qed.
Definition level_of (done : list assign) (d : dnode) : nat :=
  list_max (flat_map (fun a => match a with AGroup id made _ => if in_dec Nat.eq_dec id (group_ids d) then [S made] else [] | _ => [] end) done).
Definition top_level (done : list assign) : nat := list_max (flat_map (fun a => match a with AGroup _ made _ => [S made] | _ => [] end) done).
Lemma list_max_in l x : In x l -> x <= list_max l.
Proof. intros H. pose proof (proj1 (list_max_le l (list_max l)) (le_n _)) as F. rewrite Forall_forall in F. exact (F x H). Qed.
Lemma level_above done d id made items : In (AGroup id made items) done -> In id (group_ids d) -> made < level_of done d.
Proof.
  intros Ha Hi. apply (list_max_in _ (S made)). apply in_flat_map. exists (AGroup id made items). split; [exact Ha |]. destruct (in_dec Nat.eq_dec id (group_ids d)) as [_ | N]; [left; reflexivity | contradiction].
Qed.
Lemma top_above done id made items : In (AGroup id made items) done -> made < top_level done.
Proof. intros Ha. apply (list_max_in _ (S made)). apply in_flat_map. exists (AGroup id made items). split; [exact Ha | left; reflexivity]. Qed.
Lemma level_below done id made items b : layered done -> In (AGroup id made items) done -> In b (map snd items) -> level_of done b <= made.
Proof.
  intros L Ha Hb. apply list_max_le, Forall_forall. intros x Hx. apply in_flat_map in Hx as (a & Ha' & Hx). destruct a as [| | | | | id' made' items']; try contradiction.
  destruct (in_dec Nat.eq_dec id' (group_ids b)) as [Hi |]; [| contradiction]. destruct Hx as [<- | []]. apply group_ids_in in Hi as (nm & Hi). exact (L _ _ _ _ _ _ _ _ Ha Ha' Hb Hi).
Qed.

(* ------------------------------------------------------------- the tree *)
Lemma parts_aside done q d : In (q, d) (flat_map parts_of done) -> In d (aside done).
Proof.
  unfold aside. rewrite !in_flat_map. intros (a & Ha & Hp). exists a. split; [exact Ha |]. destruct a as [? f | ? l | | | | ? ? items]; cbn [parts_of set_apart] in *; try contradiction.
  - destruct Hp as [E | []]. injection E as _ <-. left. reflexivity.
  - apply in_map_iff in Hp as (f & E & Hf). injection E as _ <-. apply in_map_iff. exists f. split; [reflexivity | exact Hf].
  - apply in_map_iff in Hp as (kb & E & Hk). injection E as _ <-. apply in_map. exact Hk.
Qed.
Section Tree.
  Context (done : list assign) (one : forall b c, In b (aside done) -> In c (aside done) -> share b c -> b = c).
  Record in_levels (lev : nat -> nat) (b : build) : Prop := mkLevels {
    lv_refs : forall i o k f c, nth_error (b_heap b) i = Some o -> In (k, f) (o_fields o) -> In c (refs f) -> c < length (b_heap b) /\ lev c <= lev i;
    lv_tags : forall i id made items, nth_error (b_nums b) i = Some (Some (KBlockGroup, id)) -> In (AGroup id made items) done -> made < lev i;
    lv_parts : forall e, In e (b_parts b) -> exists d, In (fst (fst e), d) (flat_map parts_of done) /\ (forall i, snd (fst e) = Some i -> In i (map fst (dmarks d))) /\
                 snd e < length (b_heap b) /\ lev (snd e) = level_of done d }.
  (* objects of one level after the others *)
  Lemma levels_add lev b cs lv : in_levels lev b -> tree b -> segment (fun _ => False) (length (b_heap b)) cs ->
    (forall c, In c cs -> forall id made items, tag_of c = Some (KBlockGroup, id) -> In (AGroup id made items) done -> made < lv) ->
    exists lev', in_levels lev' (add_cells b cs) /\ (forall i, i < length (b_heap b) -> lev' i = lev i) /\ (forall i, length (b_heap b) <= i -> lev' i = lv).
  Proof.
    intros [R T P] (_ & Ln & _) Sg Ht. set (n := length (b_heap b)) in *. exists (fun i => if i <? n then lev i else lv).
    assert (Hlo : forall i, i < n -> (if i <? n then lev i else lv) = lev i) by (intros i Hi; apply Nat.ltb_lt in Hi; rewrite Hi; reflexivity).
    assert (Hhi : forall i, n <= i -> (if i <? n then lev i else lv) = lv) by (intros i Hi; apply Nat.ltb_ge in Hi; rewrite Hi; reflexivity).
    split; [| split; assumption]. constructor; cbn [add_cells b_heap b_nums b_parts].
    - intros i o k f c E Hf Hc. rewrite app_length, map_length. change (obj * option nat)%type with cell. fold n. destruct (Nat.lt_ge_cases i n) as [Hi | Hi].
      + rewrite nth_error_app1 in E by exact Hi. destruct (R i o k f c E Hf Hc) as [R1 R2]. rewrite (Hlo i Hi), (Hlo c R1). split; [lia | exact R2].
      + rewrite nth_error_app2 in E by exact Hi. fold n in E. rewrite nth_error_map in E. change (obj * option nat)%type with cell in E.
        destruct (@nth_error cell cs (i - n)) as [x |] eqn:Ex; cbn [option_map] in E; [| congruence]. assert (o = fst x) as -> by congruence.
        destruct (Sg _ _ Ex) as (_ & _ & S1). specialize (S1 k f c Hf Hc). destruct (pointer _ k); [destruct S1 |]. rewrite (Hhi i Hi), (Hhi c ltac:(lia)). split; lia.
    - intros i id made items E Ha. destruct (Nat.lt_ge_cases i n) as [Hi | Hi].
      + rewrite nth_error_app1 in E by (rewrite Ln; exact Hi). rewrite (Hlo i Hi). exact (T _ _ _ _ E Ha).
      + rewrite nth_error_app2 in E by (rewrite Ln; exact Hi). rewrite nth_error_map in E. change (obj * option nat)%type with cell in E.
        destruct (@nth_error cell cs (i - length (b_nums b))) as [x |] eqn:Ex; cbn [option_map] in E; [| congruence]. rewrite (Hhi i Hi).
        apply (Ht x (nth_error_In _ _ Ex) id made items); [congruence | exact Ha].
    - intros e He. destruct (P e He) as (d & H1 & H2 & H3 & H4). exists d. split; [exact H1 |]. split; [exact H2 |]. rewrite app_length. split; [fold n; lia |]. rewrite (Hlo _ H3). exact H4.
  Qed.
  Lemma tag_group M c id : marked M c -> tag_of c = Some (KBlockGroup, id) -> exists nm, In (id, LGroup nm) M.
  Proof.
    intros Hm E. unfold tag_of in E. destruct (snd c) as [i |] eqn:Ei; cbn [option_map] in E; [| discriminate]. assert (i = id) as -> by congruence. assert (K : o_kind (fst c) = KBlockGroup) by congruence.
    destruct (Hm id Ei) as (w & Hw & Kw). rewrite K in Kw. destruct w; try discriminate Kw. eauto.
  Qed.
  Lemma levels_join lev b p : in_levels lev b -> tree b -> In p (flat_map parts_of done) -> exists lev', in_levels lev' (join_part b p).
  Proof.
    intros V Tb Hp. destruct p as [q d]. unfold join_part. cbn [fst snd]. set (cs := dnode_cells None (length (b_heap b)) d). 
    destruct (find (same_part (first_number cs)) (b_parts b)) as [[[q0 j0] l] |] eqn:Ef.
    - exists lev. destruct V as [R T P]. constructor; [exact R | exact T |]. cbn [b_parts b_heap]. intros e He. apply in_app_or in He as [He | [<- | []]]; [exact (P e He) |]. cbn [fst snd].
      exists d. split; [exact Hp |]. split; [intros i Ei; exact (first_mark _ _ _ _ Ei) |].
      destruct (P _ (find_snd _ _ _ Ef)) as (d0 & H1 & H2 & H3 & H4). cbn [fst snd] in *. split; [exact H3 |]. rewrite H4. f_equal.
      apply find_some in Ef as [_ Es]. unfold same_part in Es. cbn [fst snd] in Es. destruct (first_number cs) as [i |] eqn:Ei; [| discriminate]. destruct j0 as [j |]; [| discriminate].
      apply Nat.eqb_eq in Es. subst j. apply one; [exact (parts_aside _ _ _ H1) | exact (parts_aside _ _ _ Hp) |]. exists i. split; [apply H2; reflexivity | exact (first_mark _ _ _ _ Ei)].
    - destruct (dnode_segment (fun _ => False) d None (length (b_heap b)) (below_none _)) as (Sg & Hne).
      destruct (levels_add lev b cs (level_of done d) V Tb Sg) as (lev' & V' & Lo & Hi).
      { intros c Hc id made items Et Ha. pose proof (dnode_marked d None (length (b_heap b))) as F. rewrite Forall_forall in F. apply (level_above done d id made items Ha). apply group_ids_in. exact (tag_group _ _ _ (F c Hc) Et). }
      exists lev'. destruct V' as [R T P]. constructor; [exact R | exact T |]. cbn [b_parts b_heap]. intros e He. apply in_app_or in He as [He | [<- | []]]; [exact (P e He) |]. cbn [fst snd].
      exists d. split; [exact Hp |]. split; [intros i Ei; exact (first_mark _ _ _ _ Ei) |]. split; [| exact (Hi _ (le_n _))]. cbn [add_cells b_heap]. rewrite app_length, map_length. unfold cs.
      destruct (dnode_cells None (length (b_heap b)) d); [contradiction | cbn; lia].
  Qed.
  Lemma levels_header lev b h : in_levels lev b -> tree b -> exists lev', in_levels lev' (add_header b h).
  Proof.
    intros V Tb. unfold add_header. destruct (locate KHeader (h_id h) (b_nums b)); [eauto |].
    destruct (header_segment (fun _ => False) None (length (b_heap b)) h (below_none _)) as (Sg & _).
    destruct (levels_add lev b (header_cells None (length (b_heap b)) h) 0 V Tb Sg) as (lev' & V' & _); [| eauto].
    intros c Hc id made items Et Ha. exfalso. pose proof (header_marked None (length (b_heap b)) h) as F. rewrite Forall_forall in F. destruct (tag_group _ _ _ (F c Hc) Et) as [nm Hn].
    destruct Hn as [Hn | Hn]; [discriminate |]. apply in_app_or in Hn as [Hn | Hn]; [exact (inline_no_group _ _ _ (tmarks_inline _) Hn) | exact (inline_no_group _ _ _ (lmarks_inline _) Hn)].
  Qed.
  Lemma levels_joins l : forall b lev, in_levels lev b -> tree b -> incl l (flat_map parts_of done) -> exists lev', in_levels lev' (fold_left join_part l b).
  Proof.
    induction l as [| p l IH]; intros b lev V Tb Hl; cbn [fold_left]; [eauto |]. destruct (levels_join lev b p V Tb (Hl _ (or_introl eq_refl))) as [lev1 V1].
    exact (IH _ lev1 V1 (tree_add_part b p Tb) (fun q H => Hl q (or_intror H))).
  Qed.
  Lemma levels_headers l : forall b lev, in_levels lev b -> tree b -> exists lev', in_levels lev' (fold_left add_header l b).
  Proof.
    induction l as [| h l IH]; intros b lev V Tb; cbn [fold_left]; [eauto |]. destruct (levels_header lev b h V Tb) as [lev1 V1]. exact (IH _ lev1 V1 (tree_add_header b h Tb)).
  Qed.
  Lemma part_eqb_eq p q : part_eqb p q = true -> p = q.
  Proof.
    destruct p as [n s | g m s], q as [n' s' | g' m' s']; cbn; try discriminate; intros H.
    - apply andb_prop in H as [H1 H2]. apply Nat.eqb_eq in H1. destruct (str_eqb_spec s s'); congruence.
    - apply andb_prop in H as [H1 H2]. apply andb_prop in H1 as [H1 H3]. apply Nat.eqb_eq in H1, H3. destruct (str_eqb_spec s s'); congruence.
  Qed.
  Lemma tree_levelled doc : layered done -> exists lev, levelled lev done (build_tree doc done).
  Proof.
    intros Hl. unfold build_tree. set (b0 := mkBuild (map fst (document_cells doc)) (map tag_of (document_cells doc)) [] [] []).
    destruct (document_segment doc) as (Sg & Hne).
    assert (T0 : tree b0).
    { assert (H0 : wf_heap ([] : heap)) by (apply wf_nth; intros [|] o E; discriminate E).
      split; [| split; [cbn; rewrite !map_length; reflexivity | split; reflexivity]]. split; [exact (wf_segment _ [] _ H0 Sg (fun c (H : False) => match H with end)) |].
      split; [cbn; rewrite map_length; destruct (document_cells doc); [contradiction | cbn; lia] |]. split; [exact (tags_app [] [] (document_cells doc) eq_refl (conj (le_n _) (fun i k j E => match i return nth_error [] i = Some (Some (k, j)) -> _ with 0 | _ => fun E => ltac:(discriminate E) end E))) |].
      repeat split; constructor. }
    assert (V0 : in_levels (fun _ => top_level done) b0).
    { constructor; cbn [b0 b_heap b_nums b_parts].
      - intros i o k f c E Hf Hc. split; [| apply le_n]. rewrite nth_error_map in E. change (obj * option nat)%type with cell in E.
        destruct (@nth_error cell (document_cells doc) i) as [x |] eqn:Ex; cbn [option_map] in E; [| congruence]. assert (o = fst x) as -> by congruence.
        destruct (Sg _ _ Ex) as (_ & _ & S1). specialize (S1 k f c Hf Hc). destruct (pointer _ k); [destruct S1 |]. rewrite map_length. change (obj * option nat)%type with cell. lia.
      - intros i id made items _ Ha. exact (top_above _ _ _ _ Ha).
      - intros e []. }
    destruct (levels_joins (flat_map parts_of done) b0 _ V0 T0 (incl_refl _)) as [lev1 V1].
    destruct (levels_headers (flat_map Build.headers_in done) _ lev1 V1 (fold_tree join_part tree_add_part _ _ T0)) as [lev V]. exists lev. destruct V as [R T P]. split; [| split].
    - intros i o k f c E Hf Hc. exact (proj2 (R i o k f c E Hf Hc)).
    - intros id m made items E Ha. exact (T _ _ _ _ (locate_nth _ _ _ _ E) Ha).
    - intros id made items pos e Ha Hp Ef. destruct (P e (find_snd _ _ _ Ef)) as (d & H1 & _ & _ & ->). apply find_some in Ef as [_ Ef]. apply part_eqb_eq in Ef. rewrite <- Ef in H1.
      apply in_flat_map in H1 as (a & Ha' & H1). destruct a as [? f | ? l | | | | id' made' items']; cbn [parts_of] in H1; try contradiction.
      + destruct H1 as [H1 | []]. discriminate H1.
      + apply in_map_iff in H1 as (? & H1 & _). discriminate H1.
      + apply in_map_iff in H1 as ([p d'] & H1 & H2). cbn in H1. injection H1 as -> -> -> ->. apply (level_below done id made items' d Hl Ha'). apply in_map_iff. exists (pos, d). split; [reflexivity | exact H2].
  Qed.
End Tree.

Lemma documents_render hk kw doc done : total_hooks hk -> quiet_headers (fst doc) done -> layered done -> (forall b c, In b (aside done) -> In c (aside done) -> share b c -> b = c) ->
  exists n0, forall n, n0 <= n -> exists d, render_document hk kw n (Some doc) done = Ok d.
Proof.
  intros Hk Hq Hl H1. destruct (tree_levelled done H1 doc Hl) as [lev V]. pose proof (build_tree_ready lev doc done Hq V) as R. destruct (do_assigns_ready lev _ done done _ R (incl_refl _)) as (b & [n1 Ev] & Rb).
  destruct Rb as (W & S1 & _). destruct (settled_height lev _ _ S1 0 (proj1 (proj2 W))) as [n2 Hn2]. exists (max n1 n2). intros n Hn.
  cbn [render_document]. unfold heap_of. rewrite Ev by lia. cbn [rbind].
  exact (C67_visits_end_partial hk kw (b_heap b) Hk (proj2 (proj1 W)) n 0 (visit_height_mono lev _ _ _ Hn2 n ltac:(lia))).
Qed.
