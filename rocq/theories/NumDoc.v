(* NumDoc.v -- the numbers given to the nodes of a document *)
From Verif Require Export NumText SpecAttach RunFacts AttachFacts PropertiesErrors.
From Verif Require Import SpecManagers PropertiesManagers.
#[local] Notation length := List.length.

(* ------------------------------------------------------------ marks of dictionaries *)
Section DictMarks.
  Context {A : Type} (f : A -> marks).
  Definition vmarks (d : dict A) : marks := flat_map (fun kv : str * A => f (snd kv)) d.
  Lemma vmarks_app d e : vmarks (d ++ e) = vmarks d ++ vmarks e.
  Proof. apply flat_map_app. Qed.
  Lemma vmarks_dset k v d : sub (vmarks (dset k v d)) (vmarks d ++ f v).
  Proof.
    induction d as [|[j w] d IH]; cbn [dset].
    - unfold vmarks. cbn [flat_map snd]. rewrite app_nil_r. apply sub_refl.
    - destruct (str_eqb k j).
      + change (vmarks ((j, v) :: d)) with (f v ++ vmarks d). change (vmarks ((j, w) :: d)) with (f w ++ vmarks d). split.
        * intros m Hm. rewrite !in_app_iff in *. tauto.
        * intros i. rewrite !cnt_app. lia.
      + change (vmarks ((j, w) :: dset k v d)) with (f w ++ vmarks (dset k v d)). change (vmarks ((j, w) :: d)) with (f w ++ vmarks d).
        rewrite <- app_assoc. apply sub_app; [apply sub_refl|exact IH].
  Qed.
  Lemma vmarks_dupd e : forall d, sub (vmarks (dupd d e)) (vmarks d ++ vmarks e).
  Proof.
    unfold dupd. induction e as [|[j w] e IH]; intros d; cbn [fold_left].
    - unfold vmarks at 3. cbn [flat_map]. rewrite app_nil_r. apply sub_refl.
    - eapply sub_trans; [apply IH|]. change (vmarks ((j, w) :: e)) with (f w ++ vmarks e). rewrite app_assoc. apply sub_app; [apply vmarks_dset|apply sub_refl].
  Qed.
  (* a value that is changed for one with more marks *)
  Lemma vmarks_dset_more k v w N d : (dget k d = Some w \/ (dget k d = None /\ f w = [])) -> sub (f v) (f w ++ N) -> sub (vmarks (dset k v d)) (vmarks d ++ N).
  Proof.
    induction d as [|[j u] d IH]; cbn [dset dget]; intros H Hs.
    - destruct H as [H|[_ H]]; [discriminate|]. unfold vmarks. cbn [flat_map snd]. rewrite app_nil_r. rewrite H in Hs. exact Hs.
    - destruct (str_eqb k j).
      + assert (u = w) as -> by (destruct H as [H|[H _]]; congruence). change (vmarks ((j, v) :: d)) with (f v ++ vmarks d). change (vmarks ((j, w) :: d)) with (f w ++ vmarks d).
        destruct Hs as [S1 S2]. split.
        * intros m Hm. rewrite !in_app_iff in *. destruct Hm as [Hm|Hm]; [apply S1 in Hm; rewrite in_app_iff in Hm|]; tauto.
        * intros i. specialize (S2 i). rewrite !cnt_app in *. lia.
      + change (vmarks ((j, u) :: dset k v d)) with (f u ++ vmarks (dset k v d)). change (vmarks ((j, u) :: d)) with (f u ++ vmarks d).
        rewrite <- app_assoc. apply sub_app; [apply sub_refl|apply IH; assumption].
  Qed.
End DictMarks.
Definition bmarks (d : dict dnode) : marks := vmarks dmarks d.
Definition gmarks (d : dict (dict dnode)) : marks := vmarks bmarks d.
Definition nmarks (l : list dnode) : marks := flat_map dmarks l.
Definition amarks (l : list assign) : marks := nmarks (flat_map set_apart l).
Lemma lmarks_v l : lmarks l = vmarks tmarks l.
Proof. reflexivity. Qed.
Lemma nmarks_app a b : nmarks (a ++ b) = nmarks a ++ nmarks b.
Proof. apply flat_map_app. Qed.
Lemma amarks_app a b : amarks (a ++ b) = amarks a ++ amarks b.
Proof. unfold amarks. rewrite flat_map_app. apply nmarks_app. Qed.

(* texts have no groups *)
Definition inline (m : nat * later) : Prop := match snd m with LMention _ _ | LLink _ _ _ => True | _ => False end.
Lemma imarks_inline : forall n, Forall inline (imarks n).
Proof.
  fix IH 1. intros n.
  assert (H : forall l, Forall inline (flat_map imarks l)).
  { fix IHl 1. intros [|a l]; cbn [flat_map]; [constructor|]. apply Forall_app. split; [apply IH|apply IHl]. }
  destruct n; cbn [imarks]; try constructor; try exact I; try constructor; try apply H.
Qed.
Lemma tmarks_inline l : Forall inline (tmarks l).
Proof. induction l as [|n l IH]; [constructor|]. unfold tmarks. cbn [flat_map]. apply Forall_app. split; [apply imarks_inline|exact IH]. Qed.
Lemma lmarks_inline l : Forall inline (lmarks l).
Proof. induction l as [|n l IH]; [constructor|]. unfold lmarks. cbn [flat_map]. apply Forall_app. split; [apply tmarks_inline|exact IH]. Qed.
Lemma inline_no_group l i nm : Forall inline l -> ~ In (i, LGroup nm) l.
Proof. intros H K. rewrite Forall_forall in H. exact (H _ K). Qed.

(* --------------------------------------------------- what an assignment says *)
Definition right (G : marks) (a : assign) : Prop :=
  incl (amarks [a]) G /\
  match a with
  | AFootnote id f => exists c, In (id, LMention (fn_name f) c) G
  | AFootnotes id l => In (id, LFootnotes) G
  | AInternal id s => exists h, In (id, LHeader h) G
  | AToc id nested plain => In (id, LToc) G /\ Forall (fun h => incl (hmarks h) G) plain /\ incl (flat_map preorder nested) plain
  | AHeader id h content => exists t l c, In (id, LLink t l c) G /\ (h_name h = Some t /\ content = match l with [] => h_content h | _ => l end) /\ incl (hmarks h) G
  | AGroup id made items => exists name, In (id, LGroup name) G /\ Forall (fun pb : str * dnode => in_group name (fst pb) (snd pb)) items
  end.
Lemma right_more G H a : incl G H -> right G a -> right H a.
Proof.
  intros I [K1 K2]. split; [eapply incl_tran; eassumption|]. destruct a as [id f|id l|id s|id n p|id h c|id m it].
  - destruct K2 as (c & K). eauto.
  - auto.
  - destruct K2 as (h & K). eauto.
  - destruct K2 as (A & B & C). split; [auto|]. split; [|exact C]. eapply Forall_impl; [|exact B]. cbn. intros h Hh. eapply incl_tran; eassumption.
  - destruct K2 as (t & l & c' & K & E & Hh). exists t, l, c'. split; [auto|]. split; [exact E|]. eapply incl_tran; eassumption.
  - destruct K2 as (nm & K & Hi). eauto.
Qed.
(* a group that is in a block of another group was filled before *)
Definition layered (done : list assign) : Prop :=
  forall id made items id' made' items' b nm, In (AGroup id made items) done -> In (AGroup id' made' items') done ->
    In b (map snd items) -> In (id', LGroup nm) (dmarks b) -> made' < made.
(* two nodes that have a number in common *)
Definition share (b c : dnode) : Prop := exists i, In i (map fst (dmarks b)) /\ In i (map fst (dmarks c)).
Lemma share_sym b c : share b c -> share c b.
Proof. intros (i & H & K). exists i. auto. Qed.
(* the blocks that are not in the tree, and have been assigned *)
Definition aside (done : list assign) : list dnode := flat_map set_apart done.
(* Footnotes made at the same time with the same name are the same; groups with the same
   name made at the same time have the same blocks, at distinct positions. *)
Definition keyed (done : list assign) : Prop :=
  (forall f, In f (flat_map notes_of done) -> fst (fn_content f) < length done) /\
  (forall f g, In f (flat_map notes_of done) -> In g (flat_map notes_of done) -> fst (fn_content f) = fst (fn_content g) -> fn_name f = fn_name g -> f = g) /\
  (forall id made items, In (AGroup id made items) done -> made < length done /\ NoDup (keys items)) /\
  (forall id id' made items items' g p b p' b', In (AGroup id made items) done -> In (AGroup id' made items') done -> In (p, b) items -> In (p', b') items' ->
     in_group g p b -> in_group g p' b' -> items = items').
Definition once (done : list assign) : Prop := forall b, In b (aside done) -> NoDup (map fst (dmarks b)).
Definition old_ok (next : nat) (done : list assign) : Prop :=
  layered done /\ (forall id made items, In (AGroup id made items) done -> made < length done) /\
  Forall (fun m => fst m < next) (amarks done) /\
  (forall b c, In b (aside done) -> In c (aside done) -> share b c -> b = c) /\ once done /\ keyed done.
Lemma old_ok_grow a b done : old_ok a done -> a <= b -> old_ok b done.
Proof. intros (A & B & C & D) H. split; [exact A|]. split; [exact B|]. split; [|exact D]. eapply Forall_impl; [|exact C]. cbn. intros; lia. Qed.
Lemma old_ok_nil a : old_ok a [].
Proof. split; [intros ? ? ? ? ? ? ? ? []|]. split; [intros ? ? ? []|]. split; [constructor|]. split; [intros ? ? []|]. split; [intros ? []|]. split; [intros ? []|]. split; [intros ? ? []|]. split; [intros ? ? ? []|]. intros ? ? ? ? ? ? ? ? ? ? []. Qed.

(* ------------------------------------------------------- the invariant of a parser *)
Definition tree_marks (x : dx) : marks :=
  nmarks (dx_nodes x) ++ lmarks (dx_labels x) ++ bmarks (fm_bodies (dx_foot x)) ++ gmarks (gm_items (dx_groups x)).
Definition kept (x : dx) : marks := bmarks (fm_bodies (dx_foot x)) ++ gmarks (gm_items (dx_groups x)) ++ amarks (dx_done x).
(* G: the nodes made so far by a parser that started with the number a; M: those in hand *)
Record core (a : nat) (d0 : list assign) (G M : marks) (x : dx) : Prop := mkCore {
  g_fresh : fresh a (dx_next x) G;
  g_tree : sub (M ++ tree_marks x) G;
  g_ment : Forall (fun m => In (mn_id m, LMention (mn_name m) (mn_ctx m)) G) (fm_macros (dx_foot x));
  g_lists : Forall (fun i => In (i, LFootnotes) G) (fm_lists (dx_foot x));
  g_heads : Forall (fun h => incl (hmarks h) G) (tm_headers (dx_toc x));
  g_tocs : Forall (fun i => In (i, LToc) G) (tm_nodes (dx_toc x));
  g_links : Forall (fun m : mention * list inode => In (mn_id (fst m), LLink (mn_name (fst m)) (snd m) (mn_ctx (fst m))) G) (hm_macros (dx_links x));
  g_named : Forall (fun kv : str * header => h_name (snd kv) = Some (fst kv) /\ incl (hmarks (snd kv)) G) (hm_headers (dx_links x));
  g_groups : Forall (fun m => In (mn_id m, LGroup (mn_name m)) G /\ forall nm, ~ In (mn_id m, LGroup nm) (kept x)) (gm_groups (dx_groups x));
  g_items : forall g d p b, In (g, d) (gm_items (dx_groups x)) -> In (p, b) d -> in_group g p b;
  g_done : exists new, dx_done x = d0 ++ new /\ Forall (right G) new;
  g_old : old_ok (dx_next x) (dx_done x);
  g_keys : NoDup (keys (fm_bodies (dx_foot x))) }.

Lemma core_same a d G M x z : core a d G M x -> dx_nodes z = dx_nodes x -> dx_labels z = dx_labels x -> dx_foot z = dx_foot x -> dx_toc z = dx_toc x ->
  dx_links z = dx_links x -> dx_groups z = dx_groups x -> dx_next z = dx_next x -> dx_done z = dx_done x -> core a d G M z.
Proof.
  intros H E1 E2 E3 E4 E5 E6 E7 E8. destruct H. constructor; unfold tree_marks, kept in *; rewrite ?E1, ?E2, ?E3, ?E4, ?E5, ?E6, ?E7, ?E8; assumption.
Qed.
Lemma core_drop a d G M N x : core a d G M x -> sub N M -> core a d G N x.
Proof. intros [] H. constructor; try assumption. eapply sub_trans; [apply sub_app; [exact H|apply sub_refl]|eassumption]. Qed.

(* new numbers *)
Lemma core_more a d G M x b H : core a d G M x -> fresh (dx_next x) b H -> core a d (G ++ H) (M ++ H) (set_shared x b (dx_done x)).
Proof.
  intros [F T Me Li He To Lk Na Gr It Do Ol Ky] FH. pose proof FH as (Hb & _ & _).
  assert (I : incl G (G ++ H)) by (apply incl_appl, incl_refl).
  constructor; cbn [set_shared dx_next dx_foot dx_toc dx_links dx_groups dx_done].
  - eapply fresh_app; eassumption.
  - change (tree_marks (set_shared x b (dx_done x))) with (tree_marks x).
    assert (S : sub ((M ++ H) ++ tree_marks x) ((M ++ tree_marks x) ++ H)).
    { split; [intros m Hm; rewrite !in_app_iff in *; tauto|]. intros i. rewrite !cnt_app. lia. }
    eapply sub_trans; [exact S|]. apply sub_app; [exact T|apply sub_refl].
  - eapply Forall_impl; [|exact Me]. cbn. auto.
  - eapply Forall_impl; [|exact Li]. cbn. auto.
  - eapply Forall_impl; [|exact He]. cbn. intros h Hh. eapply incl_tran; eassumption.
  - eapply Forall_impl; [|exact To]. cbn. auto.
  - eapply Forall_impl; [|exact Lk]. cbn. auto.
  - eapply Forall_impl; [|exact Na]. cbn. intros h [E Hh]. split; [exact E|]. eapply incl_tran; eassumption.
  - eapply Forall_impl; [|exact Gr]. cbn. intros m [K1 K2]. split; [auto|exact K2].
  - exact It.
  - destruct Do as (new & E & Fn). exists new. split; [exact E|]. eapply Forall_impl; [|exact Fn]. intros y. apply right_more, I.
  - apply (old_ok_grow _ _ _ Ol Hb).
  - exact Ky.
Qed.
Lemma core_ment a d G M x l : core a d G M x -> Forall (fun m => In (mn_id m, LMention (mn_name m) (mn_ctx m)) G) l ->
  core a d G M (set_foot x (fm_add_macros (dx_foot x) l)).
Proof. intros [] H. constructor; try assumption. cbn. apply Forall_app. split; assumption. Qed.
Lemma core_linked a d G M x l : core a d G M x -> Forall (fun m : mention * list inode => In (mn_id (fst m), LLink (mn_name (fst m)) (snd m) (mn_ctx (fst m))) G) l ->
  core a d G M (set_links x (hm_add_macros (dx_links x) l)).
Proof. intros [] H. constructor; try assumption. cbn. apply Forall_app. split; assumption. Qed.

Lemma ment_in F m : In m (flat_map foot_mention F) -> In (mn_id m, LMention (mn_name m) (mn_ctx m)) (tmarks F).
Proof.
  intros H. apply in_flat_map in H as (n & Hn & Hm). apply in_flat_map. exists n. split; [exact Hn|]. destruct n; cbn in *; try contradiction. destruct Hm as [<-|[]]. left. reflexivity.
Qed.
Lemma link_in F (m : mention * list inode) : In m (flat_map header_mention F) -> In (mn_id (fst m), LLink (mn_name (fst m)) (snd m) (mn_ctx (fst m))) (tmarks F).
Proof.
  intros H. apply in_flat_map in H as (n & Hn & Hm). apply in_flat_map. exists n. split; [exact Hn|]. destruct n; cbn in *; try contradiction. destruct Hm as [<-|[]]. left. reflexivity.
Qed.

(* the end of an element *)
Lemma core_pop a d G M x : core a d G M x -> core a d G (M ++ lmarks (dx_labels x)) (set_labels x []).
Proof.
  intros [F T Me Li He To Lk Na Gr It Do Ol Ky]. constructor; try assumption. eapply sub_trans; [|exact T]. unfold tree_marks. cbn [set_labels dx_nodes dx_labels dx_foot dx_groups].
  change (lmarks []) with ([] : marks). cbn [app].
  split; [intros m Hm; rewrite !in_app_iff in *; tauto|]. intros i. rewrite !cnt_app. lia.
Qed.
Lemma core_save a d G M x n : core a d G M x -> sub (dmarks n) M -> core a d G [] (set_nodes x (dx_nodes x ++ [n])).
Proof.
  intros [F T Me Li He To Lk Na Gr It Do Ol Ky] [S1 S2]. constructor; try assumption. eapply sub_trans; [|exact T]. unfold tree_marks. cbn [set_nodes dx_nodes dx_labels dx_foot dx_groups app].
  rewrite nmarks_app. unfold nmarks at 2. cbn [flat_map]. rewrite app_nil_r.
  split; [intros m Hm; rewrite !in_app_iff in *; destruct Hm as [[Hm|Hm]|Hm]; auto|]. intros i. specialize (S2 i). rewrite !cnt_app. lia.
Qed.

(* --------------------------------------------------- what a child parser leaves *)
Definition child_ok (a : nat) (d0 : list assign) (G : marks) (y : dx) : Prop :=
  fresh a (dx_next y) G /\ sub (nmarks (dx_nodes y) ++ bmarks (fm_bodies (dx_foot y))) G /\
  Forall (fun m => In (mn_id m, LMention (mn_name m) (mn_ctx m)) G) (fm_macros (dx_foot y)) /\
  Forall (fun i => In (i, LFootnotes) G) (fm_lists (dx_foot y)) /\
  Forall (fun h => incl (hmarks h) G) (tm_headers (dx_toc y)) /\
  Forall (fun i => In (i, LToc) G) (tm_nodes (dx_toc y)) /\
  (exists new, dx_done y = d0 ++ new /\ Forall (right G) new) /\ old_ok (dx_next y) (dx_done y) /\
  (forall b c, In b (aside (dx_done y)) -> In c (map snd (fm_bodies (dx_foot y))) -> share b c -> b = c) /\
  (forall b i, In b (aside (dx_done y)) -> In i (map fst (dmarks b)) -> ~ In i (map fst (nmarks (dx_nodes y)))).

Lemma right_all G l : Forall (right G) l -> incl (amarks l) G.
Proof.
  induction 1 as [|a l [H _] _ IH]; [intros ? []|]. change (a :: l) with ([a] ++ l). rewrite amarks_app. apply incl_app; assumption.
Qed.
(* the mentions of groups that a parser has are older than a number *)
Definition older (x : dx) (N : marks) : Prop := Forall (fun m => forall nm, ~ In (mn_id m, LGroup nm) N) (gm_groups (dx_groups x)).
Lemma core_older a d G M x b H : core a d G M x -> fresh (dx_next x) b H -> older x H.
Proof.
  intros Hg FH. unfold older. eapply Forall_impl; [|exact (g_groups _ _ _ _ _ Hg)]. cbn. intros m [K1 _] nm Q.
  apply (in_map fst) in K1. apply (in_map fst) in Q. apply (fresh_range _ _ _ _ (g_fresh _ _ _ _ _ Hg)) in K1. apply (fresh_range _ _ _ _ FH) in Q. cbn in *. lia.
Qed.
Lemma older_incl x N N' : older x N -> incl N' N -> older x N'.
Proof. intros H I. unfold older in *. eapply Forall_impl; [|exact H]. cbn. intros m Hm nm Q. exact (Hm nm (I _ Q)). Qed.
Lemma older_app x N N' : older x N -> older x N' -> older x (N ++ N').
Proof.
  unfold older. rewrite !Forall_forall. intros H K m Hm nm Q. apply in_app_or in Q as [Q|Q]; [exact (H m Hm nm Q)|exact (K m Hm nm Q)].
Qed.
Lemma older_inline x N : Forall inline N -> older x N.
Proof. intros H. unfold older. rewrite Forall_forall. intros m _ nm. apply inline_no_group, H. Qed.

Lemma core_child a d G M x H y : core a d G M x -> child_ok (dx_next x) (dx_done x) H y ->
  core a d (G ++ H) (M ++ nmarks (dx_nodes y) ++ bmarks (fm_bodies (dx_foot y))) (set_shared x (dx_next y) (dx_done y)).
Proof.
  intros Hg (FH & S & _ & _ & _ & _ & (new & En & Fn) & Oy & _).
  pose proof (core_drop _ _ _ _ _ _ (core_more _ _ _ _ _ _ _ Hg FH) (sub_app _ _ _ _ (sub_refl M) S)) as K.
  pose proof (core_older _ _ _ _ _ _ _ Hg FH) as Ho.
  assert (Hd : exists new, dx_done y = d ++ new /\ Forall (right (G ++ H)) new).
  { destruct (g_done _ _ _ _ _ Hg) as (new0 & E0 & F0). exists (new0 ++ new). split; [rewrite En, E0, app_assoc; reflexivity|].
    apply Forall_app. split; [eapply Forall_impl; [|exact F0]; intros z; apply right_more, incl_appl, incl_refl|].
    eapply Forall_impl; [|exact Fn]; intros z; apply right_more, incl_appr, incl_refl. }
  destruct K as [F T Me Li He To Lk Na Gr It Do Ol Ky]. constructor; try assumption.
  unfold older in Ho. cbn [set_shared dx_groups] in *. rewrite Forall_forall in *. intros m Hm. destruct (Gr m Hm) as [K1 K2]. split; [exact K1|]. intros nm.
  unfold kept in *. cbn [set_shared dx_foot dx_groups dx_done] in *. specialize (K2 nm). rewrite En, amarks_app, !in_app_iff in *.
  intros [Q|[Q|[Q|Q]]]; try tauto. apply (right_all H) in Q; [|rewrite Forall_forall; exact Fn]. exact (Ho m Hm nm Q).
Qed.
(* the managers of the child are added to those of the parser *)
Lemma core_merge a d G M N x f h : core a d G (M ++ N) x -> older x N -> sub (bmarks (fm_bodies f)) N ->
  Forall (fun m => In (mn_id m, LMention (mn_name m) (mn_ctx m)) G) (fm_macros f) ->
  Forall (fun i => In (i, LFootnotes) G) (fm_lists f) ->
  Forall (fun h => incl (hmarks h) G) (tm_headers h) ->
  Forall (fun i => In (i, LToc) G) (tm_nodes h) ->
  core a d G M (set_toc (set_foot x (fm_update (dx_foot x) f)) (tm_update (dx_toc x) h)).
Proof.
  intros [F T Me Li He To Lk Na Gr It Do Ol Ky] Ho Sb M1 M2 M3 M4.
  assert (Ub : sub (bmarks (dupd (fm_bodies (dx_foot x)) (fm_bodies f))) (bmarks (fm_bodies (dx_foot x)) ++ N)).
  { eapply sub_trans; [apply vmarks_dupd|]. apply sub_app; [apply sub_refl|exact Sb]. }
  constructor; try assumption; cbn [set_toc set_foot dx_foot dx_toc dx_groups fm_update tm_update fm_macros fm_lists tm_headers tm_nodes];
    try (apply Forall_app; split; assumption).
  - eapply sub_trans; [|exact T]. unfold tree_marks. cbn [set_toc set_foot dx_foot dx_groups dx_nodes dx_labels fm_update fm_bodies]. destruct Ub as [U1 U2]. split.
    + intros m Hm. specialize (U1 m). rewrite !in_app_iff in *. tauto.
    + intros i. specialize (U2 i). rewrite !cnt_app in *. lia.
  - unfold older in Ho. rewrite Forall_forall in *. intros m Hm. destruct (Gr m Hm) as [K1 K2]. split; [exact K1|]. intros nm Q.
    specialize (Ho m Hm nm). apply (K2 nm). unfold kept in *. cbn [set_toc set_foot dx_foot dx_groups dx_done fm_update fm_bodies] in *.
    rewrite !in_app_iff in *. destruct Q as [Q|Q]; [|tauto]. apply (proj1 Ub) in Q. rewrite in_app_iff in Q. tauto.
  - apply dupd_nodup, Ky.
Qed.
Lemma core_after a d G M x H y iso : core a d G M x -> child_ok (dx_next x) (dx_done x) H y ->
  core a d (G ++ H) (M ++ nmarks (dx_nodes y)) (after_child x y iso).
Proof.
  intros Hg Hc. pose proof (core_child _ _ _ _ _ _ _ Hg Hc) as K. destruct Hc as (FH & S & M1 & M2 & M3 & M4 & _).
  assert (I : incl H (G ++ H)) by (apply incl_appr, incl_refl).
  unfold after_child. destruct iso.
  - eapply core_same; [eapply core_drop; [exact K|]|..]; try reflexivity. apply sub_app; [apply sub_refl|apply sub_left].
  - rewrite app_assoc in K. eapply core_same; [eapply (core_merge _ _ _ _ _ _ (dx_foot y) (dx_toc y) K)|..]; try reflexivity.
    + apply (older_incl _ H); [exact (core_older _ _ _ _ _ _ _ Hg FH)|]. intros m Hm. apply (proj1 S), in_or_app. right. exact Hm.
    + apply sub_refl.
    + eapply Forall_impl; [|exact M1]. cbn. auto.
    + eapply Forall_impl; [|exact M2]. cbn. auto.
    + eapply Forall_impl; [|exact M3]. cbn. intros h Hh. eapply incl_tran; eassumption.
    + eapply Forall_impl; [|exact M4]. cbn. auto.
Qed.

(* ------------------------------------------------ the places where a block can go *)
Lemma core_body a d G M x name b ctx m : core a d G M x -> older x (dmarks b) -> sub (dmarks b) M -> fm_add_body (dx_foot x) name b ctx = Ok m ->
  core a d G [] (set_foot x m).
Proof.
  intros [F T Me Li He To Lk Na Gr It Do Ol Ky] Ho S E. unfold fm_add_body in E. destruct (dmem _ _); [discriminate|]. injection E as <-.
  pose proof (vmarks_dset dmarks name b (fm_bodies (dx_foot x))) as Ub. change (vmarks dmarks) with bmarks in Ub.
  constructor; try assumption.
  - eapply sub_trans; [|exact T]. unfold tree_marks. cbn [set_foot dx_foot dx_groups dx_nodes dx_labels fm_bodies]. destruct Ub as [U1 U2], S as [S1 S2]. split.
    + intros k Hk. specialize (U1 k). specialize (S1 k). rewrite !in_app_iff in *. cbn [In] in *. tauto.
    + intros i. specialize (U2 i). specialize (S2 i). rewrite !cnt_app in *. change (cnt i []) with 0. lia.
  - unfold older in Ho. rewrite Forall_forall in *. intros k Hk. destruct (Gr k Hk) as [K1 K2]. split; [exact K1|]. intros nm Q.
    specialize (Ho k Hk nm). apply (K2 nm). unfold kept in *. cbn [set_foot dx_foot dx_groups dx_done fm_bodies] in *.
    rewrite !in_app_iff in *. destruct Q as [Q|Q]; [|tauto]. apply (proj1 Ub) in Q. rewrite in_app_iff in Q. tauto.
  - apply dset_nodup, Ky.
Qed.
Lemma dget_in' {A} k (v : A) d : dget k d = Some v -> In (k, v) d.
Proof.
  induction d as [|[j w] d IH]; cbn [dget]; [discriminate|]. destruct (str_eqb_spec k j) as [->|]; [intros E; injection E as ->; left; reflexivity|]. intros E. right. apply IH, E.
Qed.
Lemma in_dset {A} k v d j (w : A) : In (j, w) (dset k v d) -> (j = k /\ w = v) \/ In (j, w) d.
Proof.
  induction d as [|[i u] d IH]; cbn [dset].
  - intros [E|[]]. injection E as <- <-. auto.
  - destruct (str_eqb_spec k i) as [->|].
    + intros [E|H]; [injection E as <- <-; auto|right; right; exact H].
    + intros [E|H]; [right; left; exact E|]. destruct (IH H) as [K|K]; [auto|right; right; exact K].
Qed.
Lemma core_group a d G M x g p b ctx m : core a d G M x -> older x (dmarks b) -> sub (dmarks b) M -> in_group g p b -> gm_add_block (dx_groups x) g p b ctx = Ok m ->
  core a d G [] (set_groups x m).
Proof.
  intros [F T Me Li He To Lk Na Gr It Do Ol Ky] Ho S Hi E. unfold gm_add_block in E. destruct (dmem _ _); [discriminate|]. injection E as <-.
  assert (Ub : sub (gmarks (dset g (dset p b (gm_group (dx_groups x) g)) (gm_items (dx_groups x)))) (gmarks (gm_items (dx_groups x)) ++ dmarks b)).
  { unfold gmarks. apply (vmarks_dset_more bmarks g _ (gm_group (dx_groups x) g)).
    - unfold gm_group. destruct (dget g (gm_items (dx_groups x))); auto.
    - apply vmarks_dset. }
  constructor; try assumption.
  - eapply sub_trans; [|exact T]. unfold tree_marks. cbn [set_groups dx_foot dx_groups dx_nodes dx_labels gm_items]. destruct Ub as [U1 U2], S as [S1 S2]. split.
    + intros k Hk. specialize (U1 k). specialize (S1 k). rewrite !in_app_iff in *. cbn [In] in *. tauto.
    + intros i. specialize (U2 i). specialize (S2 i). rewrite !cnt_app in *. change (cnt i []) with 0. lia.
  - unfold older in Ho. cbn [set_groups dx_groups gm_groups]. rewrite Forall_forall in *. intros k Hk. destruct (Gr k Hk) as [K1 K2]. split; [exact K1|]. intros nm Q.
    specialize (Ho k Hk nm). apply (K2 nm). unfold kept in *. cbn [set_groups dx_foot dx_groups dx_done gm_items] in *.
    rewrite !in_app_iff in *. destruct Q as [Q|[Q|Q]]; [tauto| |tauto]. apply (proj1 Ub) in Q. rewrite in_app_iff in Q. tauto.
  - cbn [set_groups dx_groups gm_items]. intros g' d' p' b' H1 H2. apply in_dset in H1 as [[-> ->]|H1]; [|exact (It _ _ _ _ H1 H2)].
    apply in_dset in H2 as [[-> ->]|H2]; [exact Hi|]. unfold gm_group in H2. destruct (dget g (gm_items (dx_groups x))) as [d0|] eqn:Eg; [|destruct H2].
    exact (It _ _ _ _ (dget_in' _ _ _ Eg) H2).
Qed.

(* ------------------------------------------------------------------ the headers *)
Lemma core_named a d G M x name h m : core a d G M x -> h_name h = Some name -> incl (hmarks h) G -> hm_add_header (dx_links x) name h = Ok m ->
  core a d G M (set_links x m).
Proof.
  intros [] Hn Hi E. unfold hm_add_header in E. destruct (dmem _ _); [discriminate|]. injection E as <-. constructor; try assumption.
  cbn [set_links dx_links hm_headers]. rewrite Forall_forall in *. intros [k w] Hk. apply in_dset in Hk as [[-> ->]|Hk]; [auto|exact (g_named0 _ Hk)].
Qed.
Lemma core_head a d G M x h : core a d G M x -> incl (hmarks h) G -> core a d G M (set_toc x (tm_add_header (dx_toc x) h)).
Proof. intros [] Hi. constructor; try assumption. cbn. apply Forall_app. split; [assumption|]. constructor; [exact Hi|constructor]. Qed.
Lemma core_in a d G M x : core a d G M x -> incl M G.
Proof. intros H m Hm. apply (proj1 (g_tree _ _ _ _ _ H)), in_or_app. left. exact Hm. Qed.

(* ------------------------------------------------------------------ the includes *)
Lemma core_toc a d G M x : core a d G M x ->
  exists G', core a d G' (M ++ [(dx_next x, LToc)]) (set_toc (set_shared x (S (dx_next x)) (dx_done x)) (tm_add_toc (dx_toc x) (dx_next x))).
Proof.
  intros H. exists (G ++ [(dx_next x, LToc)]). pose proof (core_more _ _ _ _ _ _ _ H (fresh_one (dx_next x) LToc)) as []. constructor; try assumption. cbn. apply Forall_app. split; [assumption|]. constructor; [|constructor].
  apply in_or_app. right. left. reflexivity.
Qed.
Lemma core_flist a d G M x : core a d G M x ->
  exists G', core a d G' (M ++ [(dx_next x, LFootnotes)]) (set_foot (set_shared x (S (dx_next x)) (dx_done x)) (fm_add_list (dx_foot x) (dx_next x))).
Proof.
  intros H. exists (G ++ [(dx_next x, LFootnotes)]). pose proof (core_more _ _ _ _ _ _ _ H (fresh_one (dx_next x) LFootnotes)) as []. constructor; try assumption. cbn. apply Forall_app. split; [assumption|]. constructor; [|constructor].
  apply in_or_app. right. left. reflexivity.
Qed.
Lemma kept_old a d G M x m : core a d G M x -> In m (kept x) -> fst m < dx_next x.
Proof.
  intros H K. unfold kept in K. rewrite !in_app_iff in K. destruct K as [K|[K|K]].
  - apply (fresh_range _ _ _ _ (g_fresh _ _ _ _ _ H)). apply in_map. apply (proj1 (g_tree _ _ _ _ _ H)). unfold tree_marks. rewrite !in_app_iff. auto.
  - apply (fresh_range _ _ _ _ (g_fresh _ _ _ _ _ H)). apply in_map. apply (proj1 (g_tree _ _ _ _ _ H)). unfold tree_marks. rewrite !in_app_iff. auto.
  - destruct (g_old _ _ _ _ _ H) as (_ & _ & C & _). rewrite Forall_forall in C. exact (C _ K).
Qed.
Lemma core_mgroup a d G M x nm c : core a d G M x ->
  exists G', core a d G' (M ++ [(dx_next x, LGroup nm)]) (set_groups (set_shared x (S (dx_next x)) (dx_done x)) (gm_add_group (dx_groups x) (mkMention (dx_next x) nm c))).
Proof.
  intros H. exists (G ++ [(dx_next x, LGroup nm)]). pose proof (fun m => kept_old _ _ _ _ _ m H) as Ko.
  pose proof (core_more _ _ _ _ _ _ _ H (fresh_one (dx_next x) (LGroup nm))) as []. constructor; try assumption. cbn. apply Forall_app. split; [assumption|]. constructor; [|constructor].
  cbn. split; [apply in_or_app; right; left; reflexivity|]. intros nm' Q. apply (Ko (dx_next x, LGroup nm')) in Q. cbn in Q. lia.
Qed.

Lemma dupd_in {A} (e : dict A) : forall d k v, In (k, v) (dupd d e) -> In (k, v) d \/ In (k, v) e.
Proof.
  unfold dupd. induction e as [|[j w] e IH]; intros d k v; cbn [fold_left]; [auto|]. intros H. apply IH in H as [H|H]; [|right; right; exact H].
  cbn [fst snd] in H. apply in_dset in H as [[-> ->]|H]; [right; left; reflexivity|auto].
Qed.

(* ----------------------------------------------------- blocks that are set apart *)
(* the blocks that a parser has to give *)
Definition in_store (x : dx) : list dnode := map snd (fm_bodies (dx_foot x)) ++ flat_map (fun kd : str * dict dnode => map snd (snd kd)) (gm_items (dx_groups x)).
(* no number of a block that is assigned is anywhere else *)
Definition apart (M : marks) (x : dx) : Prop :=
  (forall b c, In b (aside (dx_done x)) -> In c (in_store x) -> share b c -> b = c) /\
  (forall b i, In b (aside (dx_done x)) -> In i (map fst (dmarks b)) -> ~ In i (map fst (M ++ nmarks (dx_nodes x) ++ lmarks (dx_labels x)))).
Definition good (a : nat) (d0 : list assign) (G M : marks) (x : dx) : Prop := core a d0 G M x /\ apart M x.

Lemma nums_in b l i : In b l -> In i (map fst (dmarks b)) -> In i (map fst (nmarks l)).
Proof. intros Hb Hi. apply in_map_iff in Hi as (m & <- & Hm). apply in_map. apply in_flat_map. eauto. Qed.
Lemma nums_incl (a b : marks) i : incl a b -> In i (map fst a) -> In i (map fst b).
Proof. intros I Hi. apply in_map_iff in Hi as (m & <- & Hm). apply in_map, I, Hm. Qed.
Lemma aside_old next done b i : old_ok next done -> In b (aside done) -> In i (map fst (dmarks b)) -> i < next.
Proof.
  intros (_ & _ & C & _) Hb Hi. pose proof (nums_in _ _ _ Hb Hi) as K. apply in_map_iff in K as (m & <- & Hm). rewrite Forall_forall in C. exact (C _ Hm).
Qed.
Lemma store_marks x : nmarks (in_store x) = bmarks (fm_bodies (dx_foot x)) ++ gmarks (gm_items (dx_groups x)).
Proof.
  unfold in_store. rewrite nmarks_app. f_equal.
  - unfold nmarks, bmarks, vmarks. induction (fm_bodies (dx_foot x)) as [|[k v] d IH]; [reflexivity|]. cbn [map flat_map snd]. f_equal. exact IH.
  - unfold gmarks, vmarks. induction (gm_items (dx_groups x)) as [|[k v] d IH]; [reflexivity|]. cbn [flat_map snd]. rewrite nmarks_app. f_equal; [|exact IH].
    unfold nmarks, bmarks, vmarks. induction v as [|[k' v'] d' IH']; [reflexivity|]. cbn [map flat_map snd]. f_equal. exact IH'.
Qed.
Lemma store_in a d G M x : core a d G M x -> incl (nmarks (in_store x)) G.
Proof. intros H m Hm. rewrite store_marks in Hm. apply (proj1 (g_tree _ _ _ _ _ H)). unfold tree_marks. rewrite !in_app_iff in *. tauto. Qed.
Lemma hand_in a d G M x : core a d G M x -> incl (M ++ nmarks (dx_nodes x) ++ lmarks (dx_labels x)) G.
Proof. intros H m Hm. apply (proj1 (g_tree _ _ _ _ _ H)). unfold tree_marks. rewrite !in_app_iff in *. tauto. Qed.
Lemma one_cnt l b c : (forall i, cnt i (nmarks l) <= 1) -> In b l -> In c l -> share b c -> b = c.
Proof.
  induction l as [|x l IH]; [intros _ []|]. intros H Hb Hc (i & Hi & Hj).
  assert (Hx : forall y, In y l -> In i (map fst (dmarks y)) -> In i (map fst (dmarks x)) -> False).
  { intros y Hy K1 K2. specialize (H i). change (nmarks (x :: l)) with (dmarks x ++ nmarks l) in H. rewrite cnt_app in H. apply cnt_in in K2. pose proof (nums_in _ _ _ Hy K1) as K3. apply cnt_in in K3. lia. }
  destruct Hb as [<-|Hb], Hc as [<-|Hc]; [reflexivity|destruct (Hx _ Hc Hj Hi)|destruct (Hx _ Hb Hi Hj)|].
  apply IH; [|exact Hb|exact Hc|exists i; auto]. intros k. specialize (H k). change (nmarks (x :: l)) with (dmarks x ++ nmarks l) in H. rewrite cnt_app in H. lia.
Qed.
Lemma core_cnt a d G M x i : core a d G M x -> cnt i M + cnt i (nmarks (dx_nodes x)) + cnt i (lmarks (dx_labels x)) + cnt i (nmarks (in_store x)) <= 1.
Proof.
  intros H. destruct (g_fresh _ _ _ _ _ H) as (_ & N & _). pose proof (proj2 (g_tree _ _ _ _ _ H) i) as K. pose proof (proj1 (nodup_cnt G) N i).
  unfold tree_marks in K. rewrite store_marks. rewrite !cnt_app in *. lia.
Qed.
Lemma store_once a d G M x b : core a d G M x -> In b (in_store x) -> NoDup (map fst (dmarks b)).
Proof.
  intros H Hb. apply nodup_cnt. intros i. pose proof (core_cnt _ _ _ _ _ i H) as K. apply in_split in Hb as (l & r & E). rewrite E in K. rewrite nmarks_app in K.
  change (nmarks (b :: r)) with (dmarks b ++ nmarks r) in K. rewrite !cnt_app in K. lia.
Qed.
Lemma store_one a d G M x b c : core a d G M x -> In b (in_store x) -> In c (in_store x) -> share b c -> b = c.
Proof. intros H. apply one_cnt. intros i. pose proof (core_cnt _ _ _ _ _ i H). lia. Qed.

Lemma apart_same M x z : apart M x -> dx_nodes z = dx_nodes x -> dx_labels z = dx_labels x -> in_store z = in_store x -> dx_done z = dx_done x -> apart M z.
Proof. intros [A B] E1 E2 E3 E4. unfold apart. rewrite E1, E2, E3, E4. split; assumption. Qed.
Lemma apart_drop M N x : apart M x -> incl N M -> apart N x.
Proof.
  intros [A B] I. split; [exact A|]. intros b i Hb Hi K. apply (B b i Hb Hi). eapply nums_incl; [|exact K]. intros m Hm. rewrite !in_app_iff in *. destruct Hm as [Hm|Hm]; auto.
Qed.
Lemma good_same a d G M x z : good a d G M x -> dx_nodes z = dx_nodes x -> dx_labels z = dx_labels x -> dx_foot z = dx_foot x -> dx_toc z = dx_toc x ->
  dx_links z = dx_links x -> dx_groups z = dx_groups x -> dx_next z = dx_next x -> dx_done z = dx_done x -> good a d G M z.
Proof.
  intros [C A] E1 E2 E3 E4 E5 E6 E7 E8. split; [eapply core_same; eassumption|]. eapply apart_same; try eassumption. unfold in_store. rewrite E3, E6. reflexivity.
Qed.
Lemma good_drop a d G M N x : good a d G M x -> sub N M -> good a d G N x.
Proof. intros [C A] S. split; [eapply core_drop; eassumption|]. eapply apart_drop; [exact A|exact (proj1 S)]. Qed.
Lemma good_more a d G M x b H : good a d G M x -> fresh (dx_next x) b H -> good a d (G ++ H) (M ++ H) (set_shared x b (dx_done x)).
Proof.
  intros [C [A B]] F. split; [apply core_more; assumption|]. split; [exact A|]. cbn [set_shared dx_done dx_nodes dx_labels]. intros y i Hy Hi K.
  pose proof (aside_old _ _ _ _ (g_old _ _ _ _ _ C) Hy Hi) as L. apply in_map_iff in K as (m & <- & Hm). rewrite !in_app_iff in Hm.
  destruct Hm as [[Hm|Hm]|Hm].
  - apply (B y _ Hy Hi). apply in_map. rewrite !in_app_iff. auto.
  - apply (in_map fst) in Hm. apply (fresh_range _ _ _ _ F) in Hm. lia.
  - apply (B y _ Hy Hi). apply in_map. rewrite !in_app_iff. auto.
Qed.
Lemma good_ment a d G M x l : good a d G M x -> Forall (fun m => In (mn_id m, LMention (mn_name m) (mn_ctx m)) G) l ->
  good a d G M (set_foot x (fm_add_macros (dx_foot x) l)).
Proof. intros [C A] H. split; [apply core_ment; assumption|exact A]. Qed.
Lemma good_linked a d G M x l : good a d G M x -> Forall (fun m : mention * list inode => In (mn_id (fst m), LLink (mn_name (fst m)) (snd m) (mn_ctx (fst m))) G) l ->
  good a d G M (set_links x (hm_add_macros (dx_links x) l)).
Proof. intros [C A] H. split; [apply core_linked; assumption|exact A]. Qed.
Lemma good_text a d G M cf text o x nodes z : good a d G M x -> runs (dp_text cf text o) x nodes z ->
  (exists ms ls next, z = mentions x ms ls next) /\ exists G', good a d (G ++ G') (M ++ tmarks nodes) z.
Proof.
  intros Hg H. split; [apply runs_text in H; exact H|]. unfold dp_text in H. apply runs_pget in H. apply runs_lift in H as (p & _ & H). apply runs_lift in H as (t & Et & H).
  apply runs_pmod in H. apply runs_ret in H as [-> ->]. apply run_marks in Et as (H & F1 & F2 & F3 & F4). exists H.
  pose proof (good_more _ _ _ _ _ _ _ Hg F1) as K1.
  assert (K2 := good_ment _ _ _ _ _ (flat_map foot_mention (tx_foot t)) K1). assert (K3 := fun h => good_linked _ _ _ _ _ (flat_map header_mention (tx_links t)) (K2 h)).
  eapply good_drop; [eapply good_same; [apply K3|..]|]; try reflexivity.
  - rewrite Forall_forall. intros m Hm. apply ment_in, F3 in Hm. apply in_or_app. right. exact Hm.
  - rewrite Forall_forall. intros m Hm. apply link_in, F4 in Hm. apply in_or_app. right. exact Hm.
  - apply sub_app; [apply sub_refl|exact F2].
Qed.

Lemma good_pop a d G M x : good a d G M x -> good a d G (M ++ lmarks (dx_labels x)) (set_labels x []).
Proof.
  intros [C [A B]]. split; [apply core_pop; assumption|]. split; [exact A|]. cbn [set_labels dx_done dx_nodes dx_labels]. change (lmarks []) with ([] : marks).
  intros b i Hb Hi K. apply (B b i Hb Hi). eapply nums_incl; [|exact K]. intros m Hm. rewrite !in_app_iff in *. cbn [In] in Hm. tauto.
Qed.
Lemma good_save a d G M x n : good a d G M x -> sub (dmarks n) M -> good a d G [] (set_nodes x (dx_nodes x ++ [n])).
Proof.
  intros [C [A B]] S. split; [eapply core_save; eassumption|]. split; [exact A|]. cbn [set_nodes dx_done dx_nodes dx_labels app].
  intros b i Hb Hi K. apply (B b i Hb Hi). eapply nums_incl; [|exact K]. intros m Hm. rewrite nmarks_app in Hm. unfold nmarks at 2 in Hm. cbn [flat_map] in Hm. rewrite app_nil_r in Hm.
  rewrite !in_app_iff in *. destruct Hm as [[Hm|Hm]|Hm]; auto. left. apply S, Hm.
Qed.
Lemma good_finish a d G M x n y ok : good a d G M x -> sub (dmarks n) M -> y = (if ok : bool then set_nodes (set_control x None) (dx_nodes x ++ [n]) else set_control x None) ->
  good a d G [] y.
Proof.
  intros H S ->. destruct ok.
  - eapply good_same; [exact (good_save _ _ _ _ _ n H S)|..]; reflexivity.
  - eapply good_same; [exact (good_drop _ _ _ _ [] _ H (sub_nil _))|..]; reflexivity.
Qed.

Lemma g_old' a d G M x : good a d G M x -> old_ok (dx_next x) (dx_done x).
Proof. intros [C _]. exact (g_old _ _ _ _ _ C). Qed.
Lemma good_older a d G M x b H : good a d G M x -> fresh (dx_next x) b H -> older x H.
Proof. intros [C _]. apply (core_older _ _ _ _ _ _ _ C). Qed.
Lemma good_after a d G M x H y iso : good a d G M x -> child_ok (dx_next x) (dx_done x) H y ->
  good a d (G ++ H) (M ++ nmarks (dx_nodes y)) (after_child x y iso).
Proof.
  intros [C [A B]] Hc. split; [apply core_after; assumption|]. destruct Hc as (FH & S & _ & _ & _ & _ & (new & En & Fn) & _ & Ac & Bc).
  assert (Hn : forall b i, In b (aside new) -> In i (map fst (dmarks b)) -> dx_next x <= i).
  { intros b i Hb Hi. pose proof (nums_in _ _ _ Hb Hi) as K. apply (nums_incl _ H) in K; [apply (fresh_range _ _ _ _ FH) in K; lia|exact (right_all _ _ Fn)]. }
  assert (Ho : forall i, In i (map fst G) -> i < dx_next x) by (intros i Hi; apply (fresh_range _ _ _ _ (g_fresh _ _ _ _ _ C)) in Hi; lia).
  assert (Ed : dx_done (after_child x y iso) = dx_done y) by (unfold after_child; destruct iso; reflexivity).
  assert (E1 : dx_nodes (after_child x y iso) = dx_nodes x) by (unfold after_child; destruct iso; reflexivity).
  assert (E2 : dx_labels (after_child x y iso) = dx_labels x) by (unfold after_child; destruct iso; reflexivity).
  assert (E3 : forall c, In c (in_store (after_child x y iso)) -> In c (in_store x) \/ In c (map snd (fm_bodies (dx_foot y)))).
  { intros c Hc. unfold after_child in Hc. destruct iso; [left; exact Hc|]. unfold in_store in *. cbn [set_shared set_toc set_foot dx_foot dx_groups fm_update fm_bodies] in Hc.
    rewrite in_app_iff in *. destruct Hc as [Hc|Hc]; [|tauto]. apply in_map_iff in Hc as ([k v] & <- & Hk). apply dupd_in in Hk as [Hk|Hk]; apply (in_map snd) in Hk; tauto. }
  unfold apart. rewrite Ed, E1, E2. split.
  - intros b c Hb Hc Hs. destruct (E3 _ Hc) as [Hc'|Hc']; [|exact (Ac _ _ Hb Hc' Hs)]. rewrite En in Hb. unfold aside in Hb. rewrite flat_map_app in Hb. apply in_app_or in Hb as [Hb|Hb]; [exact (A _ _ Hb Hc' Hs)|].
    exfalso. destruct Hs as (i & Hi & Hj). pose proof (Hn _ _ Hb Hi). pose proof (Ho i (nums_incl _ _ _ (store_in _ _ _ _ _ C) (nums_in _ _ _ Hc' Hj))). lia.
  - intros b i Hb Hi K. apply in_map_iff in K as (m & <- & Hm). rewrite !in_app_iff in Hm.
    assert (Hm' : In m (nmarks (dx_nodes y)) \/ In m (M ++ nmarks (dx_nodes x) ++ lmarks (dx_labels x))) by (rewrite !in_app_iff; tauto). destruct Hm' as [Hm'|Hm'].
    + apply (Bc b _ Hb Hi). apply in_map. exact Hm'.
    + rewrite En in Hb. unfold aside in Hb. rewrite flat_map_app in Hb. apply in_app_or in Hb as [Hb|Hb]; [apply (B _ _ Hb Hi); apply in_map; exact Hm'|].
      pose proof (Hn _ _ Hb Hi). pose proof (Ho _ (in_map fst _ _ (hand_in _ _ _ _ _ C _ Hm'))). lia.
Qed.
Lemma good_body a d G M x name b ctx m : good a d G M x -> older x (dmarks b) -> sub (dmarks b) M -> fm_add_body (dx_foot x) name b ctx = Ok m ->
  good a d G [] (set_foot x m).
Proof.
  intros [C [A B]] Ho S E. split; [eapply core_body; eassumption|]. unfold fm_add_body in E. destruct (dmem _ _); [discriminate|]. injection E as <-. split.
  - intros y c Hy Hc Hs. unfold in_store in Hc. cbn [set_foot dx_foot dx_groups fm_bodies] in Hc. rewrite in_app_iff in Hc. destruct Hc as [Hc|Hc]; [|apply (A _ _ Hy); [unfold in_store; rewrite in_app_iff; auto|exact Hs]].
    apply in_map_iff in Hc as ([k v] & <- & Hk). apply in_dset in Hk as [[-> ->]|Hk]; [|apply (in_map snd) in Hk; apply (A _ _ Hy); [unfold in_store; rewrite in_app_iff; auto|exact Hs]].
    exfalso. destruct Hs as (i & Hi & Hj). apply (B _ _ Hy Hi). eapply nums_incl; [|exact Hj]. intros n Hn. rewrite in_app_iff. left. apply S, Hn.
  - intros y i Hy Hi K. apply (B _ _ Hy Hi). eapply nums_incl; [|exact K]. intros n Hn. rewrite !in_app_iff in *. cbn [In] in Hn. tauto.
Qed.
Lemma good_group a d G M x g p b ctx m : good a d G M x -> older x (dmarks b) -> sub (dmarks b) M -> in_group g p b -> gm_add_block (dx_groups x) g p b ctx = Ok m ->
  good a d G [] (set_groups x m).
Proof.
  intros [C [A B]] Ho S Hg E. split; [eapply core_group; eassumption|]. unfold gm_add_block in E. destruct (dmem _ _); [discriminate|]. injection E as <-. split.
  - intros y c Hy Hc Hs. assert (Hc' : c = b \/ In c (in_store x)).
    { unfold in_store in *. cbn [set_groups dx_foot dx_groups gm_items] in Hc. rewrite in_app_iff in *. destruct Hc as [Hc|Hc]; [tauto|]. apply in_flat_map in Hc as ([g' d'] & H1 & H2).
      cbn [snd] in H2. apply in_dset in H1 as [[-> ->]|H1]; [|right; right; apply in_flat_map; exists (g', d'); auto]. apply in_map_iff in H2 as ([p' b'] & <- & H2). apply in_dset in H2 as [[-> ->]|H2]; [auto|].
      right. right. unfold gm_group in H2. destruct (dget g (gm_items (dx_groups x))) as [d0|] eqn:Eg; [|destruct H2]. apply in_flat_map. exists (g, d0). split; [apply dget_in', Eg|]. apply (in_map snd) in H2. exact H2. }
    destruct Hc' as [->|Hc']; [|exact (A _ _ Hy Hc' Hs)].
    exfalso. destruct Hs as (i & Hi & Hj). apply (B _ _ Hy Hi). eapply nums_incl; [|exact Hj]. intros n Hn. rewrite in_app_iff. left. apply S, Hn.
  - intros y i Hy Hi K. apply (B _ _ Hy Hi). eapply nums_incl; [|exact K]. intros n Hn. rewrite !in_app_iff in *. cbn [In] in Hn. tauto.
Qed.
Lemma good_named a d G M x name h m : good a d G M x -> h_name h = Some name -> incl (hmarks h) G -> hm_add_header (dx_links x) name h = Ok m ->
  good a d G M (set_links x m).
Proof. intros [C A] H1 H2 E. split; [eapply core_named; eassumption|exact A]. Qed.
Lemma good_head a d G M x h : good a d G M x -> incl (hmarks h) G -> good a d G M (set_toc x (tm_add_header (dx_toc x) h)).
Proof. intros [C A] H. split; [eapply core_head; eassumption|exact A]. Qed.
Lemma good_in a d G M x : good a d G M x -> incl M G.
Proof. intros [C _]. exact (core_in _ _ _ _ _ C). Qed.
Lemma apart_one M x w n : apart M x -> (forall b i, In b (aside (dx_done x)) -> In i (map fst (dmarks b)) -> i < n) -> apart (M ++ [(n, w)]) x.
Proof.
  intros [A B] L. split; [exact A|]. intros b i Hb Hi K. apply in_map_iff in K as (m & <- & Hm). rewrite !in_app_iff in Hm. destruct Hm as [[Hm|[<-|[]]]|Hm].
  - apply (B _ _ Hb Hi). apply in_map. rewrite !in_app_iff. auto.
  - specialize (L _ _ Hb Hi). cbn in L. lia.
  - apply (B _ _ Hb Hi). apply in_map. rewrite !in_app_iff. auto.
Qed.
Lemma good_toc a d G M x : good a d G M x ->
  exists G', good a d G' (M ++ [(dx_next x, LToc)]) (set_toc (set_shared x (S (dx_next x)) (dx_done x)) (tm_add_toc (dx_toc x) (dx_next x))).
Proof. intros [C A]. destruct (core_toc _ _ _ _ _ C) as (G' & K). exists G'. split; [exact K|]. exact (apart_one _ x _ _ A (fun b i => aside_old _ _ b i (g_old _ _ _ _ _ C))). Qed.
Lemma good_flist a d G M x : good a d G M x ->
  exists G', good a d G' (M ++ [(dx_next x, LFootnotes)]) (set_foot (set_shared x (S (dx_next x)) (dx_done x)) (fm_add_list (dx_foot x) (dx_next x))).
Proof. intros [C A]. destruct (core_flist _ _ _ _ _ C) as (G' & K). exists G'. split; [exact K|]. exact (apart_one _ x _ _ A (fun b i => aside_old _ _ b i (g_old _ _ _ _ _ C))). Qed.
Lemma good_mgroup a d G M x nm c : good a d G M x ->
  exists G', good a d G' (M ++ [(dx_next x, LGroup nm)]) (set_groups (set_shared x (S (dx_next x)) (dx_done x)) (gm_add_group (dx_groups x) (mkMention (dx_next x) nm c))).
Proof. intros [C A]. destruct (core_mgroup _ _ _ _ _ nm c C) as (G' & K). exists G'. split; [exact K|]. exact (apart_one _ x _ _ A (fun b i => aside_old _ _ b i (g_old _ _ _ _ _ C))). Qed.
Lemma good_label a d G M x role nodes : good a d G (M ++ tmarks nodes) x -> good a d G M (set_labels x (dset role nodes (dx_labels x))).
Proof.
  intros [K [A B]]. destruct (vmarks_dset tmarks role nodes (dx_labels x)) as [U1 U2]. change (vmarks tmarks) with lmarks in U1, U2. split; [|split; [exact A|]].
  - destruct K as [F T Me Li He To Lk Na Gr It Do Ol Ky]. constructor; try assumption. eapply sub_trans; [|exact T]. unfold tree_marks. cbn [set_labels dx_nodes dx_labels dx_foot dx_groups]. split.
    + intros m Hm. specialize (U1 m). rewrite !in_app_iff in *. tauto.
    + intros i. specialize (U2 i). rewrite !cnt_app in *. lia.
  - intros b i Hb Hi Q. apply (B _ _ Hb Hi). eapply nums_incl; [|exact Q]. intros m Hm. specialize (U1 m). cbn [set_labels dx_nodes dx_labels] in Hm. rewrite !in_app_iff in *. tauto.
Qed.

Section Elements.
  Context (cf : config) (run : run_fn) (run_ok : forall e n d f t o, fine_res (run e n d f t o)).
  Context (run_child : forall e n d f t o y, run e n d f t o = Ok y -> old_ok n d -> exists H, child_ok n d H y).

  Lemma header_good a d G hd t x b z : good a d G [] x -> runs (dp_do_header cf hd t) x b z -> exists G', good a d G' [] z.
  Proof.
    intros Hg H. unfold dp_do_header in H. apply runs_fresh in H. apply runs_bind_inv in H as (nodes & y & H1 & H); [|apply text_quiet].
    apply runs_pop_args in H. cbn [pop_arg] in H. apply runs_first_last in H as (u & r & E & H).
    apply runs_pop_labels in H. apply runs_admitted in H as (ok & Ha & H). clear E Ha.
    match type of H with context [mkHeader ?a ?b ?c ?d ?e ?f ?g ?h] => set (hh := mkHeader a b c d e f g h) in H end.
    change (dget (lit "name") _) with (h_name hh) in H.
    pose proof (good_more _ _ _ _ _ _ _ Hg (fresh_one (dx_next x) (LHeader (bare hh)))) as K1.
    destruct (good_text _ _ _ _ _ _ _ _ _ _ K1 H1) as [_ (G' & K2)].
    assert (K3 : good a d ((G ++ [(dx_next x, LHeader (bare hh))]) ++ G') (hmarks hh) (set_control (set_labels (set_args y None) []) None)).
    { assert (K0 : good a d ((G ++ [(dx_next x, LHeader (bare hh))]) ++ G') (([] ++ [(dx_next x, LHeader (bare hh))]) ++ tmarks nodes) (set_args y None))
        by (eapply good_same; [exact K2|..]; reflexivity).
      apply good_pop in K0. eapply good_same; [exact K0|..]; reflexivity. }
    pose proof (good_in _ _ _ _ _ K3) as Hi. set (GG := (G ++ _) ++ G') in *. exists GG.
    destruct ok; [|apply runs_ret in H as [_ ->]; eapply good_drop; [exact K3|apply sub_nil]].
    assert (K4 : forall w, good a d GG (hmarks hh) w -> good a d GG [] (set_nodes (set_toc w (tm_add_header (dx_toc w) hh)) (dx_nodes w ++ [DHeader hh]))).
    { intros w Hw. eapply (good_save _ _ _ _ (set_toc w (tm_add_header (dx_toc w) hh)) (DHeader hh)); [apply good_head; [exact Hw|exact Hi]|apply sub_refl]. }
    apply runs_bind_inv in H as (v & y2 & H2 & H).
    2: { destruct (h_name hh) as [[|c n]|]; [quiet| |quiet]. quiet; apply quiet_lift, hm_add_fine. }
    apply runs_pmod in H. unfold dp_save in H. apply runs_pmod in H. apply runs_ret in H as [_ ->]. refine (K4 y2 _).
    destruct (h_name hh) as [[|c n]|] eqn:En.
    - apply runs_ret in H2 as [_ ->]. exact K3.
    - apply runs_pget in H2. apply runs_lift in H2 as (m & Em & H2).
      assert (y2 = set_links (set_control (set_labels (set_args y None) []) None) m) as ->.
      { specialize (H2 []). unfold pmod in H2. injection H2 as H2 _. symmetry. exact H2. }
      apply (good_named _ _ _ _ _ (c :: n) hh); [exact K3|exact En|exact Hi|exact Em].
    - apply runs_ret in H2 as [_ ->]. exact K3.
  Qed.
  Lemma label_good a d G p t x b z : good a d G [] x -> runs (dp_do_label cf p t) x b z -> exists G', good a d G' [] z.
  Proof.
    intros Hg H. unfold dp_do_label in H. apply runs_bind_inv in H as (nodes & y & H1 & H); [|apply text_quiet].
    destruct (good_text _ _ _ _ _ _ _ _ _ _ Hg H1) as [_ (G' & K)]. apply runs_pmod in H. apply runs_ret in H as [_ ->]. exists (G ++ G'). apply good_label. exact K.
  Qed.
  Lemma lines_good a d ls : forall G M x lines z, good a d G M x -> runs (dp_line_nodes cf ls) x lines z ->
    exists G', good a d G' (M ++ flat_map (fun l : list inode * context => tmarks (fst l)) lines) z.
  Proof.
    induction ls as [|t ls IH]; intros G M x lines z Hg H; cbn [dp_line_nodes] in H.
    - apply runs_ret in H as [-> ->]. exists G. cbn. rewrite app_nil_r. exact Hg.
    - apply runs_bind_inv in H as (nodes & y & H1 & H); [|apply text_quiet]. destruct (good_text _ _ _ _ _ _ _ _ _ _ Hg H1) as [_ (G' & K)].
      apply runs_bind_inv in H as (rest & y2 & H2 & H); [|apply line_nodes_quiet]. destruct (IH _ _ _ _ _ K H2) as (G2 & K2).
      apply runs_ret in H as [-> ->]. exists G2. cbn [flat_map fst]. rewrite app_assoc. exact K2.
  Qed.
  Lemma paragraph_good a d G ls x b z : good a d G [] x -> runs (dp_do_paragraph cf ls) x b z -> exists G', good a d G' [] z.
  Proof.
    intros Hg H. unfold dp_do_paragraph in H. apply runs_bind_inv in H as (lines & y & H1 & H); [|apply line_nodes_quiet].
    destruct (lines_good _ _ _ _ _ _ _ _ Hg H1) as (G' & K). apply runs_pop_args in H. apply runs_first_last in H as (u & r & E & H).
    apply runs_pop_labels in H. apply runs_finish in H as (ok & Ha & Hz). exists G'. eapply good_finish; [|apply sub_refl|exact Hz].
    apply (good_same _ _ _ _ (set_labels (set_args y None) [])); try reflexivity. apply (good_pop _ _ _ _ (set_args y None)). eapply good_same; [exact K|..]; reflexivity.
  Qed.
  Lemma item_good a d G M h t x n z : good a d G M x -> runs (dp_do_item cf h t) x n z -> exists G', good a d G' (M ++ dmarks n) z.
  Proof.
    intros Hg H. unfold dp_do_item in H. apply runs_bind_inv in H as (c & y & H1 & H); [|apply text_quiet]. destruct (good_text _ _ _ _ _ _ _ _ _ _ Hg H1) as [_ (G' & K)].
    apply runs_first_last in H as (u & r & E & H). apply runs_ret in H as [-> ->]. exists (G ++ G'). exact K.
  Qed.
  Lemma items_good a d items x its z : reads_items cf items x its z -> forall G M, good a d G M x ->
    exists G', good a d G' (M ++ flat_map (fun i : item => dmarks (snd i)) its) z.
  Proof.
    induction 1 as [x|h t r x n x1 its x2 H _ IH]; intros G M Hg; [exists G; cbn; rewrite app_nil_r; exact Hg|].
    destruct (item_good _ _ _ _ _ _ _ _ _ Hg H) as (G1 & K1). destruct (IH _ _ K1) as (G2 & K2). exists G2. cbn [flat_map snd]. rewrite app_assoc. exact K2.
  Qed.
  Lemma nested_marks l its nodes : nested l its nodes -> nmarks nodes = flat_map (fun i : item => dmarks (snd i)) its.
  Proof.
    induction 1 as [l|l i its nodes H1 H2 IH|l i subs its inner nodes H1 H2 H3 H4 IH1 H5 IH2]; [reflexivity|unfold nmarks in *; cbn [flat_map]; rewrite IH; reflexivity|].
    cbn [flat_map]. rewrite flat_map_app, <- IH1, <- IH2. unfold nmarks. cbn [flat_map dmarks at_labels]. change (lmarks []) with ([] : marks). rewrite app_nil_r, app_assoc. reflexivity.
  Qed.
  Lemma rule_good a d G t x b z : good a d G [] x -> runs (dp_do_rule t) x b z -> exists G', good a d G' [] z.
  Proof.
    intros Hg H. unfold dp_do_rule in H. apply runs_pop_args in H. apply runs_pop_labels in H. apply runs_finish in H as (ok & Ha & Hz).
    exists G. eapply good_finish; [|apply sub_refl|exact Hz]. apply (good_pop _ _ _ [] (set_args x None)). eapply good_same; [exact Hg|..]; reflexivity.
  Qed.
  Lemma list_good a d G h i its nodes x b z : nested (level i) its nodes -> good a d G (flat_map (fun i : item => dmarks (snd i)) (i :: its)) x ->
    runs (dp_do_list h (snd i) nodes) x b z -> exists G', good a d G' [] z.
  Proof.
    intros Hn Hg H. apply do_list_inv in H as (start & latest & ctx & ok & _ & Hz & _). exists G. 
    eapply good_finish; [|apply sub_refl|exact Hz]. cbn [dmarks at_labels flat_map]. change (flat_map dmarks nodes) with (nmarks nodes). rewrite (nested_marks _ _ _ Hn).
    apply (good_pop _ _ _ _ (set_latest (set_args x None) latest)). eapply good_same; [exact Hg|..]; reflexivity.
  Qed.

  (* the node made by an engine *)
  Lemma engine_good a d G en ctx c cl ar x node a' nctx z : good a d G [] x -> runs (dp_engine run en ctx c cl ar) x (node, a', nctx) z ->
    exists G' N, good a d G' N z /\ older z N /\ dx_labels z = dx_labels x /\
      forall at_, dmarks (node at_) = N ++ lmarks (at_labels at_).
  Proof.
    intros Hg H. pose proof H as H0. apply engine_inv in H0 as [[-> Hd]|(-> & t & y & -> & _ & Er & -> & -> & -> & ->)]; [| |exact run_ok].
    - exists G, []. split; [exact Hg|]. split; [apply older_inline; constructor|]. split; [reflexivity|].
      unfold dp_engine in H. destruct (str_eqb_spec en (lit "default")) as [->|Nd].
      + destruct (Hd eq_refl) as (_ & _ & -> & _). reflexivity.
      + destruct (str_eqb en (lit "raw")); [apply runs_ret in H as [E _]; injection E as -> -> ->; reflexivity|].
        destruct (str_eqb en (lit "source")); [|destruct (runs_raise _ _ _ _ H)].
        destruct c as [t|]; [|apply runs_ret in H as [E _]; injection E as -> -> ->; reflexivity].
        destruct (token_truthy t); [|apply runs_ret in H as [E _]; injection E as -> -> ->; reflexivity].
        apply runs_pget in H. apply runs_lift in H as ([[lg ls] a2] & _ & H). apply runs_ret in H as [E _]. injection E as -> -> ->; reflexivity.
    - destruct (run_child _ _ _ _ _ _ _ Er (g_old' _ _ _ _ _ Hg)) as (H1 & Hc). exists (G ++ H1), (nmarks (dx_nodes y)).
      split; [apply (good_after _ _ _ [] _ _ _ (isolated ar) Hg Hc)|]. split; [|split; [unfold after_child; destruct (isolated ar); reflexivity|reflexivity]].
      pose proof (good_older _ _ _ _ _ _ _ Hg (proj1 Hc)) as Ho.
      assert (Ho2 : older (after_child x y (isolated ar)) H1) by (unfold after_child; destruct (isolated ar); exact Ho).
      apply (older_incl _ _ _ Ho2). intros m Hm. apply (proj1 (proj1 (proj2 Hc))), in_or_app. left. exact Hm.
  Qed.

  Lemma nonempty_some o s : nonempty o = Some s -> o = Some s.
  Proof. destruct o as [[|c l]|]; cbn [nonempty]; congruence. Qed.
  Lemma block_good a d G o t c x b z : good a d G [] x -> runs (dp_do_block run o t c) x b z -> exists G', good a d G' [] z.
  Proof.
    intros Hg H. apply do_block_inv in H as (node & a' & nctx & y & He & H); [|exact run_ok].
    assert (Hg1 : good a d G [] (set_args x None)) by (eapply good_same; [exact Hg|..]; reflexivity).
    destruct (engine_good _ _ _ _ _ _ _ _ _ _ _ _ _ Hg1 He) as (G' & N & K & Ho & El & Em). apply engine_args in He as (_ & Hat & _); [|exact run_ok].
    pose proof (good_pop _ _ _ _ _ K) as K2. exists G'.
    assert (Ho2 : forall at_, older (set_labels y []) (dmarks (node at_))).
    { intros at_. rewrite Em. apply older_app; [exact Ho|]. apply older_inline, lmarks_inline. }
    destruct (nonempty (dget (lit "footnote") (na_named a'))) as [name|].
    { destruct H as (m & E & ->). eapply (good_body _ _ _ _ (set_labels y [])); [exact K2|apply Ho2| |exact E]. rewrite Em. apply sub_refl. }
    destruct (nonempty (dget (lit "group") (na_named a'))) as [g|] eqn:Eg.
    2: { destruct H as (ok & _ & Hz). eapply good_finish; [exact K2| |exact Hz]. rewrite Em. apply sub_refl. }
    destruct (nonempty (dget (lit "position") (na_named a'))) as [p|] eqn:Ep.
    2: { destruct H as (ok & _ & Hz). eapply good_finish; [exact K2| |exact Hz]. rewrite Em. apply sub_refl. }
    destruct H as (m & E & ->). eapply (good_group _ _ _ _ (set_labels y [])); [exact K2|apply Ho2| | |exact E]. { rewrite Em. apply sub_refl. }
    unfold in_group. split; [apply Hat|]. rewrite (proj1 (Hat _)). cbn [fst at_args]. split; apply nonempty_some; assumption.
  Qed.
  Lemma include_node_good a d G ty ctx ar x node a' z : good a d G [] x -> runs (include_node cf run ty ctx ar) x (node, a') z ->
    exists G' N, good a d G' N z /\ forall at_, dmarks (node at_) = N ++ lmarks (at_labels at_).
  Proof.
    intros Hg H. unfold include_node in H. destruct (str_eqb _ _).
    { unfold dp_image in H. cbn [pop_arg] in H. apply runs_need_uri in H as (uri & _ & _ & H). apply runs_ret in H as [E ->]. injection E as -> _. exists G, []. auto. }
    destruct (str_eqb _ _).
    { apply mau_inv in H as (uri & text & e & y & _ & _ & _ & _ & Er & -> & ->).
      destruct (run_child _ _ _ _ _ _ _ Er (g_old' _ _ _ _ _ Hg)) as (H1 & Hc). exists (G ++ H1), (nmarks (dx_nodes y)). split; [|reflexivity].
      pose proof (good_after _ _ _ [] _ _ _ true Hg Hc) as K. eapply good_same; [exact K|..]; reflexivity. }
    destruct (str_eqb _ _).
    { unfold dp_include_raw in H. cbn [pop_arg] in H. apply runs_need_uri in H as (uri & _ & _ & H). apply runs_read in H as (t & _ & H).
      apply runs_ret in H as [E ->]. injection E as -> _. exists G, []. auto. }
    destruct (str_eqb _ _).
    { apply runs_bind_inv in H as (f & y & H1 & H); [|unfold dp_toc; apply quiet_bind; [apply fresh_quiet|]; intros id; quiet].
      unfold dp_toc in H1. apply runs_fresh in H1. apply runs_pmod in H1. apply runs_ret in H1 as [-> ->]. apply runs_ret in H as [E ->]. injection E as -> _.
      destruct (good_toc _ _ _ _ _ Hg) as (G' & K). exists G', [(dx_next x, LToc)]. split; [exact K|reflexivity]. }
    destruct (str_eqb _ _).
    { apply runs_bind_inv in H as (f & y & H1 & H); [|unfold dp_footnotes; apply quiet_bind; [apply fresh_quiet|]; intros id; quiet].
      unfold dp_footnotes in H1. apply runs_fresh in H1. apply runs_pmod in H1. apply runs_ret in H1 as [-> ->]. apply runs_ret in H as [E ->]. injection E as -> _.
      destruct (good_flist _ _ _ _ _ Hg) as (G' & K). exists G', [(dx_next x, LFootnotes)]. split; [exact K|reflexivity]. }
    destruct (str_eqb _ _); [|apply runs_ret in H as [E ->]; injection E as -> _; exists G, []; auto].
    unfold dp_blockgroup in H. cbn [pop_arg] in H. destruct (dget (lit "group") _) as [g|]; [|destruct (runs_raise _ _ _ _ H)].
    apply runs_fresh in H. apply runs_pmod in H. apply runs_ret in H as [E ->]. injection E as -> _.
    destruct (good_mgroup _ _ _ _ _ g ctx Hg) as (G' & K). exists G', [(dx_next x, LGroup g)]. split; [exact K|reflexivity].
  Qed.
  Lemma include_good a d G o ty args x b z : good a d G [] x -> runs (do_element cf run (EInclude o ty args)) x b z -> exists G', good a d G' [] z.
  Proof.
    intros Hg H. apply element_include_inv in H as (ar & _ & H). apply do_include_inv in H as (node & a' & y & ok & H1 & (F1 & F2 & _) & _ & Hz); [|exact run_ok].
    assert (Hg1 : good a d G [] (set_args x None)) by (eapply good_same; [exact Hg|..]; reflexivity).
    destruct (include_node_good _ _ _ _ _ _ _ _ _ _ Hg1 H1) as (G' & N & K & Em). exists G'. rewrite <- F1, <- F2 in Hz.
    eapply (good_finish _ _ _ _ (set_labels y [])); [apply good_pop, K| |exact Hz]. rewrite Em. apply sub_refl.
  Qed.
  Lemma acts_good a d G el x z : good a d G [] x -> acts cf run el x z -> exists G', good a d G' [] z.
  Proof.
    intros Hg H. destruct el as [t|t|o n c v|r t|o op c|o t c|h t|o t c|o ty ar|items|ls]; cbn [acts] in H.
    - apply runs_ret in H as [_ ->]. eauto.
    - eapply rule_good; eassumption.
    - apply do_variable_inv in H as (k & s & _ & ->). exists G. eapply good_same; [exact Hg|..]; reflexivity.
    - eapply label_good; eassumption.
    - apply do_control_inv in H as (k & _ & ->). exists G. eapply good_same; [exact Hg|..]; reflexivity.
    - apply do_arguments_inv in H as (k & _ & ->). exists G. eapply good_same; [exact Hg|..]; reflexivity.
    - eapply header_good; eassumption.
    - eapply block_good; eassumption.
    - eapply include_good; eassumption.
    - destruct H as (i & its & nodes & x1 & Hr & Hn & Hl). destruct (items_good _ _ _ _ _ _ Hr _ _ Hg) as (G' & K). eapply list_good; eassumption.
    - eapply paragraph_good; eassumption.
  Qed.
  Lemma act_all_good a d els x z : act_all cf run els x z -> forall G, good a d G [] x -> exists G', good a d G' [] z.
  Proof.
    induction 1 as [x|el els x y z H _ IH]; intros G Hg; [eauto|]. destruct (acts_good _ _ _ _ _ _ Hg H) as (G' & K). eauto.
  Qed.
End Elements.

(* ------------------------------------------------------------ the end of a parser *)
Lemma each_in {A B} (f : A -> res B) l : forall bs, for_each f l = Ok bs -> forall b, In b bs -> exists a, In a l /\ f a = Ok b.
Proof.
  induction l as [|a l IH]; cbn [for_each]; intros bs H b Hb; [injection H as <-; destruct Hb|].
  destruct (f a) as [c|] eqn:E; [|discriminate]. cbn [rbind] in H. destruct (for_each f l) as [cs|]; [|discriminate]. cbn [rbind] in H. injection H as <-.
  destruct Hb as [<-|Hb]; [exists a; split; [left; reflexivity|exact E]|]. destruct (IH _ eq_refl _ Hb) as (a' & Ha & E'). exists a'. split; [right; exact Ha|exact E'].
Qed.
Lemma init_good e next done forb x : dp_init e next done forb = Ok x -> old_ok next done -> good next done [] [] x.
Proof.
  unfold dp_init. destruct (not_callable _); [discriminate|]. intros E Ho. injection E as <-.
  split; [|split; [intros b c _ []|intros b i _ _ []]].
  constructor; cbn [dx_nodes dx_labels dx_foot dx_toc dx_links dx_groups dx_next dx_done]; try apply Forall_nil.
  - apply fresh_nil.
  - apply sub_refl.
  - intros g d p b [].
  - exists []. split; [symmetry; apply app_nil_r|constructor].
  - exact Ho.
  - constructor.
Qed.
Lemma enum_in {A} n (l : list A) k a : In (k, a) (enumerate_from n l) -> In a l.
Proof. revert n. induction l as [|b l IH]; intros n; cbn [enumerate_from]; [intros []|]. intros [E|H]; [injection E as _ ->; left; reflexivity|right; exact (IH _ H)]. Qed.
Lemma vmarks_in {A} (f : A -> marks) d k v : In (k, v) d -> incl (f v) (vmarks f d).
Proof. intros H m Hm. apply in_flat_map. exists (k, v). auto. Qed.
Lemma hmarks_internal h i : hmarks (set_internal h i) = hmarks h.
Proof. reflexivity. Qed.

Lemma nest_incl hs : incl (flat_map preorder (nest_headers hs)) hs.
Proof.
  unfold nest_headers. destruct (nodes_under (S (length hs)) 0 hs) as [f r] eqn:E. destruct (under_split _ _ _ _ _ E ltac:(lia)) as (S1 & _). cbn [fst]. intros x Hx. rewrite S1. apply in_or_app. left. exact Hx.
Qed.
Lemma in_group_name g g' p p' b : in_group g p b -> in_group g' p' b -> g = g'.
Proof. intros (_ & H & _) (_ & K & _). congruence. Qed.
Lemma finalise_keyed cf e x y : dp_finalise cf e x = Ok y -> NoDup (keys (fm_bodies (dx_foot x))) ->
  (forall g d p b, In (g, d) (gm_items (dx_groups x)) -> In (p, b) d -> in_group g p b) -> keyed (dx_done x) -> keyed (dx_done y).
Proof.
  intros H Ky It (K1 & K2 & K3 & K4). unfold dp_finalise in H.
  match type of H with rbind (fm_process ?c ?i ?f) _ = _ => set (cpy := c) in H; set (fid := i) in H end.
  destruct (fm_process cpy fid (dx_foot x)) as [[flinks flists]|] eqn:Ef; [|discriminate]. cbn [rbind] in H.
  match type of H with rbind (tm_process ?i ?f) _ = _ => set (hid := i) in H end.
  destruct (tm_process hid (dx_toc x)) as [[[toc ids] tocs]|] eqn:Et; [|discriminate]. cbn [rbind] in H.
  destruct (hm_process (dx_links x)) as [hlinks|] eqn:Eh; [|discriminate]. cbn [rbind] in H.
  destruct (gm_process (dx_groups x)) as [groups|] eqn:Eg; [|discriminate]. cbn [rbind] in H.
  match type of H with Ok (set_shared _ _ (_ ++ ?l)) = _ => set (A := l) in H end. assert (Ey : dx_done y = dx_done x ++ A) by (assert (y = set_shared (set_toc x toc) (dx_next x) (dx_done x ++ A)) as -> by congruence; reflexivity). clear H.
  (* the footnotes *)
  assert (F : forall f, In f (flat_map notes_of A) -> fst (fn_content f) = length (dx_done x) /\ forall g, In g (flat_map notes_of A) -> fn_name f = fn_name g -> f = g).
  { unfold fm_process in Ef. destruct (fm_footnotes cpy fid (dx_foot x)) as [fs|] eqn:Efs; [|discriminate]. cbn [rbind] in Ef.
    destruct (for_each (fm_link fs) (fm_macros (dx_foot x))) as [ls|] eqn:El; [|discriminate]. cbn [rbind] in Ef.
    assert (ls = flinks) as -> by congruence. assert (map (fun id => (id, map snd fs)) (fm_lists (dx_foot x)) = flists) as <- by congruence. clear Ef.
    assert (Hin : forall f, In f (flat_map notes_of A) -> In f (map snd fs)).
    { intros f Hf. apply in_flat_map in Hf as (s & Hs & Hf). unfold A in Hs. rewrite !in_app_iff in Hs.
      repeat match type of Hs with _ \/ _ => destruct Hs as [Hs|Hs] end; apply in_map_iff in Hs as ([id v] & <- & Hl); cbn [notes_of fst snd] in Hf; try contradiction.
      - destruct Hf as [<-|[]]. destruct (each_in _ _ _ El _ Hl) as (m & Hm & E). unfold fm_link in E. destruct (dget (mn_name m) fs) as [f'|] eqn:E2; [|discriminate].
        assert (f' = v) as -> by congruence. apply dget_in' in E2. apply (in_map snd) in E2. exact E2.
      - apply in_map_iff in Hl as (i & E & _). assert (v = map snd fs) as -> by congruence. exact Hf. }
    assert (Hn : Forall (fun kf : str * footnote copy => fn_name (snd kf) = fst kf /\ fst (fn_content (snd kf)) = length (dx_done x)) fs /\ keys fs = keys (fm_bodies (dx_foot x))).
    { unfold fm_footnotes in Efs. clear - Efs. revert fs Efs. generalize (fm_bodies (dx_foot x)). intros l. generalize 1. induction l as [|[nm b] l IH]; intros k fs Efs; cbn [enumerate_from for_each] in Efs.
      - assert (fs = []) as -> by congruence. split; [constructor|reflexivity].
      - destruct (fid (mkFootnote nm (str_of_nat k) [] (cpy b))) as [s|]; [|discriminate]. cbn [rbind] in Efs. 
        match type of Efs with rbind ?r _ = _ => destruct r as [bs|] eqn:E; [|discriminate] end. cbn [rbind] in Efs.
        assert (fs = (nm, mkFootnote nm (str_of_nat k) s (cpy b)) :: bs) as -> by congruence. destruct (IH _ _ E) as [I1 I2].
        split; [constructor; [split; reflexivity|exact I1]|]. unfold keys in *. cbn [map fst]. f_equal. exact I2. }
    destruct Hn as [Hn Hk]. rewrite <- Hk in Ky. rewrite Forall_forall in Hn.
    intros f Hf. apply Hin in Hf as Hf'. apply in_map_iff in Hf' as ([k f'] & E & Hkf). cbn [snd] in E. subst f'. split; [exact (proj2 (Hn _ Hkf))|].
    intros g Hg E. apply Hin in Hg. apply in_map_iff in Hg as ([k' g'] & E' & Hkg). cbn [snd] in E'. subst g'.
    pose proof (proj1 (Hn _ Hkf)) as E1. pose proof (proj1 (Hn _ Hkg)) as E2. cbn [fst snd] in E1, E2. assert (k' = k) as -> by congruence.
    apply (in_dget _ _ _ Ky) in Hkf. apply (in_dget _ _ _ Ky) in Hkg. congruence. }
  (* the groups *)
  assert (Gr : forall id made items, In (AGroup id made items) A -> made = length (dx_done x) /\ NoDup (keys items) /\
    exists nm, (forall p b, In (p, b) items -> in_group nm p b) /\ forall id' made' items', In (AGroup id' made' items') A -> (exists p b, In (p, b) items' /\ exists q, in_group nm q b) -> items = items').
  { assert (Hin : forall id made items, In (AGroup id made items) A -> made = length (dx_done x) /\ exists nm dd, dget nm (gm_items (dx_groups x)) = Some dd /\ items = dupd (dupd [] dd) dd).
    { intros id made items HA. unfold A in HA. rewrite !in_app_iff in HA.
      repeat (destruct HA as [HA|HA]; [apply in_map_iff in HA as (? & Ea & ?); discriminate|]). apply in_map_iff in HA as ([i it] & Ea & HA).
      cbn [fst snd] in Ea. split; [congruence|]. assert (it = items) as <- by congruence. destruct (each_in _ _ _ Eg _ HA) as (m & Hm & E). unfold gm_link in E.
      destruct (dget (mn_name m) (gm_items (dx_groups x))) as [dd|] eqn:E2; [|discriminate]. exists (mn_name m), dd. split; [exact E2|congruence]. }
    assert (Hsub : forall dd p (b : dnode), In (p, b) (dupd (dupd [] dd) dd) -> In (p, b) dd).
    { intros dd p b Hk. apply dupd_in in Hk as [Hk|Hk]; [|exact Hk]. apply dupd_in in Hk as [[]|Hk]; exact Hk. }
    intros id made items HA. destruct (Hin _ _ _ HA) as (-> & nm & dd & E1 & ->). split; [reflexivity|]. split; [apply dupd_nodup, dupd_nodup; constructor|].
    exists nm. split; [intros p b Hb; exact (It _ _ _ _ (dget_in' _ _ _ E1) (Hsub _ _ _ Hb))|].
    intros id' made' items' HA' (p & b & Hb & q & Hq). destruct (Hin _ _ _ HA') as (_ & nm' & dd' & E1' & ->).
    pose proof (It _ _ _ _ (dget_in' _ _ _ E1') (Hsub _ _ _ Hb)) as Hq'. assert (nm' = nm) as -> by exact (in_group_name _ _ _ _ _ Hq' Hq). assert (dd' = dd) as -> by congruence. reflexivity. }
  rewrite Ey. unfold keyed. rewrite flat_map_app, app_length.
  assert (Lf : forall f, In f (flat_map notes_of A) -> 0 < length A) by (intros f Hf; destruct A; [destruct Hf|cbn; lia]).
  split; [|split; [|split]].
  - intros f Hf. apply in_app_or in Hf as [Hf|Hf]; [apply K1 in Hf; lia|]. rewrite (proj1 (F _ Hf)). specialize (Lf _ Hf). lia.
  - intros f g Hf Hg E1 E2. apply in_app_or in Hf as [Hf|Hf]; apply in_app_or in Hg as [Hg|Hg].
    + exact (K2 _ _ Hf Hg E1 E2).
    + apply K1 in Hf. rewrite E1, (proj1 (F _ Hg)) in Hf. lia.
    + apply K1 in Hg. rewrite <- E1, (proj1 (F _ Hf)) in Hg. lia.
    + exact (proj2 (F _ Hf) _ Hg E2).
  - intros id made items HA. apply in_app_or in HA as [HA|HA]; [destruct (K3 _ _ _ HA); split; [lia|assumption]|].
    destruct (Gr _ _ _ HA) as (-> & N & _). split; [|exact N]. destruct A; [destruct HA|cbn; lia].
  - intros id id' made items items' g p b p' b' H1 H2 Hb Hb' G1 G2. apply in_app_or in H1 as [H1|H1]; apply in_app_or in H2 as [H2|H2].
    + exact (K4 _ _ _ _ _ _ _ _ _ _ H1 H2 Hb Hb' G1 G2).
    + destruct (K3 _ _ _ H1) as [L _]. destruct (Gr _ _ _ H2) as (-> & _). lia.
    + destruct (K3 _ _ _ H2) as [L _]. destruct (Gr _ _ _ H1) as (-> & _). lia.
    + destruct (Gr _ _ _ H1) as (_ & _ & nm & Q1 & Q2). apply (Q2 _ _ _ H2). exists p', b'. split; [exact Hb'|]. exists p'. rewrite (in_group_name _ _ _ _ _ (Q1 _ _ Hb) G1). exact G2.
Qed.
Lemma finalise_good cf e a d G x y : good a d G [] x -> dp_finalise cf e x = Ok y -> child_ok a d G y.
Proof.
  intros Hg H. pose proof Hg as [Hcore [HAp HBp]]. pose proof Hcore as [F T Me Li He To Lk Na Gr It Do Ol Ky].
  pose proof (finalise_keyed _ _ _ _ H Ky It (proj2 (proj2 (proj2 (proj2 (proj2 Ol)))))) as HK. unfold dp_finalise in H.
  match type of H with rbind (fm_process ?c ?i ?f) _ = _ => set (cpy := c) in H; set (fid := i) in H end.
  destruct (fm_process cpy fid (dx_foot x)) as [[flinks flists]|] eqn:Ef; [|discriminate]. cbn [rbind] in H.
  match type of H with rbind (tm_process ?i ?f) _ = _ => set (hid := i) in H end.
  destruct (tm_process hid (dx_toc x)) as [[[toc ids] tocs]|] eqn:Et; [|discriminate]. cbn [rbind] in H.
  destruct (hm_process (dx_links x)) as [hlinks|] eqn:Eh; [|discriminate]. cbn [rbind] in H.
  destruct (gm_process (dx_groups x)) as [groups|] eqn:Eg; [|discriminate]. cbn [rbind] in H.
  match type of H with Ok (set_shared _ _ (_ ++ ?l)) = _ => set (A := l) in H end. assert (Ey : y = set_shared (set_toc x toc) (dx_next x) (dx_done x ++ A)) by congruence. clear H.
  assert (Ib : forall nm b, In (nm, b) (fm_bodies (dx_foot x)) -> incl (dmarks b) G).
  { intros nm b Hb m Hm. apply (proj1 T). unfold tree_marks. rewrite !in_app_iff. do 3 right. left. exact (vmarks_in _ _ _ _ Hb m Hm). }
  assert (Ig : forall g dd p b, In (g, dd) (gm_items (dx_groups x)) -> In (p, b) dd -> incl (dmarks b) (gmarks (gm_items (dx_groups x)))).
  { intros g dd p b H1 H2 m Hm. apply (vmarks_in _ _ _ _ H1). exact (vmarks_in _ _ _ _ H2 m Hm). }
  assert (Ig2 : incl (gmarks (gm_items (dx_groups x))) G).
  { intros m Hm. apply (proj1 T). unfold tree_marks. rewrite !in_app_iff. auto. }
  assert (R0 : (forall id f, In (id, f) flinks -> In (snd (fn_content f)) (in_store x)) /\ (forall id l f, In (id, l) flists -> In f l -> In (snd (fn_content f)) (in_store x))).
  { unfold fm_process in Ef. destruct (fm_footnotes cpy fid (dx_foot x)) as [fs|] eqn:Efs; [|discriminate]. cbn [rbind] in Ef.
    destruct (for_each (fm_link fs) (fm_macros (dx_foot x))) as [ls|] eqn:El; [|discriminate]. cbn [rbind] in Ef.
    assert (ls = flinks) as -> by congruence. assert (map (fun id => (id, map snd fs)) (fm_lists (dx_foot x)) = flists) as <- by congruence. clear Ef.
    assert (Hf : forall k f, In (k, f) fs -> In (snd (fn_content f)) (in_store x)).
    { intros k f Hk. unfold fm_footnotes in Efs. destruct (each_in _ _ _ Efs _ Hk) as ([n [nm b]] & Hn & E). apply enum_in in Hn.
      destruct (fid _) as [s|]; [|discriminate]. cbn [rbind] in E. assert (f = mkFootnote nm (str_of_nat n) s (cpy b)) as -> by congruence.
      unfold in_store. apply in_or_app. left. apply in_map_iff. exists (nm, b). split; [reflexivity|exact Hn]. }
    split.
    - intros id f Hl. destruct (each_in _ _ _ El _ Hl) as (m & Hm & E). unfold fm_link in E. destruct (dget (mn_name m) fs) as [f'|] eqn:E2; [|discriminate].
      assert (f' = f) as -> by congruence. apply dget_in' in E2. exact (Hf _ _ E2).
    - intros id l f Hl Hfl. apply in_map_iff in Hl as (i & E & Hi). assert (l = map snd fs) as -> by congruence. apply in_map_iff in Hfl as ([k f'] & <- & Hk). exact (Hf _ _ Hk). }
  (* footnotes *)
  assert (R1 : Forall (fun l : nat * footnote copy => right G (AFootnote (fst l) (snd l))) flinks /\
               Forall (fun l : nat * list (footnote copy) => right G (AFootnotes (fst l) (snd l))) flists).
  { unfold fm_process in Ef. destruct (fm_footnotes cpy fid (dx_foot x)) as [fs|] eqn:Efs; [|discriminate]. cbn [rbind] in Ef.
    destruct (for_each (fm_link fs) (fm_macros (dx_foot x))) as [ls|] eqn:El; [|discriminate]. cbn [rbind] in Ef.
    assert (ls = flinks) as -> by congruence. assert (map (fun id => (id, map snd fs)) (fm_lists (dx_foot x)) = flists) as <- by congruence. clear Ef.
    assert (Hf : forall k f, In (k, f) fs -> fn_name f = k /\ incl (dmarks (snd (fn_content f))) G).
    { intros k f Hk. unfold fm_footnotes in Efs. destruct (each_in _ _ _ Efs _ Hk) as ([n [nm b]] & Hn & E). apply enum_in in Hn.
      destruct (fid _) as [s|]; [|discriminate]. cbn [rbind] in E. assert (k = nm) as -> by congruence.
      assert (f = mkFootnote nm (str_of_nat n) s (cpy b)) as -> by congruence. split; [reflexivity|]. exact (Ib _ _ Hn). }
    split; rewrite Forall_forall.
    - intros [id f] Hl. destruct (each_in _ _ _ El _ Hl) as (m & Hm & E). unfold fm_link in E. destruct (dget (mn_name m) fs) as [f'|] eqn:E2; [|discriminate].
      assert (id = mn_id m) as -> by congruence. assert (f' = f) as -> by congruence. apply dget_in' in E2. destruct (Hf _ _ E2) as [En Ei].
      cbn [fst snd]. split; [unfold amarks, nmarks; cbn [flat_map set_apart app]; rewrite app_nil_r; exact Ei|]. exists (mn_ctx m). rewrite Forall_forall in Me. specialize (Me _ Hm). rewrite <- En in Me. exact Me.
    - intros [id l] Hl. apply in_map_iff in Hl as (i & E & Hi). assert (id = i) as -> by congruence. assert (l = map snd fs) as -> by congruence. cbn [fst snd].
      split; [|rewrite Forall_forall in Li; exact (Li _ Hi)]. intros m Hm. unfold amarks, nmarks in Hm. cbn [flat_map set_apart] in Hm. rewrite app_nil_r in Hm.
      apply in_flat_map in Hm as (b & Hb & Hm). rewrite map_map in Hb. apply in_map_iff in Hb as ([k f] & <- & Hk). exact (proj2 (Hf _ _ Hk) _ Hm). }
  (* table of contents *)
  assert (R2 : Forall (fun h => incl (hmarks h) G) (tm_headers toc) /\ tm_nodes toc = tm_nodes (dx_toc x) /\
               Forall (fun l : nat * str => right G (AInternal (fst l) (snd l))) ids /\
               Forall (fun l : nat * (list toc_item * list header) => right G (AToc (fst l) (fst (snd l)) (snd (snd l)))) tocs).
  { unfold tm_process in Et. destruct (tm_headers (dx_toc x)) as [|h0 hs0] eqn:Ehs.
    - assert (dx_toc x = toc) as <- by congruence. assert ([] = ids) as <- by congruence. assert ([] = tocs) as <- by congruence.
      rewrite Ehs. auto.
    - rewrite <- Ehs in *. destruct (for_each (give_internal hid) (tm_headers (dx_toc x))) as [hs|] eqn:Egi; [|discriminate]. cbn [rbind] in Et.
      assert (Hh : Forall (fun h => incl (hmarks h) G) hs).
      { rewrite Forall_forall in *. intros h Hh. destruct (each_in _ _ _ Egi _ Hh) as (h' & Hh' & E). unfold give_internal in E. specialize (He _ Hh').
        destruct (h_internal h'); [injection E as <-; exact He|]. destruct (hid h') as [s|]; [|discriminate]. cbn [rbind] in E. assert (h = set_internal h' s) as -> by congruence. exact He. }
      assert (mkTman hs (tm_nodes (dx_toc x)) (nest_headers hs) = toc) as <- by congruence.
      assert (flat_map (fun h => match h_internal h with Some i => [(h_id h, i)] | None => [] end) hs = ids) as <- by congruence.
      assert (map (fun id => (id, (nest_headers hs, hs))) (tm_nodes (dx_toc x)) = tocs) as <- by congruence. clear Et.
      cbn [tm_headers tm_nodes]. split; [exact Hh|]. split; [reflexivity|]. rewrite !Forall_forall in *. split.
      + intros [id s] Hl. apply in_flat_map in Hl as (h & Hi & Hl). destruct (h_internal h); [|destruct Hl]. destruct Hl as [E|[]].
        assert (id = h_id h) as -> by congruence. split; [intros m []|]. exists (bare h). apply (Hh _ Hi). left. reflexivity.
      + intros [id [n p]] Hl. apply in_map_iff in Hl as (i & E & Hi). assert (id = i) as -> by congruence. assert (p = hs) as -> by congruence. cbn [fst snd].
        split; [intros m []|]. split; [exact (To _ Hi)|]. split; [rewrite Forall_forall; exact Hh|]. assert (n = nest_headers hs) as -> by congruence. apply nest_incl. }
  destruct R1 as [R1a R1b], R2 as (R2a & R2b & R2c & R2d).
  assert (R3 : Forall (fun l : nat * (header * list inode) => right G (AHeader (fst l) (fst (snd l)) (snd (snd l)))) hlinks).
  { rewrite Forall_forall in *. intros [id [h c]] Hl. destruct (each_in _ _ _ Eh _ Hl) as (m & Hm & E). unfold hm_link in E.
    destruct (dget (mn_name (fst m)) (hm_headers (dx_links x))) as [h'|] eqn:E2; [|discriminate]. apply dget_in' in E2. destruct (Na _ E2) as [En Ei].
    assert (id = mn_id (fst m)) as -> by congruence. assert (h = h') as -> by congruence. cbn [fst snd] in *. split; [intros k []|].
    exists (mn_name (fst m)), (snd m), (mn_ctx (fst m)). split; [exact (Lk _ Hm)|]. split; [split; [assumption|]|assumption]. apply (f_equal (fun r : res (nat * (header * list inode)) => match r with Ok q => snd (snd q) | _ => [] end)) in E. cbn [snd] in E. rewrite <- E. destruct (snd m); reflexivity. }
  assert (Gi : forall id items, In (id, items) groups -> exists m dd, In m (gm_groups (dx_groups x)) /\ id = mn_id m /\ In (mn_name m, dd) (gm_items (dx_groups x)) /\ incl items dd).
  { intros id items Hl. destruct (each_in _ _ _ Eg _ Hl) as (m & Hm & E). unfold gm_link in E.
    destruct (dget (mn_name m) (gm_items (dx_groups x))) as [dd|] eqn:E2; [|discriminate]. apply dget_in' in E2. exists m, dd. split; [exact Hm|]. split; [congruence|].
    split; [exact E2|]. assert (items = dupd (dupd [] dd) dd) as -> by congruence. intros [k v] Hk. apply dupd_in in Hk as [Hk|Hk]; [|exact Hk]. apply dupd_in in Hk as [[]|Hk]; exact Hk. }
  assert (R4 : Forall (fun l : nat * dict dnode => right G (AGroup (fst l) (length (dx_done x)) (snd l))) groups).
  { rewrite Forall_forall in *. intros [id items] Hl. destruct (Gi _ _ Hl) as (m & dd & Hm & -> & H1 & H2). cbn [fst snd]. split.
    - intros k Hk. unfold amarks, nmarks in Hk. cbn [flat_map set_apart] in Hk. rewrite app_nil_r in Hk. apply in_flat_map in Hk as (b & Hb & Hk).
      apply in_map_iff in Hb as ([p b'] & <- & Hp). apply Ig2. exact (Ig _ _ _ _ H1 (H2 _ Hp) _ Hk).
    - exists (mn_name m). split; [exact (proj1 (Gr _ Hm))|]. rewrite Forall_forall. intros [p b] Hp. exact (It _ _ _ _ H1 (H2 _ Hp)). }
  assert (RA : Forall (right G) A).
  { unfold A. rewrite !Forall_app, !Forall_map. auto 10. }
  assert (IA : forall id made items, In (AGroup id made items) A -> made = length (dx_done x) /\ In (id, items) groups).
  { intros id made items HA. unfold A in HA. rewrite !in_app_iff in HA.
    repeat (destruct HA as [HA|HA]; [apply in_map_iff in HA as (? & Ea & ?); discriminate|]). apply in_map_iff in HA as ([i it] & Ea & HA).
    cbn [fst snd] in Ea. split; [congruence|]. assert (i = id) as <- by congruence. assert (it = items) as <- by congruence. exact HA. }
  rewrite Ey in HK. subst y. cbn [set_shared set_toc dx_done] in HK. unfold child_ok. cbn [set_shared set_toc dx_next dx_nodes dx_foot dx_toc dx_done].
  split; [exact F|]. split.
  { eapply sub_trans; [|exact T]. unfold tree_marks. split; [intros m Hm; rewrite !in_app_iff in *; tauto|]. intros i. rewrite !cnt_app. lia. }
  split; [exact Me|]. split; [exact Li|]. split; [exact R2a|]. split; [rewrite R2b; exact To|]. split.
  { destruct Do as (new & E & Fn). exists (new ++ A). split; [rewrite E, app_assoc; reflexivity|]. apply Forall_app. auto. }
  destruct Ol as (O1 & O2 & O3 & O4 & O5 & O6).
  assert (SA : incl (aside A) (in_store x)).
  { intros b Hb. apply in_flat_map in Hb as (s & Hs & Hb). unfold A in Hs. rewrite !in_app_iff in Hs.
    repeat match type of Hs with _ \/ _ => destruct Hs as [Hs|Hs] end; apply in_map_iff in Hs as ([id v] & <- & Hl); cbn [set_apart fst snd] in Hb; try contradiction.
    - destruct Hb as [<-|[]]. exact (proj1 R0 _ _ Hl).
    - apply in_map_iff in Hb as (f & <- & Hf). exact (proj2 R0 _ _ _ Hl Hf).
    - destruct (Gi _ _ Hl) as (m & dd & _ & _ & H1 & H2). apply in_map_iff in Hb as ([p c] & <- & Hp). unfold in_store. apply in_or_app. right.
      apply in_flat_map. exists (mn_name m, dd). split; [exact H1|]. apply (in_map snd) in Hp as Hp'. apply in_map_iff. exists (p, c). split; [reflexivity|exact (H2 _ Hp)]. }
  assert (Hin : forall b, In b (aside (dx_done x ++ A)) -> In b (aside (dx_done x)) \/ In b (in_store x)).
  { intros b Hb. unfold aside in Hb. rewrite flat_map_app in Hb. apply in_app_or in Hb as [Hb|Hb]; [auto|right; apply SA, Hb]. }
  split; [split; [|split; [|split; [|split; [|split]]]]|split].
  - intros id made items id' made' items' b nm H1 H2 Hb Hm. apply in_app_or in H1 as [H1|H1]; apply in_app_or in H2 as [H2|H2].
    + exact (O1 _ _ _ _ _ _ _ _ H1 H2 Hb Hm).
    + exfalso. destruct (IA _ _ _ H2) as [_ H3]. destruct (Gi _ _ H3) as (m & dd & Hmm & -> & _ & _). rewrite Forall_forall in Gr. apply (proj2 (Gr _ Hmm) nm).
      unfold kept. rewrite !in_app_iff. right. right. unfold amarks, nmarks. apply in_flat_map. exists b. split; [|exact Hm]. apply in_flat_map. eexists. split; [exact H1|exact Hb].
    + destruct (IA _ _ _ H1) as [-> _]. exact (O2 _ _ _ H2).
    + exfalso. destruct (IA _ _ _ H1) as [_ H3]. destruct (IA _ _ _ H2) as [_ H4]. destruct (Gi _ _ H3) as (m & dd & _ & -> & G1 & G2). destruct (Gi _ _ H4) as (m' & dd' & Hmm & -> & _ & _).
      rewrite Forall_forall in Gr. apply (proj2 (Gr _ Hmm) nm). unfold kept. rewrite !in_app_iff. right. left. apply in_map_iff in Hb as ([p b'] & <- & Hp).
      exact (Ig _ _ _ _ G1 (G2 _ Hp) _ Hm).
  - intros id made items H1. rewrite app_length. apply in_app_or in H1 as [H1|H1]; [apply O2 in H1; lia|]. destruct (IA _ _ _ H1) as [-> _].
    assert (A <> []) by (intros E; rewrite E in H1; destruct H1). destruct A; [contradiction|]. cbn. lia.
  - rewrite amarks_app. apply Forall_app. split; [exact O3|]. rewrite Forall_forall. intros m Hm. apply (right_all _ _ RA) in Hm. apply (in_map fst) in Hm.
    apply (fresh_range _ _ _ _ F) in Hm. lia.
  - intros b c Hb Hc Hs. destruct (Hin _ Hb) as [Hb'|Hb'], (Hin _ Hc) as [Hc'|Hc'].
    + exact (O4 _ _ Hb' Hc' Hs).
    + exact (HAp _ _ Hb' Hc' Hs).
    + symmetry. exact (HAp _ _ Hc' Hb' (share_sym _ _ Hs)).
    + exact (store_one _ _ _ _ _ _ _ Hcore Hb' Hc' Hs).
  - intros b Hb. destruct (Hin _ Hb) as [Hb'|Hb']; [exact (O5 _ Hb')|]. exact (store_once _ _ _ _ _ _ Hcore Hb').
  - exact HK.
  - intros b c Hb Hc Hs. assert (Hc' : In c (in_store x)) by (unfold in_store; apply in_or_app; left; exact Hc).
    destruct (Hin _ Hb) as [Hb'|Hb']; [exact (HAp _ _ Hb' Hc' Hs)|exact (store_one _ _ _ _ _ _ _ Hcore Hb' Hc' Hs)].
  - intros b i Hb Hi K. destruct (Hin _ Hb) as [Hb'|Hb'].
    + apply (HBp _ _ Hb' Hi). eapply nums_incl; [|exact K]. intros m Hm. cbn [app]. apply in_or_app. left. exact Hm.
    + pose proof (core_cnt _ _ _ _ _ i Hcore) as Hc. pose proof (nums_in _ _ _ Hb' Hi) as K2. apply cnt_in in K, K2. lia.
Qed.

Lemma run_good n : forall cf e next done forb text o y, dp_run n cf e next done forb text o = Ok y -> old_ok next done -> exists G, child_ok next done G y.
Proof.
  induction n as [|n IH]; intros cf e next done forb text o y H Ho; [discriminate|].
  apply dp_run_inv in H as (m & toks & x0 & els & x & En & _ & Ei & _ & Ha & Hf). injection En as <-.
  pose proof (init_good _ _ _ _ _ Ei Ho) as Hi.
  destruct (act_all_good cf (dp_run n cf) (fun e n' d f t o => dp_run_fine n cf e n' d f t o) (fun e n' d f t o y => IH cf e n' d f t o y) _ _ _ _ _ Ha _ Hi) as (G & K).
  exists G. exact (finalise_good _ _ _ _ _ _ _ K Hf).
Qed.
