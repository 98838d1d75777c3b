(* HomeFacts.v -- the parents of the objects of a document, when it is complete *)
From Verif Require Import NumDoc Build BuildFacts SpecVisitor SpecParents PropertiesVisitor PropertiesBuild RenderFacts ShowFacts SpecObjects ObjFacts ParentFacts.
From Coq Require Import List Lia PeanoNat Bool.
Import ListNotations.
#[local] Open Scope list_scope.
#[local] Notation length := List.length.

(* ------------------------------------------------------------- a parent stays right *)
(* a footnote gets its content after it is made *)
Definition alters (h h' : heap) : Prop :=
  forall l o, nth_error h l = Some o -> exists o', nth_error h' l = Some o' /\ o_kind o' = o_kind o /\ o_args o' = o_args o /\ o_ctx o' = o_ctx o /\
    forall name f, o_kind o <> KFootnote -> fget name (o_fields o) = Some f -> stable (o_kind o) name (is_empty f) = true -> fget name (o_fields o') = Some f.
Lemma changes_alters h h' : changes h h' -> alters h h'.
Proof. intros C l o E. destruct (C l o E) as (o' & E' & K & A & X & F). exists o'. repeat (split; [assumption |]). intros name f _. apply F. Qed.
Definition blockish (k : kind) : bool := match k with KBlock | KRaw | KSource | KBlockGroupItem => true | _ => false end.
Definition special (from : nat -> provenance) (l : nat) (o : obj) (name : string) : Prop :=
  (from l = Made /\ o_kind o = KBlockGroupItem) \/ (from l = Parsed /\ o_kind o = KBlockGroup /\ name <> "labels"%string).
Lemma right_stays from from' h h' (moved : nat -> Prop) l o o' name c oc oc' :
  wf_heap h -> alters h h' ->
  (forall i oi oi', nth_error h i = Some oi -> nth_error h' i = Some oi' -> ~ moved i -> o_parent oi' = o_parent oi) ->
  (forall i oi, moved i -> nth_error h i = Some oi -> blockish (o_kind oi) = true) ->
  (forall i, i < length h -> from' i = from i) ->
  nth_error h l = Some o -> nth_error h' l = Some o' -> nth_error h c = Some oc -> nth_error h' c = Some oc' ->
  (moved c -> pointer (o_kind o) name = true) -> ~ special from l o name ->
  right_parent from h l o name c oc -> right_parent from' h' l o' name c oc'.
Proof.
  intros W C P M F El El' Ec Ec' Hm Sp H.
  assert (Kl : o_kind o' = o_kind o) by (destruct (C l o El) as (x & Ex & K & _); assert (x = o') as -> by congruence; exact K).
  assert (Kc : o_kind oc' = o_kind oc) by (destruct (C c oc Ec) as (x & Ex & K & _); assert (x = oc') as -> by congruence; exact K).
  assert (Fl : from' l = from l) by exact (F l (nth_length _ _ _ El)). assert (Fc : from' c = from c) by exact (F c (nth_length _ _ _ Ec)).
  assert (Pl : blockish (o_kind o) = false -> o_parent o' = o_parent o) by (intro Hb; apply (P l); try assumption; intro Hx; rewrite (M _ _ Hx El) in Hb; discriminate).
  assert (Pb : blockish (o_kind oc) = false -> o_parent oc' = o_parent oc) by (intro Hb; apply (P c); try assumption; intro Hx; rewrite (M _ _ Hx Ec) in Hb; discriminate).
  assert (Get : forall name f, fget name (o_fields o) = Some f -> o_kind o <> KFootnote -> (forall e, stable (o_kind o) name e = true) -> fget name (o_fields o') = Some f).
  { intros n f Ef Hnf St. destruct (C l o El) as (x & Ex & _ & _ & _ & G). assert (x = o') as -> by congruence. apply G; [exact Hnf | exact Ef | apply St]. }
  unfold right_parent in *. rewrite Kl, Kc, Fl, Fc. destruct (pointer (o_kind o) name) eqn:Ep.
  - destruct (o_kind o); try discriminate Ep; try exact H; destruct H as [Hk [Hf Hp]]; (rewrite Pb; [auto | rewrite Hk; reflexivity]).
  - assert (Pc : o_parent oc' = o_parent oc) by (apply (P c); try assumption; intro Hx; discriminate (Hm Hx)). rewrite Pc.
    destruct (from l) eqn:Efl.
    + destruct (String.eqb name "labels") eqn:En; [exact H |]. apply String.eqb_neq in En. destruct (o_kind o) eqn:Ek; try exact H; try (rewrite Pl; [exact H | reflexivity]).
      * exfalso. apply Sp. right. auto.
      * destruct H as [Hf (d & od & ls & H1 & H2 & H3 & H4 & H5 & H6 & H7 & H8 & a & z & oa & oz & Ha & Hz & Ea & Ez & Hc)]. split; [exact Hf |].
        destruct (C d od H2) as (od' & E' & K' & A' & X' & G'). destruct (C a oa Ea) as (oa' & Ea' & _ & _ & Xa & _). destruct (C z oz Ez) as (oz' & Ez' & _ & _ & Xz & _).
        assert (Pd : o_parent od' = o_parent od) by (apply (P d); try assumption; intro Hx; pose proof (M _ _ Hx H2) as Hb; rewrite H4 in Hb; discriminate Hb).
        exists d, od', ls. rewrite (F d (nth_length _ _ _ H2)), K', A', X', Pd. repeat (split; [assumption |]). split; [apply G'; [rewrite H4; discriminate | exact H7 | rewrite H4; reflexivity] |].
        split; [apply Get; [exact H8 | rewrite ?Ek; discriminate | reflexivity] |]. exists a, z, oa', oz'. rewrite Xa, Xz. auto.
      * destruct (proper_has o "main_node" SPlain (wf_proper _ _ _ W El)) as [f Ef]; [rewrite Ek; cbn; tauto |]. rewrite (Get _ _ Ef ltac:(rewrite ?Ek; discriminate) (fun e => eq_refl)). rewrite Ef in H. rewrite Pl by reflexivity. exact H.
    + destruct (o_kind o) eqn:Ek; try exact H.
      * rewrite Pl by reflexivity. exact H.
      * exfalso. apply Sp. left. auto.
    + exact H.
Qed.
Lemma not_special h l o name c oc : right_parent all_parsed h l o name c oc -> ~ special all_parsed l o name.
Proof.
  intros H [[A _] | (_ & K & Hn)]; [discriminate A |]. unfold right_parent in H. rewrite K in H. cbn [pointer all_parsed] in H. destruct (String.eqb_spec name "labels"); [contradiction |]. destruct H as (_ & H & _). discriminate H.
Qed.
Lemma right_extends h h' l o name c oc : wf_heap h -> extends h h' -> nth_error h l = Some o -> nth_error h c = Some oc -> right_parent all_parsed h l o name c oc -> right_parent all_parsed h' l o name c oc.
Proof.
  intros W X El Ec H. apply (right_stays all_parsed all_parsed h h' (fun _ => False) l o o name c oc oc); try assumption; try contradiction.
  - apply changes_alters, extends_changes. exact X.
  - intros i oi oi' Ei Ei' _. rewrite (extends_some _ _ _ _ X Ei) in Ei'. assert (oi' = oi) as -> by congruence. reflexivity.
  - reflexivity.
  - exact (extends_some _ _ _ _ X El).
  - exact (extends_some _ _ _ _ X Ec).
  - exact (not_special _ _ _ _ _ _ H).
Qed.

(* ------------------------------------------------------------- the objects of the nodes *)
Lemma placed_end h cs : placed anywhere (h ++ map fst cs) (length h) cs.
Proof.
  intros j c E. split; [| intros; exact Logic.I]. rewrite nth_error_app2 by lia. replace (length h + j - length h) with j by lia. rewrite nth_error_map. change (obj * option nat)%type with cell. change (@nth_error (prod obj (option nat)) cs j) with (@nth_error cell cs j). rewrite E. reflexivity.
Qed.
Definition rule0 (h : heap) (roots : list nat) : Prop :=
  forall l o name f c, nth_error h l = Some o -> In (name, f) (o_fields o) -> In c (refs f) ->
    pointer (o_kind o) name = false /\ ~ In c roots /\ exists oc, nth_error h c = Some oc /\ right_parent all_parsed h l o name c oc.
Definition housed (b : build) : Prop := BuildFacts.tree b /\ rule0 (b_heap b) (map snd (b_parts b)).
Lemma rule0_add b cs : BuildFacts.tree b -> rule0 (b_heap b) (map snd (b_parts b)) -> segment (fun _ => False) (length (b_heap b)) cs ->
  (forall h, placed anywhere h (length (b_heap b)) cs -> homed h (length (b_heap b)) cs) -> rule0 (b_heap (add_cells b cs)) (length (b_heap b) :: map snd (b_parts b)).
Proof.
  intros T R Sg Hh l o name f c El Hin Hc. pose proof T as ((W & _ & _ & P & _) & L & _). cbn [add_cells b_heap] in *.
  assert (X : extends (b_heap b) (b_heap b ++ map fst cs)) by apply extends_app.
  destruct (Nat.lt_ge_cases l (length (b_heap b))) as [Hl | Hl].
  - rewrite nth_error_app1 in El by exact Hl. destruct (R _ _ _ _ _ El Hin Hc) as (H1 & H2 & oc & Ec & Hr). split; [exact H1 |]. split.
    + intros [Hx | Hx]; [| exact (H2 Hx)]. apply nth_length in Ec. lia.
    + exists oc. split; [exact (extends_some _ _ _ _ X Ec) | exact (right_extends _ _ _ _ _ _ _ W X El Ec Hr)].
  - pose proof (Hh _ (placed_end (b_heap b) cs)) as Hm. rewrite nth_error_app2 in El by exact Hl. rewrite nth_error_map in El. change (obj * option nat)%type with cell in El.
    destruct (@nth_error cell cs (l - length (b_heap b))) as [d |] eqn:Ed; cbn [option_map] in El; [| congruence]. assert (o = fst d) as -> by congruence.
    destruct (Hm _ _ Ed _ _ _ Hin Hc) as (oc & Ec & Hr). destruct (Sg _ _ Ed) as (_ & _ & S3). specialize (S3 _ _ _ Hin Hc). destruct (pointer (o_kind (fst d)) name); [contradiction |].
    split; [reflexivity |]. split.
    + intros [Hx | Hx]; [lia |]. apply in_map_iff in Hx as (e & <- & He). rewrite Forall_forall in P. specialize (P e He). lia.
    + exists oc. split; [exact Ec |]. replace (length (b_heap b) + (l - length (b_heap b))) with l in Hr by lia. exact Hr.
Qed.
Lemma rule0_less h a roots : rule0 h (a :: roots) -> rule0 h roots.
Proof. intros H l o name f c El Hin Hc. destruct (H _ _ _ _ _ El Hin Hc) as (A & B & D). split; [exact A |]. split; [intro Hx; apply B; right; exact Hx | exact D]. Qed.
Lemma housed_part b p : housed b -> housed (join_part b p).
Proof.
  intros [T R]. split; [exact (tree_add_part b p T) |]. unfold join_part.
  destruct (find (same_part _) (b_parts b)) as [[[q i] l] |] eqn:Ef; cbn [b_heap b_parts]; rewrite map_app; cbn [map snd].
  - pose proof (find_snd _ _ _ Ef) as He. apply (in_map snd) in He. cbn [snd] in He. intros k o name f c El Hin Hc. destruct (R _ _ _ _ _ El Hin Hc) as (H1 & H2 & H3).
    split; [exact H1 |]. split; [| exact H3]. intro Hx. apply in_app_or in Hx as [Hx | [<- | []]]; contradiction.
  - destruct (dnode_segment (fun _ => False) (snd p) None (length (b_heap b)) (below_none _)) as (S1 & _).
    pose proof (rule0_add b _ T R S1 (fun h Hp => dnode_homed h (snd p) None _ Hp)) as R'. intros k o name f c El Hin Hc. destruct (R' _ _ _ _ _ El Hin Hc) as (H1 & H2 & H3).
    split; [exact H1 |]. split; [| exact H3]. intro Hx. apply H2. apply in_app_or in Hx as [Hx | [<- | []]]; [right; exact Hx | left; reflexivity].
Qed.
Lemma housed_header b h : housed b -> housed (add_header b h).
Proof.
  intros [T R]. split; [exact (tree_add_header b h T) |]. unfold add_header. destruct (locate KHeader (h_id h) (b_nums b)); [exact R |].
  destruct (header_segment (fun _ => False) None (length (b_heap b)) h (below_none _)) as (S1 & _). exact (rule0_less _ _ _ (rule0_add b _ T R S1 (fun g Hp => header_homed g None _ h Hp))).
Qed.
Lemma fold_housed {A} (f : build -> A -> build) (Hf : forall b a, housed b -> housed (f b a)) l : forall b, housed b -> housed (fold_left f l b).
Proof. induction l as [| a l IH]; intros b Hb; cbn; auto. Qed.
Lemma build_housed doc done : housed (build_tree doc done).
Proof.
  unfold build_tree. apply fold_housed; [exact housed_header |]. apply fold_housed; [exact housed_part |]. destruct (document_segment doc) as (S1 & Hne).
  set (b0 := mkBuild [] [] [] [] []).
  assert (L : 0 < length (document_cells doc)) by (destruct (document_cells doc); [congruence | cbn; lia]).
  assert (W0 : wf_heap ([] : heap)) by (apply wf_nth; intros [|] o E; discriminate E).
  split.
  - split; [| split; [cbn; rewrite !map_length; reflexivity | split; reflexivity]].
    split; [exact (wf_segment (fun _ => False) [] _ W0 S1 (fun c (H : False) => match H with end)) |].
    cbn [b_heap b_nums b_parts b_foots b_items]. split; [rewrite map_length; exact L |].
    assert (T0 : tags_ok [] []) by (split; [auto | intros [|] ? ? ?; discriminate]).
    split; [exact (tags_app [] [] (document_cells doc) eq_refl T0) |]. repeat split; constructor.
  - cbn [b_heap b_parts map]. intros l o name f c El Hin Hc. rewrite nth_error_map in El. change (obj * option nat)%type with cell in El.
    destruct (@nth_error cell (document_cells doc) l) as [d |] eqn:Ed; cbn [option_map] in El; [| congruence]. assert (o = fst d) as -> by congruence.
    pose proof (document_homed _ _ (placed_end [] (document_cells doc))) as Hm. destruct (Hm _ _ Ed _ _ _ Hin Hc) as (oc & Ec & Hr). destruct (S1 _ _ Ed) as (_ & _ & S3). specialize (S3 _ _ _ Hin Hc).
    destruct (pointer (o_kind (fst d)) name); [contradiction |]. split; [reflexivity |]. split; [auto |]. exists oc. split; [exact Ec | exact Hr].
Qed.

Lemma fold_extends {A} (f : build -> A -> build) (Hf : forall b a, extends (b_heap b) (b_heap (f b a))) l : forall b, extends (b_heap b) (b_heap (fold_left f l b)).
Proof. induction l as [| a l IH]; intro b; cbn; [apply extends_refl | exact (extends_trans _ _ _ (Hf b a) (IH _))]. Qed.
Lemma build_first doc done : exists o, nth_error (b_heap (build_tree doc done)) 0 = Some o /\ o_kind o = KDocument /\ o_parent o = None.
Proof.
  assert (X : extends (map fst (document_cells doc)) (b_heap (build_tree doc done))).
  { unfold build_tree. match goal with |- extends _ (b_heap (fold_left _ _ (fold_left _ _ ?b))) => change (map fst (document_cells doc)) with (b_heap b); eapply extends_trans; [apply (fold_extends join_part) | apply (fold_extends add_header)] end.
    - intros b p. unfold join_part. destruct (find _ _) as [[[? ?] ?] |]; cbn [b_heap]; [apply extends_refl | apply extends_app].
    - intros b h. unfold add_header. destruct (locate _ _ _); [apply extends_refl | apply extends_app]. }
  eexists. split; [apply (extends_some _ _ _ _ X); unfold document_cells, with_content; reflexivity |]. split; reflexivity.
Qed.

(* ------------------------------------------------------------- the complete document *)
Lemma changes_is_a h h' l k : alters h h' -> is_a h l k -> is_a h' l k.
Proof. intros C (o & E & K & A & X). destruct (C l o E) as (o' & E' & K' & A' & X' & _). exists o'. split; [exact E' |]. repeat split; congruence. Qed.
Lemma changes_has h h' l o k n f : alters h h' -> nth_error h l = Some o -> o_kind o = k -> k <> KFootnote -> (forall e, stable k n e = true) -> has h l n f -> has h' l n f.
Proof. intros C E K Hk St (o1 & E1 & F). assert (o1 = o) as -> by congruence. destruct (C l o E) as (o' & E' & _ & _ & _ & H). exists o'. split; [exact E' |]. apply H; [congruence | exact F | rewrite K; apply St]. Qed.
Section Homes.
  Context (N : nat) (roots : list nat).
  Definition says_position (h : heap) (k : nat) (pos : str) : Prop :=
    exists o, nth_error h k = Some o /\ blockish (o_kind o) = true /\ dget (lit "position") (na_named (o_args o)) = Some pos.
  Definition a_group (from : nat -> provenance) (h : heap) (p : nat) (g : str) : Prop :=
    exists o, nth_error h p = Some o /\ from p = Parsed /\ o_kind o = KBlockGroup /\ fget "name" (o_fields o) = Some (Plain (VStr g)).
  Definition rule (from : nat -> provenance) (h : heap) (l : nat) (o : obj) (name : string) (c : nat) : Prop :=
    exists oc, nth_error h c = Some oc /\ right_parent from h l o name c oc /\ (from l = Parsed -> from c = Parsed -> pointer (o_kind o) name = false -> ~ In c roots).
  (* an item of a group *)
  Definition an_item (from : nat -> provenance) (h : heap) (items : list (nat * str * str * nat)) (e : nat * str * str * nat) : Prop :=
    let '(_, g, pos, l) := e in
    is_a h l KBlockGroupItem /\ from l = Made /\ has h l "position" (Plain (VStr pos)) /\ has h l "group" (Plain (VStr g)) /\ (exists p, has_parent h l (Some p) /\ a_group from h p g) /\
    exists k, has h l "block" (One (Some k)) /\ In k roots /\ says_position h k pos /\ exists p' m' g', has_parent h k (Some p') /\ In (m', g', pos, p') items.
  Record homes (from : nat -> provenance) (b : build) : Prop := mkHomes {
    o_parsed : forall i, i < length (b_heap b) -> (from i = Parsed <-> i < N);
    o_top : 0 < N <= length (b_heap b);
    o_first : exists o, nth_error (b_heap b) 0 = Some o /\ o_kind o = KDocument /\ o_parent o = None;
    o_roots : forall k, In k roots -> k < N;
    o_rule : forall l o name f c, nth_error (b_heap b) l = Some o -> In (name, f) (o_fields o) -> In c (refs f) -> special from l o name \/ rule from (b_heap b) l o name c;
    o_foots : forall e, In e (b_foots b) -> from (snd e) = Made /\ exists o, nth_error (b_heap b) (snd e) = Some o /\ o_kind o = KFootnote /\ o_parent o = None;
    o_groups : forall l o name f c, nth_error (b_heap b) l = Some o -> from l = Parsed -> o_kind o = KBlockGroup -> name <> "labels"%string -> In (name, f) (o_fields o) -> In c (refs f) ->
      exists m g pos, fget "name" (o_fields o) = Some (Plain (VStr g)) /\ In (m, g, pos, c) (b_items b);
    o_made : forall l o, nth_error (b_heap b) l = Some o -> from l = Made -> o_kind o = KBlockGroupItem -> exists m g pos, In (m, g, pos, l) (b_items b);
    o_items : forall e, In e (b_items b) -> an_item from (b_heap b) (b_items b) e }.
  Definition agree (h : heap) (from from' : nat -> provenance) : Prop := forall i, i < length h -> from' i = from i.
  Definition keeps_parents (h h' : heap) : Prop := forall i o o', nth_error h i = Some o -> nth_error h' i = Some o' -> o_parent o' = o_parent o.
  Lemma keep_has_parent h h' l p : alters h h' -> keeps_parents h h' -> has_parent h l p -> has_parent h' l p.
  Proof. intros C K (o & E & P). destruct (C l o E) as (o' & E' & _). exists o'. split; [exact E' |]. rewrite (K _ _ _ E E'). exact P. Qed.
  Lemma keep_group from from' h h' p g : alters h h' -> agree h from from' -> a_group from h p g -> a_group from' h' p g.
  Proof.
    intros C A (o & E & F & K & G). destruct (C p o E) as (o' & E' & K' & _ & _ & H'). exists o'. split; [exact E' |]. split; [rewrite (A _ (nth_length _ _ _ E)); exact F |]. split; [congruence |].
    apply H'; [congruence | exact G | rewrite K; reflexivity].
  Qed.
  Lemma keep_position h h' k pos : alters h h' -> says_position h k pos -> says_position h' k pos.
  Proof. intros C (o & E & K & P). destruct (C k o E) as (o' & E' & K' & A' & _). exists o'. split; [exact E' |]. rewrite K', A'. auto. Qed.
  Lemma keep_item from from' h h' items e : wf_heap h -> alters h h' -> keeps_parents h h' -> agree h from from' -> an_item from h items e -> an_item from' h' items e.
  Proof.
    destruct e as [[[m g] pos] l]. intros W C K A (H1 & H2 & H3 & Hg & (p & H4 & H5) & k & H6 & H7 & H8 & p' & m' & g' & H9 & H10). pose proof H1 as (o & E & Ko & _).
    split; [exact (changes_is_a _ _ _ _ C H1) |]. split; [rewrite (A _ (nth_length _ _ _ E)); exact H2 |]. split; [exact (changes_has _ _ _ _ _ _ _ C E Ko ltac:(discriminate) (fun e => eq_refl) H3) |].
    split; [exact (changes_has _ _ _ _ _ _ _ C E Ko ltac:(discriminate) (fun e => eq_refl) Hg) |]. split; [exists p; split; [exact (keep_has_parent _ _ _ _ C K H4) | exact (keep_group _ _ _ _ _ _ C A H5)] |]. exists k. split; [exact (changes_has _ _ _ _ _ _ _ C E Ko ltac:(discriminate) (fun e => eq_refl) H6) |].
    split; [exact H7 |]. split; [exact (keep_position _ _ _ _ C H8) |]. exists p', m', g'. split; [exact (keep_has_parent _ _ _ _ C K H9) | exact H10].
  Qed.
  Lemma not_parsed_new from b (h : heap) from' i : homes from b -> agree (b_heap b) from from' -> (forall i, length (b_heap b) <= i < length h -> from' i <> Parsed) -> i < length h -> (from' i = Parsed <-> i < N).
  Proof.
    intros H A Hn Hi. destruct (Nat.lt_ge_cases i (length (b_heap b))) as [Hl | Hl].
    - rewrite (A i Hl). apply (o_parsed _ _ H). exact Hl.
    - split; [intro F; destruct (Hn i ltac:(lia) F) | intro Hx; pose proof (o_top _ _ H); lia].
  Qed.
  (* the objects that were there keep their parents *)
  Lemma homes_still from from' b (h : heap) : homes from b -> wf_heap (b_heap b) -> alters (b_heap b) h -> length (b_heap b) <= length h -> keeps_parents (b_heap b) h -> agree (b_heap b) from from' ->
    (forall l o, length (b_heap b) <= l -> nth_error h l = Some o -> from' l <> Parsed /\ (from' l = Made -> o_kind o <> KBlockGroupItem)) ->
    (forall l o' name f c, nth_error h l = Some o' -> In (name, f) (o_fields o') -> In c (refs f) ->
       (exists o, nth_error (b_heap b) l = Some o /\ In (name, f) (o_fields o)) \/ (~ special from' l o' name /\ rule from' h l o' name c)
       \/ (special from' l o' name /\ o_kind o' = KBlockGroup /\ exists m g pos, fget "name" (o_fields o') = Some (Plain (VStr g)) /\ In (m, g, pos, c) (b_items b))) ->
    homes from' (set_heap b h).
  Proof.
    intros H W C L K A Hn Hf. pose proof H as [P T Z Rt R F G M I].
    assert (Old : forall l o o', nth_error (b_heap b) l = Some o -> nth_error h l = Some o' -> from' l = from l /\ o_kind o' = o_kind o).
    { intros l o o' E E'. split; [exact (A l (nth_length _ _ _ E)) |]. destruct (C l o E) as (x & Ex & Kx & _). congruence. }
    constructor; cbn [set_heap b_heap b_foots b_items].
    - intros i Hi. apply (not_parsed_new from b h); try assumption. intros j Hj. destruct (nth_some h j) as [o Eo]; [lia |]. exact (proj1 (Hn _ _ (proj1 Hj) Eo)).
    - lia.
    - destruct Z as (o & E & Ko & Po). destruct (C _ _ E) as (o' & E' & K' & _). exists o'. split; [exact E' |]. split; [congruence |]. rewrite (K _ _ _ E E'). exact Po.
    - exact Rt.
    - intros l o' name f c E' Hin Hc. destruct (Hf _ _ _ _ _ E' Hin Hc) as [(o & E & Hin0) | [[_ Hr] | [Hs _]]]; [| right; exact Hr | left; exact Hs]. destruct (Old _ _ _ E E') as [Fl Kl].
      destruct (R _ _ _ _ _ E Hin0 Hc) as [Hs | Hr]; [left; unfold special in *; rewrite Fl, Kl; exact Hs |].
      assert (Ds : special from l o name \/ ~ special from l o name).
      { unfold special. destruct (from l); [destruct (kind_dec (o_kind o) KBlockGroup); [destruct (String.eqb_spec name "labels") |] | destruct (kind_dec (o_kind o) KBlockGroupItem) |]; first [left; tauto | right; intuition congruence]. }
      destruct Ds as [Hs | Hs]; [left; unfold special in *; rewrite Fl, Kl; exact Hs |]. right. destruct Hr as (oc & Ec & Hr & Hi). destruct (C c oc Ec) as (oc' & Ec' & _).
      exists oc'. split; [exact Ec' |]. split.
      + apply (right_stays from from' (b_heap b) h (fun _ => False) l o o' name c oc oc'); try assumption; try contradiction. intros i oi oi' Ei Ei' _. exact (K _ _ _ Ei Ei').
      + rewrite Fl, Kl, (A _ (nth_length _ _ _ Ec)). exact Hi.
    - intros e He. destruct (F e He) as (Fe & o & E & Ko & Po). destruct (C _ _ E) as (o' & E' & K' & _). destruct (Old _ _ _ E E') as [Fl _]. split; [congruence |]. exists o'. split; [exact E' |].
      split; [congruence |]. rewrite (K _ _ _ E E'). exact Po.
    - intros l o' name f c E' Fl' Ko' Hne Hin Hc. destruct (Hf _ _ _ _ _ E' Hin Hc) as [(o & E & Hin0) | [[Hs _] | (_ & _ & Hs)]]; [| exfalso; apply Hs; right; auto | exact Hs]. destruct (Old _ _ _ E E') as [Fl Kl].
      destruct (G l o name f c E ltac:(congruence) ltac:(congruence) Hne Hin0 Hc) as (m & g & pos & Hg & Hi). exists m, g, pos. split; [| exact Hi].
      destruct (C l o E) as (x & Ex & _ & _ & _ & Hx). assert (x = o') as -> by congruence. apply Hx; [congruence | exact Hg |]. rewrite <- Kl, Ko'. reflexivity.
    - intros l o' E' Fl' Ko'. destruct (Nat.lt_ge_cases l (length (b_heap b))) as [Hl | Hl].
      + destruct (nth_some (b_heap b) l Hl) as [o E]. destruct (Old _ _ _ E E') as [Fl Kl]. exact (M l o E ltac:(congruence) ltac:(congruence)).
      + exfalso. exact (proj2 (Hn _ _ Hl E') Fl' Ko').
    - intros e He. apply (keep_item from from' (b_heap b) h); try assumption. exact (I e He).
  Qed.
  (* ------------------------------------------------------------- new objects *)
  Definition later (from : nat -> provenance) (n : nat) (w : provenance) (i : nat) : provenance := if Nat.ltb i n then from i else w.
  Lemma later_old from n w i : i < n -> later from n w i = from i.
  Proof. intro H. unfold later. destruct (Nat.ltb_spec i n); [reflexivity | lia]. Qed.
  Lemma later_new from n w i : n <= i -> later from n w i = w.
  Proof. intro H. unfold later. destruct (Nat.ltb_spec i n); [lia | reflexivity]. Qed.
  Lemma extends_parents h h' : extends h h' -> keeps_parents h h'.
  Proof. intros X i o o' E E'. rewrite (extends_some _ _ _ _ X E) in E'. congruence. Qed.
  Lemma special_pointer from l o name : special from l o name -> pointer (o_kind o) name = false.
  Proof. intros [[_ K] | (_ & K & _)]; rewrite K; reflexivity. Qed.
  (* a copy of the attribute of an object that points to another *)
  Lemma same_pointer from from' h h' l l' o o' name c oc : pointer (o_kind o) name = true -> o_kind o' = o_kind o -> from' c = from c -> right_parent from h l o name c oc -> right_parent from' h' l' o' name c oc.
  Proof. intros Hp K F H. unfold right_parent in *. rewrite K, Hp in *. destruct (o_kind o); rewrite F; exact H. Qed.
  Lemma homes_copies from b h : homes from b -> wf_heap (b_heap b) -> fresh (length (b_heap b)) (b_heap b) h -> homes (later from (length (b_heap b)) Copied) (set_heap b h).
  Proof.
    intros H W [X F]. pose proof (extends_changes _ _ X) as C. pose proof (extends_parents _ _ X) as K.
    assert (Hp : forall j o, j < length (b_heap b) -> nth_error h j = Some o -> proper o) by (intros j o Hj Ej; rewrite (proj2 X j Hj) in Ej; exact (wf_proper _ _ _ W Ej)).
    apply (homes_still from); [exact H | exact W | apply changes_alters; exact C | exact (proj1 X) | exact K | intros i Hi; apply later_old; exact Hi | |].
    - intros l o Hl _. rewrite later_new by exact Hl. split; discriminate.
    - intros l o' name f c E' Hin Hc. destruct (Nat.lt_ge_cases l (length (b_heap b))) as [Hl | Hl]; [left; exists o'; rewrite (proj2 X l Hl) in E'; auto |]. right. left.
      split; [intros [[Hx _] | [Hx _]]; rewrite later_new in Hx by exact Hl; discriminate |].
      destruct (made_from_refs _ _ _ _ _ _ _ Hp (F l o' Hl E') Hin Hc) as [(Hf & Hr & oc & Ec & Pc) | (Hf & j & o & Hj & Ej & Kj & Hinj)].
      + exists oc. split; [exact Ec |]. split; [| intro Hx; rewrite later_new in Hx by exact Hl; discriminate]. unfold right_parent. rewrite Hf, !later_new by lia. auto.
      + rewrite (proj2 X j Hj) in Ej. destruct (o_rule _ _ H _ _ _ _ _ Ej Hinj Hc) as [Hs | (oc & Ec & Hr & _)]; [apply special_pointer in Hs; congruence |].
        exists oc. split; [exact (extends_some _ _ _ _ X Ec) |]. split; [| intro Hx; rewrite later_new in Hx by exact Hl; discriminate].
        apply (same_pointer from _ (b_heap b) _ j _ o); [congruence | congruence | apply later_old; exact (nth_length _ _ _ Ec) | exact Hr].
  Qed.
  Lemma homes_made (ok : nat -> Prop) K p from b cs : homes from b -> wf_heap (b_heap b) -> segment ok (length (b_heap b)) cs -> Forall (fun c : cell => o_kind (fst c) = K /\ o_parent (fst c) = p) cs ->
    K <> KBlockGroupItem ->
    (forall name c, pointer K name = true -> ok c -> exists oc, nth_error (b_heap b) c = Some oc /\
       match K with KMacroHeader | KTocItem => o_kind oc = KHeader /\ from c = Parsed | _ => o_kind oc = KFootnote /\ from c = Made /\ o_parent oc = None end) ->
    (K = KTocItem \/ forall d name f c, In d cs -> In (name, f) (o_fields (fst d)) -> In c (refs f) -> pointer K name = true) ->
    homes (later from (length (b_heap b)) Made) (set_heap b (b_heap b ++ map fst cs)).
  Proof.
    intros H W Sg Fa HK Ho Hno. set (h := b_heap b ++ map fst cs). assert (X : extends (b_heap b) h) by apply extends_app. pose proof (extends_changes _ _ X) as C. pose proof (extends_parents _ _ X) as Kp.
    assert (New : forall l o, length (b_heap b) <= l -> nth_error h l = Some o -> exists d, @nth_error cell cs (l - length (b_heap b)) = Some d /\ o = fst d /\ o_kind o = K /\ o_parent o = p).
    { intros l o Hl E. unfold h in E. rewrite nth_error_app2 in E by exact Hl. rewrite nth_error_map in E. change (obj * option nat)%type with cell in E.
      destruct (@nth_error cell cs (l - length (b_heap b))) as [d |] eqn:Ed; cbn [option_map] in E; [| congruence]. exists d. assert (o = fst d) as -> by congruence.
      rewrite Forall_forall in Fa. destruct (Fa d (nth_error_In _ _ Ed)). auto. }
    apply (homes_still from); [exact H | exact W | apply changes_alters; exact C | exact (proj1 X) | exact Kp | intros i Hi; apply later_old; exact Hi | |].
    - intros l o Hl E. destruct (New l o Hl E) as (d & _ & _ & Kd & _). rewrite later_new by exact Hl. split; [discriminate | congruence].
    - intros l o' name f c E' Hin Hc. destruct (Nat.lt_ge_cases l (length (b_heap b))) as [Hl | Hl]; [left; exists o'; rewrite (proj2 X l Hl) in E'; auto |]. right. left.
      destruct (New l o' Hl E') as (d & Ed & -> & Kd & Pd). split; [intros [[_ Hx] | [Hx _]]; [congruence | rewrite later_new in Hx by exact Hl; discriminate] |].
      destruct (Sg _ _ Ed) as (_ & _ & S3). specialize (S3 _ _ _ Hin Hc). rewrite Kd in S3. destruct (pointer K name) eqn:Ep.
      + destruct (Ho name c Ep S3) as (oc & Ec & Hr). exists oc. split; [exact (extends_some _ _ _ _ X Ec) |]. split; [| intro Hx; rewrite later_new in Hx by exact Hl; discriminate].
        unfold right_parent. rewrite Kd, Ep, (later_old _ _ _ _ (nth_length _ _ _ Ec)). destruct K; try discriminate Ep; exact Hr.
      + destruct Hno as [-> | Hno]; [| rewrite (Hno d name f c (nth_error_In _ _ Ed) Hin Hc) in Ep; discriminate].
        assert (Hlc : c < length h) by (unfold h; rewrite app_length, map_length; change (obj * option nat)%type with cell; lia).
        destruct (nth_some h c Hlc) as [oc Ec]. destruct (New c oc ltac:(lia) Ec) as (dc & _ & -> & Kc & Pc).
        exists (fst dc). split; [exact Ec |]. split; [| intro Hx; rewrite later_new in Hx by exact Hl; discriminate]. unfold right_parent. rewrite Kd, Ep, !later_new by lia. rewrite Kc, Pc, Pd. auto.
  Qed.
  Lemma homes_put from b m o name v : homes from b -> wf_heap (b_heap b) -> nth_error (b_heap b) m = Some o -> alters (b_heap b) (put (b_heap b) m name v) ->
    (forall c, In c (refs v) -> (~ special from m o name /\ (exists oc, nth_error (b_heap b) c = Some oc /\ forall h' oc', o_kind oc' = o_kind oc -> o_parent oc' = o_parent oc -> right_parent from h' m (new_obj o name v) name c oc') /\
       (from m = Parsed -> from c = Parsed -> pointer (o_kind o) name = false -> ~ In c roots)) \/
       (special from m o name /\ o_kind o = KBlockGroup /\ name <> "name"%string /\ exists m' g pos, fget "name" (o_fields o) = Some (Plain (VStr g)) /\ In (m', g, pos, c) (b_items b))) ->
    homes from (set_heap b (put (b_heap b) m name v)).
  Proof.
    intros H W E C Hr. set (h := put (b_heap b) m name v) in *. assert (L : length h = length (b_heap b)) by apply put_length.
    assert (Back : forall i oi', nth_error h i = Some oi' -> exists oi, nth_error (b_heap b) i = Some oi /\ oi' = if Nat.eq_dec i m then new_obj oi name v else oi).
    { intros i oi' Ei. destruct (nth_some (b_heap b) i) as [oi Eo]; [apply nth_length in Ei; lia |]. exists oi. split; [exact Eo |]. pose proof (put_nth (b_heap b) m name v i oi Eo) as Ep. fold h in Ep. congruence. }
    apply (homes_still from); [exact H | exact W | exact C | lia | | intros i Hi; reflexivity | |].
    - intros i oi oi' Ei Ei'. destruct (Back i oi' Ei') as (oi0 & E0 & ->). assert (oi0 = oi) as -> by congruence. destruct (Nat.eq_dec i m); reflexivity.
    - intros l ol Hl El. apply nth_length in El. lia.
    - intros l o' name' f c E' Hin Hc. destruct (Back l o' E') as (ol & El & Eo). destruct (Nat.eq_dec l m) as [-> | Hne]; [| subst o'; left; exists ol; auto].
      assert (ol = o) as -> by congruence. subst o'. cbn [new_obj o_fields] in Hin. destruct (set_field_in _ _ _ _ _ Hin) as [[-> ->] | Hin0]; [| left; exists o; auto].
      right. destruct (Hr c Hc) as [(Hs & (oc & Ec & Hoc) & Hn) | (Hs & Ko & Hnn & m' & g & pos & Hg & Hi)].
      + left. split; [exact Hs |]. pose proof (put_nth (b_heap b) m name v c oc Ec) as Ep. fold h in Ep. eexists. split; [exact Ep |]. split; [| exact Hn]. apply Hoc; destruct (Nat.eq_dec c m); reflexivity.
      + right. split; [exact Hs |]. split; [exact Ko |]. exists m', g, pos. split; [| exact Hi]. cbn [new_obj o_fields]. rewrite (fget_set _ _ _ _ _ Hg). destruct (String.eqb_spec "name" name); [congruence | reflexivity].
  Qed.
  (* an object that gets a parent *)
  Lemma special_dec from l o name : special from l o name \/ ~ special from l o name.
  Proof.
    unfold special. destruct (from l); [destruct (kind_dec (o_kind o) KBlockGroup); [destruct (String.eqb_spec name "labels") |] | destruct (kind_dec (o_kind o) KBlockGroupItem) |]; first [left; tauto | right; intuition congruence].
  Qed.
  Lemma homes_move from from' b (h : heap) (k : nat) (items : list (nat * str * str * nat)) : homes from b -> wf_heap (b_heap b) -> alters (b_heap b) h -> length (b_heap b) <= length h -> agree (b_heap b) from from' ->
    (forall i o o', nth_error (b_heap b) i = Some o -> nth_error h i = Some o' -> o_fields o' = o_fields o /\ (i <> k -> o_parent o' = o_parent o)) ->
    (forall o, nth_error (b_heap b) k = Some o -> blockish (o_kind o) = true) ->
    (forall l o name oc, right_parent from (b_heap b) l o name k oc -> nth_error (b_heap b) k = Some oc -> ~ special from l o name -> (from l = Parsed -> from k = Parsed -> pointer (o_kind o) name = false -> ~ In k roots) -> pointer (o_kind o) name = true) ->
    (forall l o, length (b_heap b) <= l -> nth_error h l = Some o -> from' l = Made /\ o_kind o = KBlockGroupItem /\ exists m g pos, In (m, g, pos, l) items) ->
    incl (b_items b) items -> (forall e, In e items -> an_item from' h items e) -> homes from' (mkBuild h (b_nums b) (b_parts b) (b_foots b) items).
  Proof.
    intros H W C L A Hf Hb Hp Hn Hi Hit. pose proof H as [P T Z Rt R F G M I].
    assert (Old : forall l o o', nth_error (b_heap b) l = Some o -> nth_error h l = Some o' -> from' l = from l /\ o_kind o' = o_kind o).
    { intros l o o' E E'. split; [exact (A l (nth_length _ _ _ E)) |]. destruct (C l o E) as (x & Ex & Kx & _). congruence. }
    assert (Pk : forall i o o', nth_error (b_heap b) i = Some o -> nth_error h i = Some o' -> blockish (o_kind o) = false -> o_parent o' = o_parent o).
    { intros i o o' E E' Hk. apply (Hf i o o' E E'). intros ->. rewrite (Hb o E) in Hk. discriminate. }
    constructor; cbn [b_heap b_foots b_items].
    - intros i Hl. apply (not_parsed_new from b h); try assumption. intros j Hj. destruct (nth_some h j) as [o Eo]; [lia |]. destruct (Hn _ _ (proj1 Hj) Eo) as [Hm _]. congruence.
    - lia.
    - destruct Z as (o & E & Ko & Po). destruct (C _ _ E) as (o' & E' & K' & _). exists o'. split; [exact E' |]. split; [congruence |]. rewrite (Pk _ _ _ E E'); [exact Po | rewrite Ko; reflexivity].
    - exact Rt.
    - intros l o' name f c E' Hin Hc. destruct (Nat.lt_ge_cases l (length (b_heap b))) as [Hl | Hl].
      2: { left. left. destruct (Hn _ _ Hl E') as (H1 & H2 & _). auto. }
      destruct (nth_some (b_heap b) l Hl) as [o E]. destruct (Old _ _ _ E E') as [Fl Kl]. destruct (Hf _ _ _ E E') as [Ff _]. rewrite Ff in Hin.
      destruct (special_dec from l o name) as [Hs | Hs]; [left; unfold special in *; rewrite Fl, Kl; exact Hs |]. right. destruct (R _ _ _ _ _ E Hin Hc) as [Hx | (oc & Ec & Hr & Hro)]; [contradiction |].
      destruct (C c oc Ec) as (oc' & Ec' & _). exists oc'. split; [exact Ec' |]. split; [| rewrite Fl, Kl, (A _ (nth_length _ _ _ Ec)); exact Hro].
      apply (right_stays from from' (b_heap b) h (fun i => i = k) l o o' name c oc oc'); try assumption.
      + intros i oi oi' Ei Ei' Hik. apply (Hf i oi oi' Ei Ei'). exact Hik.
      + intros i oi -> Ei. exact (Hb oi Ei).
      + intros ->. exact (Hp l o name oc Hr Ec Hs Hro).
    - intros e He. destruct (F e He) as (Fe & o & E & Ko & Po). destruct (C _ _ E) as (o' & E' & K' & _). destruct (Old _ _ _ E E') as [Fl _]. split; [congruence |]. exists o'. split; [exact E' |].
      split; [congruence |]. rewrite (Pk _ _ _ E E'); [exact Po | rewrite Ko; reflexivity].
    - intros l o' name f c E' Fl' Ko' Hne Hin Hc. destruct (Nat.lt_ge_cases l (length (b_heap b))) as [Hl | Hl].
      2: { destruct (Hn _ _ Hl E') as (H1 & H2 & _). congruence. }
      destruct (nth_some (b_heap b) l Hl) as [o E]. destruct (Old _ _ _ E E') as [Fl Kl]. destruct (Hf _ _ _ E E') as [Ff _]. rewrite Ff in Hin |- *.
      destruct (G l o name f c E ltac:(congruence) ltac:(congruence) Hne Hin Hc) as (m & g & pos & Hg & Hx). exists m, g, pos. split; [exact Hg | exact (Hi _ Hx)].
    - intros l o' E' Fl' Ko'. destruct (Nat.lt_ge_cases l (length (b_heap b))) as [Hl | Hl].
      + destruct (nth_some (b_heap b) l Hl) as [o E]. destruct (Old _ _ _ E E') as [Fl Kl]. destruct (M l o E ltac:(congruence) ltac:(congruence)) as (m & g & pos & Hx). exists m, g, pos. exact (Hi _ Hx).
      + exact (proj2 (proj2 (Hn _ _ Hl E'))).
    - exact Hit.
  Qed.
  Lemma has_one h l n f f' : has h l n f -> has h l n f' -> f = f'.
  Proof. intros (o & E & F) (o' & E' & F'). assert (o' = o) as -> by congruence. congruence. Qed.
  (* only a group refers to an item *)
  Lemma item_only from h l o name k ok : from k = Made -> o_kind ok = KBlockGroupItem -> ~ special from l o name -> right_parent from h l o name k ok -> pointer (o_kind o) name = true.
  Proof.
    intros F K Hs H. unfold right_parent in H. destruct (pointer (o_kind o) name) eqn:Ep; [reflexivity |]. exfalso. rewrite F, K in H. destruct (from l) eqn:El.
    - destruct (String.eqb_spec name "labels") as [-> | Hne]; [destruct H; discriminate |]. destruct (o_kind o) eqn:Ek; try (destruct H; discriminate);
        try (destruct H as [[? _] | [? _]]; discriminate); try (apply Hs; right; auto; fail). destruct (String.eqb name "plain_entries"); destruct H; discriminate.
    - destruct (o_kind o) eqn:Ek; try (destruct H; fail); destruct H; discriminate.
    - destruct H. discriminate.
  Qed.
  (* only an item refers to a block of a group *)
  Lemma root_only from h l o name k ok : from k = Parsed -> In k roots -> ~ special from l o name -> (from l = Parsed -> from k = Parsed -> pointer (o_kind o) name = false -> ~ In k roots) ->
    right_parent from h l o name k ok -> pointer (o_kind o) name = true.
  Proof.
    intros F Hk Hs Hro H. unfold right_parent in H. destruct (pointer (o_kind o) name) eqn:Ep; [reflexivity |]. exfalso. rewrite F in H. destruct (from l) eqn:El.
    - exact (Hro eq_refl F eq_refl Hk).
    - destruct (o_kind o) eqn:Ek; try (destruct H; fail); try (destruct H; discriminate); [destruct H as [_ [? _]]; discriminate |]. apply Hs. left. auto.
    - destruct H. discriminate.
  Qed.
End Homes.

(* ------------------------------------------------------------- the steps *)
Section Steps.
  Context (doc : list dnode * context) (done : list assign).
  Let B := build_tree doc done.
  Let N := length (b_heap B).
  Let roots := map snd (b_parts B).
  #[local] Notation homes := (homes N roots).
  Definition settled (b : build) : Prop := wf b /\ b_nums b = b_nums B /\ exists from, homes from b.
  Lemma first_settled : settled B.
  Proof.
    destruct (build_housed doc done) as [T R]. fold B in T, R. pose proof T as (W & L & F & I). split; [exact W |]. split; [reflexivity |]. exists (fun _ => Parsed).
    constructor.
    - intros i Hi. split; [intros _; exact Hi | reflexivity].
    - split; [exact (proj1 (proj2 W)) | apply le_n].
    - exact (build_first doc done).
    - intros k Hk. apply in_map_iff in Hk as (e & <- & He). destruct W as (_ & _ & _ & P & _). rewrite Forall_forall in P. exact (P e He).
    - intros l o name f c El Hin Hc. right. destruct (R _ _ _ _ _ El Hin Hc) as (_ & H2 & oc & Ec & Hr). exists oc. split; [exact Ec |]. split; [exact Hr |]. intros _ _ _. exact H2.
    - intros e He. rewrite F in He. destruct He.
    - intros l o name f c El _ Ko Hne Hin Hc. exfalso. destruct (R _ _ _ _ _ El Hin Hc) as (_ & _ & oc & Ec & Hr). apply not_special in Hr. apply Hr. right. split; [reflexivity |]. auto.
    - intros l o _ Hx. discriminate Hx.
    - intros e He. rewrite I in He. destruct He.
  Qed.
  Lemma put_changes b m o name v : nth_error (b_heap b) m = Some o -> (forall f, fget name (o_fields o) = Some f -> stable (o_kind o) name (is_empty f) = false) -> changes (b_heap b) (put (b_heap b) m name v).
  Proof. intros E H. refine (loose_changes (this m name) _ _ _ (keeps_put_but _ _ _ _)). intros l n o' f [-> ->] E' Ef. assert (o' = o) as -> by congruence. exact (H f Ef). Qed.
  Lemma parsed_at k i b m from : wf b -> b_nums b = b_nums B -> homes from b -> locate k i (b_nums b) = Some m -> exists o, nth_error (b_heap b) m = Some o /\ o_kind o = k /\ from m = Parsed.
  Proof.
    intros W Hn H E. destruct (BuildFacts.located _ _ _ _ W E) as (o & Eo & Ko). exists o. split; [exact Eo |]. split; [exact Ko |]. apply (o_parsed _ _ _ _ H); [exact (nth_length _ _ _ Eo) |].
    rewrite Hn in E. apply locate_nth, nth_length in E. destruct (build_tree_ok doc done) as (_ & L & _). fold B in L. unfold N. rewrite <- L. exact E.
  Qed.
  Lemma parsed_header b hd from : wf b -> b_nums b = b_nums B -> homes from b -> In hd (flat_map Build.headers_in done) -> exists o, nth_error (b_heap b) (header_loc b hd) = Some o /\ o_kind o = KHeader /\ from (header_loc b hd) = Parsed.
  Proof.
    intros W Hn H Hh. destruct (build_tree_headers doc done hd Hh) as [l El]. fold B in El. unfold header_loc. rewrite <- Hn in El. rewrite El. exact (parsed_at _ _ _ _ _ W Hn H El).
  Qed.
  Lemma not_special_kind from l o name : o_kind o <> KBlockGroupItem -> o_kind o <> KBlockGroup -> ~ special from l o name.
  Proof. intros H1 H2 [[_ K] | (_ & K & _)]; contradiction. Qed.

  (* the footnotes *)
  Lemma foot_settled n b f b' : settled b -> make_footnote n b f = Ok b' -> settled b'.
  Proof.
    intros (W & Hn & from & H) E. destruct (make_footnote_wf _ _ _ _ W E) as (W' & _ & N' & _). split; [exact W' |]. split; [congruence |]. unfold make_footnote in E.
    destruct (find (same_foot f) (b_foots b)) as [e |]; [exists from; assert (b' = b) as -> by congruence; exact H |].
    destruct (find (same_body f) (b_parts b)) as [[[q i] body] |]; [| exists from; assert (b' = b) as -> by congruence; exact H]. fold (footnote_obj f []) in E.
    set (a := length (b_heap b)) in *.
    pose proof (homes_made N roots (fun _ => False) KFootnote None from b [(footnote_obj f [], None)] H (proj1 W) (footnote_seg _ _ f)) as H0.
    specialize (H0 ltac:(constructor; [split; reflexivity | constructor]) ltac:(discriminate) ltac:(intros ? ? _ [])).
    specialize (H0 ltac:(right; intros d name g c [<- | []] Hin Hc; in_fields Hin; injection Hin as <- <-; destruct Hc)). cbn [map fst] in H0. fold a in H0.
    assert (W0 : wf_heap (b_heap b ++ [footnote_obj f []])) by exact (wf_segment (fun _ => False) (b_heap b) [(footnote_obj f [], None)] (proj1 W) (footnote_seg _ _ f) (fun c (H : False) => match H with end)).
    set (h0 := b_heap b ++ [footnote_obj f []]) in *. assert (L0 : length h0 = S a) by (unfold h0; rewrite app_length; cbn; fold a; lia).
    destruct (copy_list (deepcopy n) a (nodes_in (b_heap b) body "content") h0) as [[h ls] |] eqn:Ec; cbn [rbind] in E; [| discriminate].
    assert (Hl : Forall (fun c => c < length h0) (nodes_in (b_heap b) body "content")) by (apply (Forall_lt (fun c => c) (length (b_heap b))); [fold a; lia | exact (nodes_in_lt _ _ _ (proj1 W))]).
    destruct (wf_copies n h0 a _ h ls W0 ltac:(lia) Hl Ec) as (W1 & Fr & _ & R1).
    pose proof (homes_copies N roots _ (set_heap b h0) h H0 W0 Fr) as H1. cbn [set_heap b_heap b_nums b_parts b_foots b_items] in H1. set (from1 := later _ (length h0) Copied) in H1.
    assert (En : nth_error h a = Some (footnote_obj f [])).
    { apply (extends_some _ _ _ _ (proj1 Fr)). unfold h0. rewrite nth_error_app2 by (fold a; lia). fold a. rewrite Nat.sub_diag. reflexivity. }
    fold (footnote_obj f ls) in E. rewrite (update_put h a f ls En) in E.
    assert (Fa : from1 a = Made) by (unfold from1; rewrite later_old by lia; apply later_new; lia).
    assert (H2 : homes from1 (set_heap (mkBuild h (b_nums b) (b_parts b) (b_foots b) (b_items b)) (put h a "content" (Nodes ls)))).
    { apply (homes_put N roots _ (mkBuild h (b_nums b) (b_parts b) (b_foots b) (b_items b)) a (footnote_obj f [])); [exact H1 | exact W1 | exact En | |].
      - cbn [b_heap]. intros l o Eo. destruct (keeps_put_but h a "content" (Nodes ls) l o Eo) as (o' & E' & K' & A' & X' & F'). exists o'. repeat (split; [assumption |]). intros name g Hk Eg _. apply F'; [exact Eg |]. intros [-> _].
        assert (o = footnote_obj f []) as -> by congruence. apply Hk. reflexivity.
      - intros c Hc. left. cbn [refs] in Hc. destruct (R1 c Hc) as [Rc (oc & Eoc & Pc)]. split; [apply not_special_kind; discriminate |]. split; [| rewrite Fa; discriminate].
        exists oc. split; [exact Eoc |]. intros h' oc' K' P'. unfold right_parent. cbn [new_obj footnote_obj o_kind pointer]. rewrite Fa. split; [unfold from1; apply later_new; lia | congruence]. }
    exists from1. apply Ok_inv in E. subst b'. destruct H2 as [P0 T0 Z0 Rt0 R0 F0 G0 M0 I0]. cbn [set_heap b_heap b_nums b_parts b_foots b_items] in *. constructor; cbn [b_heap b_nums b_parts b_foots b_items]; try assumption.
    intros e He. apply in_app_or in He as [He | [<- | []]]; [exact (F0 e He) |]. cbn [snd]. split; [exact Fa |]. eexists. split; [exact (put_nth _ _ _ _ _ _ En) |]. destruct (Nat.eq_dec a a); split; reflexivity.
  Qed.
  Lemma foots_settled n l : forall b b', settled b -> make_footnotes n b l = Ok b' -> settled b'.
  Proof.
    induction l as [| f l IH]; intros b b' S E; cbn [make_footnotes] in E; [assert (b' = b) as -> by congruence; exact S |].
    destruct (make_footnote n b f) as [b1 |] eqn:E1; cbn [rbind] in E; [| discriminate]. exact (IH b1 b' (foot_settled _ _ _ _ S E1) E).
  Qed.
  Lemma foot_made b f l from : homes from b -> foot_loc b f = Ok l -> from l = Made /\ exists o, nth_error (b_heap b) l = Some o /\ o_kind o = KFootnote /\ o_parent o = None.
  Proof.
    intros H E. unfold foot_loc in E. destruct (find (same_foot f) (b_foots b)) as [[q k] |] eqn:Ef; [| discriminate]. assert (k = l) as -> by congruence. exact (o_foots _ _ _ _ H _ (find_snd _ _ _ Ef)).
  Qed.
  Lemma note_settled n b id f b' : settled b -> do_assign n done b (AFootnote id f) = Ok b' -> settled b'.
  Proof.
    intros S E. cbn [do_assign] in E. destruct (make_footnotes n b (made_with done f)) as [b1 |] eqn:E1; cbn [rbind] in E; [| discriminate].
    destruct (foots_settled _ _ _ _ S E1) as (W & Hn & from & H). destruct (foot_loc b1 f) as [l |] eqn:El; cbn [rbind] in E; [| discriminate].
    destruct (locate KMacroFootnote id (b_nums b1)) as [m |] eqn:Em; apply Ok_inv in E; subst b'; [| split; [exact W |]; split; [exact Hn |]; exists from; exact H].
    destruct (parsed_at _ _ _ _ _ W Hn H Em) as (o & Eo & Ko & Fm). destruct (foot_made _ _ _ _ H El) as (Fl & ol & Eol & Kl & Pl).
    split; [apply (wf_keeps_put _ _ o _ SOpt); [exact W | exact Eo | rewrite Ko; has_attribute | exact Logic.I | intros c [<- | []]; exact (nth_length _ _ _ Eol)] |]. split; [exact Hn |]. exists from.
    apply (homes_put N roots _ _ m o); [exact H | exact (proj1 W) | exact Eo | apply changes_alters, (put_changes _ _ o); [exact Eo | intros; rewrite Ko; reflexivity] |].
    intros c [<- | []]. left. split; [apply not_special_kind; rewrite Ko; discriminate |]. split; [| rewrite Fl; discriminate]. exists ol. split; [exact Eol |]. intros h' oc' K' P'.
    unfold right_parent. cbn [new_obj o_kind]. rewrite Ko. cbn [pointer String.eqb Ascii.eqb Bool.eqb]. repeat split; congruence.
  Qed.
  Lemma foots_made b from l : homes from b -> forall ls, for_each (foot_loc b) l = Ok ls -> forall c, In c ls -> from c = Made /\ exists o, nth_error (b_heap b) c = Some o /\ o_kind o = KFootnote /\ o_parent o = None.
  Proof.
    intro H. induction l as [| f l IH]; intros ls E c Hc; cbn [for_each] in E; [assert (ls = []) as -> by congruence; destruct Hc |].
    destruct (foot_loc b f) as [k |] eqn:Ek; cbn [rbind] in E; [| discriminate]. destruct (for_each (foot_loc b) l) as [ks |] eqn:Eks; cbn [rbind] in E; [| discriminate].
    assert (ls = k :: ks) as -> by congruence. destruct Hc as [<- | Hc]; [exact (foot_made _ _ _ _ H Ek) | exact (IH ks eq_refl c Hc)].
  Qed.
  Lemma cells_all {A} (f : nat -> A -> list cell) (Q : cell -> Prop) (l : list A) : forall base, (forall a b, In a l -> Forall Q (f b a)) -> Forall Q (snd (place f base l)).
  Proof.
    induction l as [| a l IH]; intros base H; cbn [place]; [constructor |]. specialize (IH (base + length (f base a)) (fun a' b Hin => H a' b (or_intror Hin))).
    destruct (place f (base + length (f base a)) l). cbn [snd] in *. apply Forall_app. split; [exact (H a base (or_introl eq_refl)) | exact IH].
  Qed.
  Lemma notes_settled n b id l b' : settled b -> do_assign n done b (AFootnotes id l) = Ok b' -> settled b'.
  Proof.
    intros S E. cbn [do_assign] in E. destruct (make_footnotes n b (flat_map (made_with done) l)) as [b1 |] eqn:E1; cbn [rbind] in E; [| discriminate].
    destruct (foots_settled _ _ _ _ S E1) as (W & Hn & from & H). destruct (for_each (foot_loc b1) l) as [ls |] eqn:El; cbn [rbind] in E; [| discriminate].
    destruct (locate KFootnotes id (b_nums b1)) as [m |] eqn:Em; [| apply Ok_inv in E; subst b'; split; [exact W |]; split; [exact Hn |]; exists from; exact H].
    destruct (parsed_at _ _ _ _ _ W Hn H Em) as (o & Eo & Ko & Fm). pose proof (nth_length _ _ _ Eo) as Lm. fold (footnote_cells m) in E.
    destruct (footnote_cells_segment m (length (b_heap b1)) ls (fun c => In c ls /\ c < length (b_heap b1)) Lm) as (Sg & R1 & _).
    { apply Forall_forall. intros c Hc. split; [exact Hc |]. destruct (foots_made _ _ _ H _ El c Hc) as (_ & oc & Ec & _). exact (nth_length _ _ _ Ec). }
    assert (Fc : Forall (fun c : cell => (o_kind (fst c) = KFootnotesItem /\ o_parent (fst c) = Some m) /\ forall name f k, In (name, f) (o_fields (fst c)) -> In k (refs f) -> pointer KFootnotesItem name = true) (snd (place (footnote_cells m) (length (b_heap b1)) ls))).
    { apply cells_all. intros a q _. constructor; [| constructor]. split; [split; reflexivity |]. intros name f k Hi Hk. cbn [fst] in Hi. in_fields Hi. injection Hi as <- <-. reflexivity. }
    destruct (place (footnote_cells m) (length (b_heap b1)) ls) as [its cs]. cbn [fst snd] in Sg, R1, Fc. apply Ok_inv in E. subst b'. rewrite Forall_forall in Fc.
    assert (W2 : wf_heap (b_heap b1 ++ map fst cs)) by (apply (wf_segment _ _ _ (proj1 W) Sg); intros c [_ Hc]; lia).
    assert (X : extends (b_heap b1) (b_heap b1 ++ map fst cs)) by apply extends_app.
    assert (H1 : homes (later from (length (b_heap b1)) Made) (set_heap b1 (b_heap b1 ++ map fst cs))).
    { apply (homes_made N roots _ KFootnotesItem (Some m) from b1 cs H (proj1 W) Sg).
      - apply Forall_forall. intros c Hc. exact (proj1 (Fc c Hc)).
      - discriminate.
      - intros name c _ [Hc _]. destruct (foots_made _ _ _ H _ El c Hc) as (F1 & oc & Ec & Kc & Pc). exists oc. auto.
      - right. intros d name f c Hd. exact (proj2 (Fc d Hd) name f c). }
    pose proof (wf_set b1 _ W W2 (keeps_extends _ _ X)) as W3. pose proof (extends_some _ _ _ _ X Eo) as Eo1.
    split; [| split; [exact Hn |]].
    - change (set_heap b1 (put (b_heap b1 ++ map fst cs) m "footnotes" (Nodes its))) with (set_heap (set_heap b1 (b_heap b1 ++ map fst cs)) (put (b_heap (set_heap b1 (b_heap b1 ++ map fst cs))) m "footnotes" (Nodes its))).
      apply (wf_keeps_put _ _ o _ SNodes); [exact W3 | exact Eo1 | rewrite Ko; has_attribute | exact Logic.I |]. intros c Hc. specialize (R1 c Hc). cbn [set_heap b_heap]. rewrite app_length, map_length. change (obj * option nat)%type with cell. lia.
    - exists (later from (length (b_heap b1)) Made).
      change (set_heap b1 (put (b_heap b1 ++ map fst cs) m "footnotes" (Nodes its))) with (set_heap (set_heap b1 (b_heap b1 ++ map fst cs)) (put (b_heap (set_heap b1 (b_heap b1 ++ map fst cs))) m "footnotes" (Nodes its))).
      apply (homes_put N roots _ _ m o); [exact H1 | exact W2 | exact Eo1 | apply changes_alters, (put_changes _ _ o); [exact Eo1 | intros; rewrite Ko; reflexivity] |].
      intros c Hc. left. cbn [refs] in Hc. specialize (R1 c Hc). split; [apply not_special_kind; rewrite Ko; discriminate |]. rewrite !(later_new _ _ _ c) by lia. split; [| discriminate].
      destruct (nth_error cs (c - length (b_heap b1))) as [d |] eqn:Ed; [| apply nth_error_None in Ed; lia]. destruct (Fc d (nth_error_In _ _ Ed)) as [[Kd Pd] _].
      exists (fst d). split; [cbn [set_heap b_heap]; rewrite nth_error_app2 by lia; rewrite nth_error_map; change (obj * option nat)%type with cell; rewrite Ed; reflexivity |].
      intros h' oc' K' P'. unfold right_parent. cbn [new_obj o_kind]. rewrite Ko, (later_old _ _ _ _ Lm), Fm. cbn [pointer String.eqb Ascii.eqb Bool.eqb]. rewrite later_new by lia. repeat split; congruence.
  Qed.
  Lemma id_settled n b id s b' : settled b -> do_assign n done b (AInternal id s) = Ok b' -> settled b'.
  Proof.
    intros (W & Hn & from & H) E. cbn [do_assign] in E. destruct (locate KHeader id (b_nums b)) as [m |] eqn:Em; apply Ok_inv in E; subst b'; [| split; [exact W |]; split; [exact Hn |]; exists from; exact H].
    destruct (parsed_at _ _ _ _ _ W Hn H Em) as (o & Eo & Ko & Fm).
    split; [apply (wf_keeps_put _ _ o _ SPlain); [exact W | exact Eo | rewrite Ko; has_attribute | exact Logic.I | intros c []] |]. split; [exact Hn |]. exists from.
    apply (homes_put N roots _ _ m o); [exact H | exact (proj1 W) | exact Eo | apply changes_alters, (put_changes _ _ o); [exact Eo | intros; rewrite Ko; reflexivity] | intros c []].
  Qed.
  (* the tables of contents *)
  Lemma toc_cells_all loc m t : forall base, Forall (fun c : cell => o_kind (fst c) = KTocItem /\ o_parent (fst c) = Some m) (toc_cells loc m base t).
  Proof.
    induction t as [hd es IH] using toc_all. intro base. cbn [toc_cells]. unfold with_content. constructor; [split; reflexivity |].
    apply cells_all. intros a q Ha. rewrite Forall_forall in IH. exact (IH a Ha q).
  Qed.
  Lemma toc_settled n b id nested plain b' : settled b -> In (AToc id nested plain) done -> do_assign n done b (AToc id nested plain) = Ok b' -> settled b'.
  Proof.
    intros (W & Hn & from & H) Hd E. cbn [do_assign] in E. destruct (locate KToc id (b_nums b)) as [m |] eqn:Em; [| apply Ok_inv in E; subst b'; split; [exact W |]; split; [exact Hn |]; exists from; exact H].
    destruct (parsed_at _ _ _ _ _ W Hn H Em) as (o & Eo & Ko & Fm). pose proof (nth_length _ _ _ Eo) as Lm.
    assert (Hh : forall hd, In hd (flat_map Build.toc_headers nested) -> In hd (flat_map Build.headers_in done)) by (intros hd Hx; apply in_flat_map; eexists; split; [exact Hd |]; apply in_or_app; left; exact Hx).
    set (ok := fun c => exists hd, In hd (flat_map Build.toc_headers nested) /\ c = header_loc b hd).
    destruct (tocs_segment (header_loc b) m ok nested (length (b_heap b))) as (Sg & R1 & _); [apply Forall_forall; intros hd Hx; exists hd; auto | exact Lm |].
    pose proof (cells_all (toc_cells (header_loc b) m) _ nested (length (b_heap b)) (fun a q _ => toc_cells_all (header_loc b) m a q)) as Fc.
    destruct (place (toc_cells (header_loc b) m) (length (b_heap b)) nested) as [its cs]. cbn [fst snd] in Sg, R1, Fc.
    set (h0 := b_heap b ++ map fst cs) in *. assert (X : extends (b_heap b) h0) by apply extends_app.
    assert (W2 : wf_heap h0). { apply (wf_segment _ _ _ (proj1 W) Sg). intros c (hd & _ & ->). pose proof (header_loc_lt b hd W). lia. }
    assert (H0 : homes (later from (length (b_heap b)) Made) (set_heap b h0)).
    { apply (homes_made N roots ok KTocItem (Some m) from b cs H (proj1 W) Sg Fc); [discriminate | | left; reflexivity].
      intros name c _ (hd & Hx & ->). destruct (parsed_header b hd from W Hn H (Hh hd Hx)) as (oh & Eh & Kh & Fh). exists oh. auto. }
    pose proof (wf_set b _ W W2 (keeps_extends _ _ X)) as Wb0. pose proof (extends_some _ _ _ _ X Eo) as Eo0. set (b0 := set_heap b h0) in *. set (from0 := later from (length (b_heap b)) Made) in *.
    assert (Fm0 : from0 m = Parsed) by (unfold from0; rewrite later_old by exact Lm; exact Fm).
    assert (L0 : length h0 = length (b_heap b) + length cs) by (unfold h0; rewrite app_length, map_length; reflexivity).
    assert (Wb1 : wf (set_heap b0 (put (b_heap b0) m "nested_entries" (Nodes its)))).
    { apply (wf_keeps_put _ _ o _ SNodes); [exact Wb0 | exact Eo0 | rewrite Ko; has_attribute | exact Logic.I |]. intros c Hc. specialize (R1 c Hc). unfold b0. cbn [set_heap b_heap]. lia. }
    assert (H1 : homes from0 (set_heap b0 (put (b_heap b0) m "nested_entries" (Nodes its)))).
    { apply (homes_put N roots _ _ m o); [exact H0 | exact W2 | exact Eo0 | apply changes_alters, (put_changes _ _ o); [exact Eo0 | intros; rewrite Ko; reflexivity] |].
      intros c Hc. left. cbn [refs] in Hc. specialize (R1 c Hc). split; [apply not_special_kind; rewrite Ko; discriminate |]. assert (Fx : from0 c = Made) by (unfold from0; apply later_new; lia). rewrite Fx. split; [| discriminate].
      destruct (nth_error cs (c - length (b_heap b))) as [d |] eqn:Ed; [| apply nth_error_None in Ed; lia]. rewrite Forall_forall in Fc. destruct (Fc d (nth_error_In _ _ Ed)) as [Kd Pd].
      exists (fst d). split; [unfold b0, h0; cbn [set_heap b_heap]; rewrite nth_error_app2 by lia; rewrite nth_error_map; change (obj * option nat)%type with cell; rewrite Ed; reflexivity |].
      intros h' oc' K' P'. unfold right_parent. cbn [new_obj o_kind]. rewrite Ko, Fm0. cbn [pointer String.eqb Ascii.eqb Bool.eqb]. repeat split; congruence. }
    change (put h0 m "nested_entries" (Nodes its)) with (put (b_heap b0) m "nested_entries" (Nodes its)) in E. set (b1 := set_heap b0 (put (b_heap b0) m "nested_entries" (Nodes its))) in *.
    change (put (b_heap b0) m "nested_entries" (Nodes its)) with (b_heap b1) in E.
    assert (L1 : length (b_heap b1) = length h0) by (unfold b1; cbn [set_heap b_heap]; apply put_length).
    unfold copy_each in E. destruct (copy_list (deepcopy n) m (map (header_loc b) plain) (b_heap b1)) as [[h2 ls] |] eqn:Ec; cbn [rbind] in E; [| discriminate].
    assert (Hpl : Forall (fun c => c < length (b_heap b1)) (map (header_loc b) plain)).
    { apply Forall_forall. intros c Hc. apply in_map_iff in Hc as (x & <- & _). pose proof (header_loc_lt b x W). lia. }
    destruct (wf_copies n (b_heap b1) m _ h2 ls (proj1 Wb1) ltac:(lia) Hpl Ec) as (W4 & Fr & _ & R2).
    pose proof (homes_copies N roots _ b1 h2 H1 (proj1 Wb1) Fr) as H2. pose proof (wf_set b1 _ Wb1 W4 (keeps_extends _ _ (proj1 Fr))) as Wb2. set (b2 := set_heap b1 h2) in *. set (from2 := later from0 (length (b_heap b1)) Copied) in *.
    assert (Em1 : exists o1, nth_error (b_heap b1) m = Some o1 /\ o_kind o1 = KToc). { unfold b1. cbn [set_heap b_heap]. rewrite (put_nth _ _ _ _ _ _ Eo0). eexists. split; [reflexivity |]. destruct (Nat.eq_dec m m); exact Ko. }
    destruct Em1 as (o1 & Eo1 & Ko1). pose proof (extends_some _ _ _ _ (proj1 Fr) Eo1) as Eo2. change h2 with (b_heap b2) in Eo2.
    assert (Fm2 : from2 m = Parsed) by (unfold from2; rewrite later_old by lia; exact Fm0). apply Ok_inv in E. subst b'. change (set_heap b (put h2 m "plain_entries" (Nodes ls))) with (set_heap b2 (put (b_heap b2) m "plain_entries" (Nodes ls))).
    split; [| split; [exact Hn |]].
    - apply (wf_keeps_put _ _ o1 _ SNodes); [exact Wb2 | exact Eo2 | rewrite Ko1; has_attribute | exact Logic.I |]. intros c Hc. exact (proj2 (proj1 (R2 c Hc))).
    - exists from2. apply (homes_put N roots _ _ m o1); [exact H2 | exact W4 | exact Eo2 | apply changes_alters, (put_changes _ _ o1); [exact Eo2 | intros; rewrite Ko1; reflexivity] |].
      intros c Hc. left. cbn [refs] in Hc. destruct (R2 c Hc) as [Rc (oc & Eoc & Pc)]. split; [apply not_special_kind; rewrite Ko1; discriminate |]. assert (Fx : from2 c = Copied) by (unfold from2; apply later_new; lia). rewrite Fx. split; [| discriminate].
      exists oc. split; [exact Eoc |]. intros h' oc' K' P'. unfold right_parent. cbn [new_obj o_kind]. rewrite Ko1, Fm2. cbn [pointer String.eqb Ascii.eqb Bool.eqb]. split; congruence.
  Qed.
  (* the links *)
  Lemma link_settled n b id t cc b' : settled b -> In (AHeader id t cc) done -> do_assign n done b (AHeader id t cc) = Ok b' -> settled b'.
  Proof.
    intros (W & Hn & from & H) Hd E. cbn [do_assign] in E. destruct (locate KMacroHeader id (b_nums b)) as [m |] eqn:Em; [| apply Ok_inv in E; subst b'; split; [exact W |]; split; [exact Hn |]; exists from; exact H].
    destruct (parsed_at _ _ _ _ _ W Hn H Em) as (o & Eo & Ko & Fm).
    destruct (parsed_header b t from W Hn H) as (oh & Eh & Kh & Fh); [apply in_flat_map; eexists; split; [exact Hd | left; reflexivity] |].
    assert (Wb1 : wf (set_heap b (put (b_heap b) m "header" (One (Some (header_loc b t)))))).
    { apply (wf_keeps_put _ _ o _ SOpt); [exact W | exact Eo | rewrite Ko; has_attribute | exact Logic.I | intros c [<- | []]; exact (nth_length _ _ _ Eh)]. }
    assert (H1 : homes from (set_heap b (put (b_heap b) m "header" (One (Some (header_loc b t)))))).
    { apply (homes_put N roots _ _ m o); [exact H | exact (proj1 W) | exact Eo | apply changes_alters, (put_changes _ _ o); [exact Eo | intros; rewrite Ko; reflexivity] |].
      intros c [<- | []]. left. split; [apply not_special_kind; rewrite Ko; discriminate |]. split; [| intros _ _; rewrite Ko; discriminate]. exists oh. split; [exact Eh |].
      intros h' oc' K' P'. unfold right_parent. cbn [new_obj o_kind]. rewrite Ko. cbn [pointer String.eqb Ascii.eqb Bool.eqb]. split; congruence. }
    set (b1 := set_heap b (put (b_heap b) m "header" (One (Some (header_loc b t))))) in *. change (put (b_heap b) m "header" (One (Some (header_loc b t)))) with (b_heap b1) in E.
    assert (Eo1 : nth_error (b_heap b1) m = Some (new_obj o "header" (One (Some (header_loc b t))))).
    { unfold b1. cbn [set_heap b_heap]. rewrite (put_nth _ _ _ _ _ _ Eo). destruct (Nat.eq_dec m m); [reflexivity | congruence]. }
    set (o1 := new_obj o "header" (One (Some (header_loc b t)))) in *. assert (Ko1 : o_kind o1 = KMacroHeader) by exact Ko.
    destruct (nodes_in (b_heap b1) m "content") as [| p0 ls0] eqn:Econ.
    2: { apply Ok_inv in E. subst b'. split; [exact Wb1 |]. split; [exact Hn |]. exists from. exact H1. }
    unfold copy_each in E. destruct (copy_list (deepcopy n) m (nodes_in (b_heap b1) (header_loc b t) "content") (b_heap b1)) as [[h2 ls] |] eqn:Ec; cbn [rbind] in E; [| discriminate].
    pose proof (nth_length _ _ _ Eo1) as Lm.
    destruct (wf_copies n (b_heap b1) m _ h2 ls (proj1 Wb1) Lm (nodes_in_lt _ _ _ (proj1 Wb1)) Ec) as (W4 & Fr & _ & R2).
    pose proof (homes_copies N roots _ b1 h2 H1 (proj1 Wb1) Fr) as H2. pose proof (wf_set b1 _ Wb1 W4 (keeps_extends _ _ (proj1 Fr))) as Wb2. set (b2 := set_heap b1 h2) in *. set (from2 := later from (length (b_heap b1)) Copied) in *.
    pose proof (extends_some _ _ _ _ (proj1 Fr) Eo1) as Eo2. change h2 with (b_heap b2) in Eo2.
    assert (Fm2 : from2 m = Parsed) by (unfold from2; rewrite later_old by lia; exact Fm). apply Ok_inv in E. subst b'. change (set_heap b (put h2 m "content" (Nodes ls))) with (set_heap b2 (put (b_heap b2) m "content" (Nodes ls))).
    split; [| split; [exact Hn |]].
    - apply (wf_keeps_put _ _ o1 _ SNodes); [exact Wb2 | exact Eo2 | rewrite Ko1; has_attribute | exact Logic.I |]. intros c Hc. exact (proj2 (proj1 (R2 c Hc))).
    - exists from2. apply (homes_put N roots _ _ m o1); [exact H2 | exact W4 | exact Eo2 | apply changes_alters, (put_changes _ _ o1); [exact Eo2 |] |].
      + intros f Ef. unfold nodes_in in Econ. rewrite Eo1, Ef in Econ. destruct (proper_get _ _ _ (wf_proper _ _ _ (proj1 Wb1) Eo1) Ef) as (s & Hs & Hof). rewrite Ko1 in *.
        assert (s = SNodes) as -> by (cbn in Hs; repeat match type of Hs with _ \/ _ => destruct Hs as [Hs | Hs]; [first [discriminate Hs | injection Hs as <-; reflexivity] |] end; contradiction).
        destruct f as [? | l0 | ? | [? |]]; cbn in Hof; try contradiction. subst l0. reflexivity.
      + intros c Hc. left. cbn [refs] in Hc. destruct (R2 c Hc) as [Rc (oc & Eoc & Pc)]. split; [apply not_special_kind; rewrite Ko1; discriminate |]. assert (Fx : from2 c = Copied) by (unfold from2; apply later_new; lia). rewrite Fx. split; [| discriminate].
        exists oc. split; [exact Eoc |]. intros h' oc' K' P'. unfold right_parent. cbn [new_obj o_kind]. rewrite Ko1, Fm2. cbn [pointer String.eqb Ascii.eqb Bool.eqb]. right. split; congruence.
  Qed.
End Steps.

(* ------------------------------------------------------------- the groups *)
Section Groups.
  Context (doc : list dnode * context) (done : list assign) (G : marks).
  Context (one : forall b c, In b (aside done) -> In c (aside done) -> share b c -> b = c) (single : once done)
    (apart : forall b i, In b (aside done) -> In i (map fst (dmarks b)) -> ~ In i (map fst (nmarks (fst doc)))) (tree_once : NoDup (map fst (nmarks (fst doc))))
    (G_once : NoDup (map fst G)) (doc_in : incl (nmarks (fst doc)) G) (done_right : Forall (right G) done) (keys_ok : keyed done).
  Let B := build_tree doc done.
  Let N := length (b_heap B).
  Let roots := map snd (b_parts B).
  #[local] Notation homes := (homes N roots).
  #[local] Notation an_item := (an_item roots).
  #[local] Notation state := (state doc done G).
  Lemma block_position at_ h name pos blk k : in_group name pos blk -> is_tree at_ h (node_tree blk) k -> says_position h k pos.
  Proof.
    intros (Hb & _ & Hp) T. destruct blk; cbn in Hb; try contradiction; cbn [node_tree node_attrs fst] in *; inversion T as [? ? ? ? ? ? o E K A C _ _]; subst; exists o; (split; [exact E |]); rewrite K, A; (split; [reflexivity | exact Hp]).
  Qed.
  Lemma item_home pre m id made items name b pos b' l from : state (Some m) pre b -> m < length (b_heap b) -> In (AGroup id made items) done -> In (id, LGroup name) G -> In pos (map fst items) ->
    homes from b -> a_group from (b_heap b) m name -> place_item id made name m b pos = (b', l) ->
    exists from', homes from' b' /\ a_group from' (b_heap b') m name /\ In (made, name, pos, l) (b_items b') /\ incl (b_items b) (b_items b').
  Proof.
    intros St Lm Hin Hg Hpos H Ag E. pose proof (d_wf _ _ _ _ _ _ St) as W.
    destruct (item_state doc done G one single apart tree_once G_once doc_in done_right keys_ok pre m id made items name b pos b' l St Lm Hin Hg Hpos E) as (S' & Kb & blk & Hblk & It).
    pose proof (group_named done G G_once done_right id made items name Hin Hg pos blk Hblk) as Gb.
    pose proof (loose_changes _ _ _ (loose_nothing _) Kb) as Ch. pose proof (changes_alters _ _ Ch) as Al. pose proof (d_parts _ _ _ _ _ _ S') as Ep'.
    pose proof (d_wf _ _ _ _ _ _ S') as W'. unfold place_item in E. destruct (find (same_item made name pos) (b_items b)) as [[[[made0 name0] pos0] k] |] eqn:Ef.
    - apply pair_equal_spec in E as [<- <-]. pose proof (find_snd _ _ _ Ef) as He. apply find_some in Ef as [_ Es]. cbn [same_item] in Es. apply andb_prop in Es as [Es E3]. apply andb_prop in Es as [E1 E2].
      apply Nat.eqb_eq in E1. destruct (str_eqb_spec name name0) as [-> |]; [| discriminate]. destruct (str_eqb_spec pos pos0) as [-> |]; [| discriminate]. subst made0.
      cbn [set_heap b_heap b_items b_parts] in *. set (h := put_parent (b_heap b) k m) in *. pose proof (o_items _ _ _ _ H _ He) as Ik. pose proof Ik as (Ak & Fk & _ & Gk & _). pose proof Ak as (ok & Eok & Kok & _).
      assert (Ag' : a_group from h m name0) by (apply (keep_group from from (b_heap b)); [exact Al | intros i Hi; reflexivity | exact Ag]).
      exists from. split; [| split; [exact Ag' |]; split; [exact He | apply incl_refl]].
      apply (homes_move N roots from from b h k (b_items b)); [exact H | exact (proj1 W) | exact Al | unfold h; rewrite put_parent_length; apply le_n | intros i Hi; reflexivity | | | | | apply incl_refl |].
      + intros i o o' Ei Ei'. unfold h in Ei'. rewrite (put_parent_nth _ _ _ _ _ Ei) in Ei'. destruct (Nat.eq_dec i k); (assert (Eo : o' = o' ) by reflexivity); injection Ei' as <-; split; first [reflexivity | intro; first [contradiction | reflexivity]].
      + intros o Eo. assert (o = ok) as -> by congruence. rewrite Kok. reflexivity.
      + intros i o name oc Hr Ec Hs _. assert (oc = ok) as -> by congruence. exact (item_only _ _ _ _ _ _ _ Fk Kok Hs Hr).
      + intros i o Hi Ei. apply nth_length in Ei. unfold h in Ei. rewrite put_parent_length in Ei. lia.
      + intros [[[m1 g1] pos1] l1] He1. pose proof (o_items _ _ _ _ H _ He1) as (A1 & F1 & P1 & G1 & (p & Hp & Hgp) & kb & B1 & R1 & Sp1 & p' & m' & g' & Hp' & Hin'). pose proof A1 as (o1 & Eo1 & Ko1 & _).
        assert (Par : forall i q, i <> k -> has_parent (b_heap b) i q -> has_parent h i q).
        { intros i q Hne (oi & Ei & Pi). unfold has_parent, h. rewrite (put_parent_nth _ _ _ _ _ Ei). destruct (Nat.eq_dec i k); [contradiction | eauto]. }
        split; [exact (changes_is_a _ _ _ _ Al A1) |]. split; [exact F1 |]. split; [exact (changes_has _ _ _ _ _ _ _ Al Eo1 Ko1 ltac:(discriminate) (fun e => eq_refl) P1) |].
        split; [exact (changes_has _ _ _ _ _ _ _ Al Eo1 Ko1 ltac:(discriminate) (fun e => eq_refl) G1) |]. split.
        * destruct (Nat.eq_dec l1 k) as [-> | Hne].
          -- exists m. pose proof (has_one _ _ _ _ _ G1 Gk) as Eg. assert (g1 = name0) as -> by congruence. split; [| exact Ag']. unfold has_parent, h. rewrite (put_parent_nth _ _ _ _ _ Eok). destruct (Nat.eq_dec k k); [| congruence]. eexists. split; reflexivity.
          -- exists p. split; [exact (Par _ _ Hne Hp) |]. apply (keep_group from from (b_heap b)); [exact Al | intros i Hi; reflexivity | exact Hgp].
        * exists kb. split; [exact (changes_has _ _ _ _ _ _ _ Al Eo1 Ko1 ltac:(discriminate) (fun e => eq_refl) B1) |]. split; [exact R1 |]. split; [exact (keep_position _ _ _ _ Al Sp1) |].
          exists p', m', g'. split; [| exact Hin']. apply Par; [| exact Hp']. intros ->. pose proof (o_roots _ _ _ _ H _ R1) as Lk. destruct (o_parsed _ _ _ _ H k (nth_length _ _ _ Eok)) as [_ Hx]. rewrite (Hx Lk) in Fk. discriminate.
    - remember (match find (fun e : part * option nat * nat => part_eqb (PBlock id made pos) (fst (fst e))) (b_parts b) with Some (_, _, k) => k | None => 0 end) as k eqn:Edef in E. apply pair_equal_spec in E as [<- <-]. cbn [b_heap b_items b_parts] in *. set (o := mkObj KBlockGroupItem (Some m) _ _ _) in *.
      set (h := put_parent (b_heap b) k (length (b_heap b)) ++ [o]) in *. set (items' := b_items b ++ [(made, name, pos, length (b_heap b))]) in *.
      assert (Lh : length h = S (length (b_heap b))) by (unfold h; rewrite app_length, put_parent_length; cbn; lia).
      assert (Eo : nth_error h (length (b_heap b)) = Some o) by (unfold h; rewrite nth_error_app2; rewrite put_parent_length; [rewrite Nat.sub_diag; reflexivity | lia]).
      assert (At : forall i oi, nth_error (b_heap b) i = Some oi -> nth_error h i = Some (if Nat.eq_dec i k then mkObj (o_kind oi) (Some (length (b_heap b))) (o_args oi) (o_ctx oi) (o_fields oi) else oi)).
      { intros i oi Ei. unfold h. rewrite nth_error_app1 by (rewrite put_parent_length; exact (nth_length _ _ _ Ei)). exact (put_parent_nth _ _ _ _ _ Ei). }
      (* the block *)
      destruct It as (_ & _ & _ & k0 & Hk0 & Tk). assert (k0 = k) as ->. { destruct Hk0 as (o0 & E0 & F0). assert (o0 = o) as -> by congruence. cbn in F0. congruence. } clear Hk0.
      pose proof (block_position _ _ _ _ _ _ Gb Tk) as Sk. pose proof Sk as (ok' & Eok' & Bk & _).
      assert (Hroot : In k roots).
      { rewrite Edef. destruct (find (fun e0 => part_eqb (PBlock id made pos) (fst (fst e0))) (b_parts b)) as [[[q j] kk] |] eqn:Efp.
        - apply find_snd in Efp. rewrite Ep' in Efp. exact (in_map snd _ _ Efp).
        - exfalso. destruct (o_first _ _ _ _ H) as (oz & Ez & Kz & _). rewrite Edef in Eok'. rewrite (At _ _ Ez) in Eok'. destruct (Nat.eq_dec 0 k); injection Eok' as <-; cbn [o_kind] in Bk; rewrite Kz in Bk; discriminate. }
      assert (LkN : k < N) by exact (o_roots _ _ _ _ H _ Hroot). assert (Lk : k < length (b_heap b)) by (pose proof (o_top _ _ _ _ H); lia).
      destruct (nth_some (b_heap b) k Lk) as [ok Eok]. assert (Fk : from k = Parsed) by (apply (o_parsed _ _ _ _ H); assumption).
      set (from' := later from (length (b_heap b)) Made). assert (Ag1 : agree (b_heap b) from from') by (intros i Hi; apply later_old; exact Hi).
      assert (Ag' : a_group from' h m name) by (apply (keep_group from from' (b_heap b)); [exact Al | exact Ag1 | exact Ag]).
      assert (Hnew : In (made, name, pos, length (b_heap b)) items') by (apply in_or_app; right; left; reflexivity).
      assert (Pk : has_parent h k (Some (length (b_heap b)))). { unfold has_parent. rewrite (At _ _ Eok). destruct (Nat.eq_dec k k); [| congruence]. eexists. split; reflexivity. }
      exists from'. split; [| split; [exact Ag' |]; split; [exact Hnew | apply incl_appl, incl_refl]].
      apply (homes_move N roots from from' b h k items'); [exact H | exact (proj1 W) | exact Al | lia | exact Ag1 | | | | | apply incl_appl, incl_refl |].
      + intros i oi o' Ei Ei'. rewrite (At _ _ Ei) in Ei'. destruct (Nat.eq_dec i k); injection Ei' as <-; split; first [reflexivity | intro; first [contradiction | reflexivity]].
      + intros o1 Eo1. rewrite (At _ _ Eo1) in Eok'. destruct (Nat.eq_dec k k); [| congruence]. injection Eok' as <-. exact Bk.
      + intros i oi nm oc Hr Ec Hs Hro. exact (root_only roots from (b_heap b) i oi nm k oc Fk Hroot Hs Hro Hr).
      + intros i oi Hi Ei. pose proof (nth_length _ _ _ Ei) as Hli. assert (i = length (b_heap b)) as -> by lia. assert (oi = o) as -> by congruence. split; [apply later_new; lia |]. split; [reflexivity |]. eauto.
      + intros [[[m1 g1] pos1] l1] He1. apply in_app_or in He1 as [He1 | [He1 | []]].
        * pose proof (o_items _ _ _ _ H _ He1) as (A1 & F1 & P1 & G1 & (p & Hp & Hgp) & kb & B1 & R1 & Sp1 & p' & m' & g' & Hp' & Hin'). pose proof A1 as (o1 & Eo1 & Ko1 & _). pose proof (keep_position _ _ _ _ Al Sp1) as Sp1'.
          assert (Par : forall i q, i <> k -> has_parent (b_heap b) i q -> has_parent h i q).
          { intros i q Hne (oi & Ei & Pi). unfold has_parent. rewrite (At _ _ Ei). destruct (Nat.eq_dec i k); [contradiction | eauto]. }
          split; [exact (changes_is_a _ _ _ _ Al A1) |]. split; [rewrite (Ag1 _ (nth_length _ _ _ Eo1)); exact F1 |]. split; [exact (changes_has _ _ _ _ _ _ _ Al Eo1 Ko1 ltac:(discriminate) (fun e => eq_refl) P1) |].
          split; [exact (changes_has _ _ _ _ _ _ _ Al Eo1 Ko1 ltac:(discriminate) (fun e => eq_refl) G1) |]. split.
          -- exists p. split; [apply Par; [| exact Hp] | apply (keep_group from from' (b_heap b)); [exact Al | exact Ag1 | exact Hgp]]. intros ->. rewrite Fk in F1. discriminate.
          -- exists kb. split; [exact (changes_has _ _ _ _ _ _ _ Al Eo1 Ko1 ltac:(discriminate) (fun e => eq_refl) B1) |]. split; [exact R1 |]. split; [exact Sp1' |]. destruct (Nat.eq_dec kb k) as [-> | Hne].
             ++ exists (length (b_heap b)), made, name. split; [exact Pk |]. destruct Sp1' as (oa & Ea & _ & Qa). destruct Sk as (ob & Eb & _ & Qb). assert (ob = oa) as -> by congruence. assert (pos1 = pos) as -> by congruence. exact Hnew.
             ++ exists p', m', g'. split; [exact (Par _ _ Hne Hp') | apply in_or_app; left; exact Hin'].
        * assert (m1 = made) as -> by congruence. assert (g1 = name) as -> by congruence. assert (pos1 = pos) as -> by congruence. assert (l1 = length (b_heap b)) as -> by congruence.
          split; [exists o; auto |]. split; [apply later_new; lia |]. split; [exists o; auto |]. split; [exists o; auto |]. split; [exists m; split; [exists o; auto | exact Ag'] |].
          exists k. split; [exists o; auto |]. split; [exact Hroot |]. split; [exact Sk |]. exists (length (b_heap b)), made, name. auto.
  Qed.
  Lemma items_home pre m id made items name : In (AGroup id made items) done -> In (id, LGroup name) G -> forall l b b' d from, state (Some m) pre b -> m < length (b_heap b) -> incl l (map fst items) ->
    homes from b -> a_group from (b_heap b) m name -> place_items id made name m b l = (b', d) ->
    exists from', homes from' b' /\ a_group from' (b_heap b') m name /\ incl (b_items b) (b_items b') /\ forall e, In e d -> In (made, name, fst e, snd e) (b_items b').
  Proof.
    intros Hin Hg. induction l as [| pos r IH]; intros b b' d from St Lm Hl H Ag E; cbn [place_items] in E.
    - apply pair_equal_spec in E as [<- <-]. exists from. split; [exact H |]. split; [exact Ag |]. split; [apply incl_refl | intros e []].
    - destruct (place_item id made name m b pos) as [b1 i] eqn:E1. destruct (place_items id made name m b1 r) as [b2 rest] eqn:E2. apply pair_equal_spec in E as [<- <-].
      destruct (item_state doc done G one single apart tree_once G_once doc_in done_right keys_ok _ _ _ _ _ _ _ _ _ _ St Lm Hin Hg (Hl _ (or_introl eq_refl)) E1) as (S1 & _).
      destruct (place_item_wf _ _ _ _ _ _ _ _ (d_wf _ _ _ _ _ _ St) Lm E1) as (_ & Kh & _ & _). pose proof (proj1 Kh) as Lh.
      destruct (item_home _ _ _ _ _ _ _ _ _ _ _ St Lm Hin Hg (Hl _ (or_introl eq_refl)) H Ag E1) as (from1 & H1 & Ag1 & I1 & J1).
      destruct (IH b1 b2 rest from1 S1 ltac:(lia) (fun x Hx => Hl x (or_intror Hx)) H1 Ag1 E2) as (from2 & H2 & Ag2 & J2 & R2).
      exists from2. split; [exact H2 |]. split; [exact Ag2 |]. split; [exact (incl_tran J1 J2) |]. intros e [<- | He]; [exact (J2 _ I1) | exact (R2 e He)].
  Qed.
  Lemma group_settled n pre b id made items b' : state None pre b -> settled doc done b -> In (AGroup id made items) done -> do_assign n done b (AGroup id made items) = Ok b' ->
    exists from, homes from b'.
  Proof.
    intros St (W & Hn & from & H) Hin E. cbn [do_assign] in E. destruct (locate KBlockGroup id (b_nums b)) as [m |] eqn:Em; [| apply Ok_inv in E; subst b'; exists from; exact H].
    destruct (parsed_at doc done _ _ _ _ _ W Hn H Em) as (o & Eo & Ko & Fm). pose proof (nth_length _ _ _ Eo) as Lm. pose proof (at_there doc done G _ _ _ _ _ _ St Em) as Hm.
    (* its name *)
    destruct (tree_objects doc done G one single apart tree_once G_once doc_in done_right) as (_ & O & _). unfold there in Hm. destruct (O _ _ _ (locate_nth _ _ _ _ Hm)) as (w & Gw & Kw & Sw). destruct w as [| | | | | name]; try discriminate Kw. cbn [says] in Sw. fold B in Sw.
    assert (Hnm : has (b_heap b) m "name" (Plain (VStr name))).
    { destruct Sw as (o0 & E0 & F0). destruct (d_changes _ _ _ _ _ _ St m o0 E0) as (o1 & E1 & K1 & _ & _ & H1). exists o1. split; [exact E1 |]. apply H1; [exact F0 |]. assert (o1 = o) as -> by congruence. rewrite <- K1, Ko. reflexivity. }
    assert (En : name_of (b_heap b) m = name) by (destruct Hnm as (o1 & E1 & F1); unfold name_of; rewrite E1, F1; reflexivity). rewrite En in E.
    assert (Ag : a_group from (b_heap b) m name) by (destruct Hnm as (o1 & E1 & F1); assert (o1 = o) as -> by congruence; exists o; auto).
    destruct (place_items id made name m b (map fst items)) as [b1 d] eqn:E1. apply Ok_inv in E. subst b'.
    destruct (place_items_wf _ _ _ _ _ _ _ _ W Lm E1) as (W1 & _ & _ & _).
    destruct (items_home _ _ _ _ _ _ Hin Gw _ _ _ _ _ (state_less doc done G (Some m) _ _ St) Lm (incl_refl _) H Ag E1) as (from1 & H1 & Ag1 & _ & R1).
    destruct Ag1 as (o1 & Eo1 & F1 & K1 & N1). exists from1.
    apply (homes_put N roots _ _ m o1); [exact H1 | exact (proj1 W1) | exact Eo1 | apply changes_alters, (put_changes _ _ o1); [exact Eo1 | intros; rewrite K1; reflexivity] |].
    intros c Hc. right. cbn [refs] in Hc. apply in_map_iff in Hc as (e & <- & He). split; [right; split; [exact F1 |]; split; [exact K1 | discriminate] |]. split; [exact K1 |]. split; [discriminate |].
    exists made, name, (fst e). split; [exact N1 | exact (R1 e He)].
  Qed.
  Lemma step_settled n pre b a b' : state None pre b -> incl pre done -> settled doc done b -> In a done -> do_assign n done b a = Ok b' -> settled doc done b'.
  Proof.
    intros St Hp S Hin E. destruct a as [id f | id l | id s | id nested plain | id t cc | id made items].
    - exact (note_settled doc done n b id f b' S E).
    - exact (notes_settled doc done n b id l b' S E).
    - exact (id_settled doc done n b id s b' S E).
    - exact (toc_settled doc done n b id nested plain b' S Hin E).
    - exact (link_settled doc done n b id t cc b' S Hin E).
    - pose proof (step doc done G one single apart tree_once G_once doc_in done_right keys_ok n pre b _ b' St Hp Hin E) as St'. split; [exact (d_wf _ _ _ _ _ _ St') |]. split; [exact (d_nums _ _ _ _ _ _ St') |].
      exact (group_settled n pre b id made items b' St S Hin E).
  Qed.
  Lemma steps_settled n l : forall pre b b', state None pre b -> settled doc done b -> pre ++ l = done -> do_assigns n done b l = Ok b' -> settled doc done b'.
  Proof.
    induction l as [| a l IH]; intros pre b b' St S Hd E; cbn [do_assigns] in E.
    - assert (b' = b) as -> by congruence. exact S.
    - destruct (do_assign n done b a) as [b1 |] eqn:E1; cbn [rbind] in E; [| discriminate].
      assert (Hp : incl pre done) by (rewrite <- Hd; apply incl_appl, incl_refl). assert (Hin : In a done) by (rewrite <- Hd; apply in_or_app; right; left; reflexivity).
      apply (IH (pre ++ [a]) b1 b'); [exact (step doc done G one single apart tree_once G_once doc_in done_right keys_ok n pre b a b1 St Hp Hin E1) | exact (step_settled n pre b a b1 St Hp S Hin E1) | rewrite <- app_assoc; exact Hd | exact E].
  Qed.
  Lemma item_field (h : heap) l o name f c k : wf_heap h -> nth_error h l = Some o -> o_kind o = KBlockGroupItem -> has h l "block" (One (Some k)) -> In (name, f) (o_fields o) -> In c (refs f) -> c = k.
  Proof.
    intros W E K (o' & E' & F') Hin Hc. assert (o' = o) as -> by congruence. pose proof (wf_proper _ _ _ W E) as P. unfold proper in P. rewrite K in P.
    change (attributes KBlockGroupItem) with [("group", SPlain); ("position", SPlain); ("block", SOne)]%string in P.
    destruct (o_fields o) as [| [n1 f1] [| [n2 f2] [| [n3 f3] [| x r]]]]; repeat match goal with H : Forall2 _ _ _ |- _ => inversion H; clear H; subst end.
    cbn [fst snd] in *. intuition subst. cbn [fget String.eqb Ascii.eqb Bool.eqb] in F'. cbn [In] in Hin.
    destruct Hin as [Hin | [Hin | [Hin | []]]]; injection Hin as <- <-.
    - destruct f1 as [? | ? | ? | [? |]]; cbn in *; try contradiction.
    - destruct f2 as [? | ? | ? | [? |]]; cbn in *; try contradiction.
    - assert (f3 = One (Some k)) as -> by congruence. cbn in Hc. destruct Hc as [<- | []]. reflexivity.
  Qed.
  Theorem parents_right n h : heap_of n doc done = Ok h ->
    exists from : nat -> provenance, (exists o, nth_error h 0 = Some o /\ o_kind o = KDocument /\ o_parent o = None /\ from 0 = Parsed) /\
      forall l o name f c, nth_error h l = Some o -> In (name, f) (o_fields o) -> In c (refs f) -> exists oc, nth_error h c = Some oc /\ right_parent from h l o name c oc.
  Proof.
    intro E. unfold heap_of in E. destruct (do_assigns n done (build_tree doc done) done) as [b |] eqn:E1; cbn [rbind] in E; [| discriminate]. apply Ok_inv in E. subst h.
    destruct (steps_settled n done [] B b (state_first doc done G one single apart tree_once G_once doc_in done_right) (first_settled doc done) eq_refl E1) as (W & _ & from & H).
    exists from. split.
    - destruct (o_first _ _ _ _ H) as (o & Eo & Ko & Po). exists o. split; [exact Eo |]. split; [exact Ko |]. split; [exact Po |]. apply (o_parsed _ _ _ _ H); [exact (nth_length _ _ _ Eo) | exact (proj1 (o_top _ _ _ _ H))].
    - intros l o name f c El Hin Hc. destruct (o_rule _ _ _ _ H _ _ _ _ _ El Hin Hc) as [[[Fl Kl] | (Fl & Kl & Hne)] | (oc & Ec & Hr & _)]; [| | exists oc; auto].
      + destruct (o_made _ _ _ _ H _ _ El Fl Kl) as (m & g & pos & Hi). destruct (o_items _ _ _ _ H _ Hi) as (A1 & _ & P1 & _ & _ & k & Bk & Rk & _ & p' & m' & g' & Hp' & Hi').
        assert (c = k) as -> by exact (item_field _ _ _ _ _ _ _ (proj1 W) El Kl Bk Hin Hc). destruct Hp' as (ok & Ek & Pk). exists ok. split; [exact Ek |].
        destruct (o_items _ _ _ _ H _ Hi') as (A2 & F2 & P2 & _). destruct A1 as (o1 & Eo1 & K1 & Ar1 & X1). assert (o1 = o) as -> by congruence. destruct A2 as (op & Eop & K2 & Ar2 & X2).
        unfold right_parent. rewrite Kl, Fl. cbn [pointer]. split; [apply (o_parsed _ _ _ _ H); [exact (nth_length _ _ _ Ek) | exact (o_roots _ _ _ _ H _ Rk)] |].
        exists p', op. split; [exact Pk |]. split; [exact Eop |]. split; [exact F2 |]. unfold face. rewrite K2, Kl, Ar1, Ar2, X1, X2. f_equal.
        destruct P1 as (oa & Ea & Fa). assert (oa = o) as -> by congruence. destruct P2 as (ob & Eb & Fb). assert (ob = op) as -> by congruence. unfold custom_fields. rewrite K2, Kl. cbn. rewrite Fa, Fb. reflexivity.
      + destruct (o_groups _ _ _ _ H _ _ _ _ _ El Fl Kl Hne Hin Hc) as (m & g & pos & Hg & Hi). destruct (o_items _ _ _ _ H _ Hi) as (A1 & F1 & _ & _ & (p & (oc & Ec & Pc) & op & Ep & Fp & Kp & Np) & _).
        exists oc. split; [exact Ec |]. unfold right_parent. rewrite Kl, Fl. cbn [pointer]. destruct (String.eqb_spec name "labels"); [contradiction |].
        destruct A1 as (o1 & Eo1 & K1 & _). assert (o1 = oc) as -> by congruence. split; [exact K1 |]. split; [exact F1 |]. exists p, op. repeat (split; [assumption |]). unfold custom_fields. rewrite Kp, Kl. cbn. rewrite Hg, Np. reflexivity.
  Qed.
End Groups.
