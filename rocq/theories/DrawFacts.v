(* DrawFacts.v -- from visits of objects to what is drawn for the nodes *)
From Verif Require Import NumDoc Build BuildFacts SpecVisitor PropertiesVisitor PropertiesVisit SpecParents SpecObjects ObjFacts SpecDrawn.
From Coq Require Import List Lia PeanoNat.
Import ListNotations.
#[local] Open Scope list_scope.
#[local] Notation length := List.length.

Lemma Forall2_comp' {T U V} (P : T -> U -> Prop) (Q : U -> V -> Prop) (R : T -> V -> Prop) : forall l m r,
  (forall a b c, In b m -> P a b -> Q b c -> R a c) -> Forall2 P l m -> Forall2 Q m r -> Forall2 R l r.
Proof.
  induction l as [| a l IH]; intros m r H F1 F2; inversion F1; subst; inversion F2; subst; constructor.
  - eapply H; [left; reflexivity | eassumption | eassumption].
  - eapply IH; [| eassumption | eassumption]. intros a0 b0 c0 Hb. apply H. right. exact Hb.
Qed.

(* the attributes of a node that its children and the templates depend on *)
Definition needed (k : kind) : list string :=
  custom_names k ++ match k with KList => ["main_node"%string] | KIncludeMau => ["content"%string] | _ => [] end.
Inductive full : tree -> Prop :=
| Full k a c num fs : (forall nm, In nm (needed k) -> tree_attr nm (Tree k a c num fs) <> None) ->
    Forall (fun nf : string * attr => pointer k (fst nf) = false /\ full_attr (snd nf)) fs -> full (Tree k a c num fs)
with full_attr : attr -> Prop :=
| full_value v : full_attr (TValue v)
| full_nodes l : Forall full l -> full_attr (TNodes l)
| full_named l : Forall (fun kt : str * tree => full (snd kt)) l -> full_attr (TNamed l)
| full_none : full_attr (TOne None)
| full_one t : full t -> full_attr (TOne (Some t)).

Ltac is_full := apply Full; [intros nm Hnm; cbn in Hnm; repeat (destruct Hnm as [<- | Hnm]; [cbn; discriminate |]); destruct Hnm
  | repeat (apply Forall_cons; [split; [reflexivity |] |]); try apply Forall_nil; cbn [snd]; try apply full_value].
Lemma inode_full : forall i, full (inode_tree i).
Proof.
  fix IH 1. assert (IHl : forall l, Forall full (map inode_tree l)) by (fix IHl 1; intros [| a l]; cbn [map]; constructor; [apply IH | apply IHl]).
  intros [v c | v c | v c | s l c | name a c | cl l c | t l c | u alt w hh c | id t l c | id name c | v c | v c]; cbn [inode_tree];
    try (is_full; apply full_nodes; apply IHl).
  destruct l as [| x l]; is_full. apply full_nodes. apply (IHl (x :: l)).
Qed.
Lemma inodes_full l : Forall full (map inode_tree l).
Proof. induction l; constructor; [apply inode_full | assumption]. Qed.
Lemma labels_full l : full_attr (snd (labels_attr l)).
Proof.
  apply full_named. induction l as [| [k v] l IH]; constructor; [| exact IH]. cbn [snd fst]. is_full. apply full_nodes, inodes_full.
Qed.
Lemma header_full hd : full (header_tree hd).
Proof. unfold header_tree. is_full; [apply full_nodes, inodes_full | apply labels_full]. Qed.
Lemma line_full l : full (line_tree l).
Proof. is_full; [apply full_nodes, inodes_full | apply (labels_full [])]. Qed.
Lemma map_full {A} (g : A -> tree) l : (forall a, full (g a)) -> Forall full (map g l).
Proof. intro H. induction l; constructor; auto. Qed.
Lemma node_full : forall d, full (node_tree d).
Proof.
  fix IH 1. assert (IHl : forall l, Forall full (map node_tree l)) by (fix IHl 1; intros [| a l]; cbn [map]; constructor; [apply IH | apply IHl]).
  assert (R : forall ls, Forall full (map raw_line_tree ls)) by (intro ls; apply map_full; intro; is_full).
  assert (S : forall ls, Forall full (map source_line_tree ls)).
  { intro ls; apply map_full; intro sl; unfold source_line_tree; destruct (sl_marker sl) as [m |]; is_full; cbn [option_map]; [apply full_one; is_full | apply full_none]. }
  assert (P : forall ls, Forall full (map line_tree ls)) by (intro ls; apply map_full, line_full).
  intros d; destruct d; cbn [node_tree app]; try apply header_full;
  is_full; try apply labels_full; apply full_nodes; first [apply IHl | apply R | apply S | apply P | apply inodes_full].
Qed.
Lemma document_full d : full (document_tree d).
Proof. unfold document_tree. is_full. apply full_nodes, map_full, node_full. Qed.
Lemma contents_full t : full t -> Forall full (contents t).
Proof.
  intro H. inversion H as [k a c num fs _ F]; subst. unfold contents. destruct (find _ fs) as [[nm v] |] eqn:E; [| constructor].
  apply find_some in E as [E _]. rewrite Forall_forall in F. destruct (F _ E) as [_ G]. cbn [snd] in G. destruct v; try constructor. inversion G; assumption.
Qed.
Lemma footnote_full f : full (footnote_tree f).
Proof. unfold footnote_tree. is_full. apply full_nodes, contents_full, node_full. Qed.

(* an object looks like a node *)
Definition sees (o : obj) (t : tree) : Prop := o_kind o = tree_kind t /\ o_args o = tree_args t /\ o_ctx o = tree_ctx t /\ facet_of o = tree_facet t.
Lemma attr_field at_ h t l o name v : is_tree at_ h t l -> nth_error h l = Some o -> tree_attr name t = Some v -> exists f, fget name (o_fields o) = Some f /\ is_attr at_ h v f.
Proof.
  intros T E H. inversion T as [k a c num fs l' o' E' _ _ _ _ F]; subst. assert (o' = o) by congruence. subst o'.
  cbn [tree_attr] in H. destruct (find _ fs) as [[nm w] |] eqn:Ef; [| discriminate]. cbn in H. assert (w = v) by congruence. subst w.
  apply find_some in Ef as [Hin En]. cbn in En. apply String.eqb_eq in En. subst nm. rewrite Forall_forall in F. exact (F _ Hin).
Qed.
Lemma tree_sees at_ h t l o : is_tree at_ h t l -> full t -> nth_error h l = Some o -> sees o t.
Proof.
  intros T Fu E. pose proof T as T0. inversion T as [k a c num fs l' o' E' Hk Ha Hc _ F]; subst. assert (o' = o) by congruence. subst o'.
  split; [reflexivity |]. split; [reflexivity |]. split; [reflexivity |]. unfold facet_of, tree_facet. cbn [tree_kind tree_args]. f_equal.
  unfold custom_fields. inversion Fu as [k' a' c' num' fs' N _]; subst.
  assert (G : forall nm, In nm (custom_names (o_kind o)) -> In nm (needed (o_kind o))) by (intros nm Hn; apply in_or_app; left; exact Hn).
  revert G. generalize (custom_names (o_kind o)). induction l0 as [| nm l0 IH]; intro G; [reflexivity |]. cbn [flat_map]. rewrite IH by (intros x Hx; apply G; right; exact Hx).
  f_equal. specialize (N nm (G nm (or_introl eq_refl))). destruct (tree_attr nm _) as [v |] eqn:Ev; [| congruence].
  destruct (attr_field _ _ _ _ _ _ _ T0 E Ev) as (f & Ef & Hf). rewrite Ef. inversion Hf; reflexivity.
Qed.
Lemma some_sees o : exists t, sees o t.
Proof.
  exists (Tree (o_kind o) (o_args o) (o_ctx o) None (flat_map (fun nm => match fget nm (o_fields o) with Some (Plain v) => [(nm, TValue v)] | _ => [] end) (custom_names (o_kind o)))).
  split; [reflexivity |]. split; [reflexivity |]. split; [reflexivity |]. unfold facet_of, tree_facet. cbn [tree_kind tree_args]. f_equal. unfold custom_fields.
  destruct (o_kind o); try reflexivity; cbn [custom_names flat_map app];
    match goal with |- context [fget ?n ?l] => destruct (fget n l) as [[v | | |] |] end; cbn [app tree_attr find fst snd option_map String.eqb Ascii.eqb Bool.eqb]; try reflexivity; destruct v; reflexivity.
Qed.
Lemma face_sees o o' t : face o' = face o -> sees o t -> sees o' t.
Proof. unfold face. intros H (A & B & C & D). assert (o_kind o' = o_kind o /\ o_args o' = o_args o /\ o_ctx o' = o_ctx o /\ custom_fields o' = custom_fields o) as (E1 & E2 & E3 & E4) by (repeat split; congruence).
  unfold sees. rewrite E1, E2, E3. repeat split; try assumption. rewrite <- D. unfold facet_of. rewrite E1, E2, E4. reflexivity. Qed.

Section Draw.
  Context (hk : hooks) (kw : kwargs) (done : list assign) (h : heap) (at_ : kind -> nat -> nat -> Prop) (from : nat -> provenance).
  Context (right : forall l ob name f c, nth_error h l = Some ob -> In (name, f) (o_fields ob) -> In c (refs f) -> exists oc, nth_error h c = Some oc /\ right_parent from h l ob name c oc)
    (is_closed : closed h) (is_proper : proper_heap h) (done_right : forall k i l, at_ k i l -> completed done at_ h k i l).

  Definition looks (p : option nat) (pf : option tree) : Prop :=
    match p, pf with None, None => True | Some p, Some t => exists op, nth_error h p = Some op /\ sees op t | _, _ => False end.
  Lemma some_looks l o : nth_error h l = Some o -> exists pf, looks (o_parent o) pf.
  Proof.
    intro E. destruct (o_parent o) as [p |] eqn:Ep; [| exists None; exact I]. destruct (nth_some h p (proj1 (is_closed _ _ E) _ Ep)) as [op Eo].
    destruct (some_sees op) as [t Ht]. exists (Some t). exists op. split; assumption.
  Qed.
  Lemma looks_facet o pf : looks (o_parent o) pf -> option_map facet_of (parent_of h o) = option_map tree_facet pf.
  Proof. unfold parent_of. destruct (o_parent o) as [p |], pf as [t |]; cbn [looks]; try contradiction; [| reflexivity]. intros (op & -> & S). cbn [option_map]. f_equal. apply S. Qed.

  Lemma right_look b l o name c oc t pf : nth_error h l = Some o -> is_tree b h t l -> full t -> looks (o_parent o) pf -> pointer (o_kind o) name = false ->
    nth_error h c = Some oc -> right_parent from h l o name c oc -> exists pf', child_look (from l) pf t name (from c) pf' /\ looks (o_parent oc) pf'.
  Proof.
    intros E T Fu L Hp Ec R. pose proof (tree_sees _ _ _ _ _ T Fu E) as S. pose proof S as (Sk & _ & _ & Sf).
    assert (Lt : looks (Some l) (Some t)) by (exists o; split; assumption).
    unfold right_parent in R. rewrite Hp in R. unfold child_look.
    destruct (from l).
    - destruct (String.eqb name "labels"); [destruct R as (_ & -> & ->); exists (Some t); auto |]. rewrite <- Sk. destruct (o_kind o) eqn:K;
        try (destruct R as [-> ->]; exists (Some t); split; [split; reflexivity | exact Lt]);
        try (destruct R as [-> ->]; exists None; split; [split; reflexivity | exact I]);
        try (destruct R as [-> ->]; exists pf; split; [split; reflexivity | exact L]).
      + destruct R as [[-> ->] | [-> ->]]; [exists None; split; [left; split; reflexivity | exact I] | exists (Some t); split; [right; split; reflexivity | exact Lt]].
      + destruct R as (_ & -> & ->). exists (Some t). split; [split; reflexivity | exact Lt].
      + destruct (String.eqb name "plain_entries"); [destruct R as [-> ->] | destruct R as (_ & -> & ->)]; (exists (Some t); split; [split; reflexivity | exact Lt]).
      + destruct R as (_ & -> & p & op & -> & Eop & _ & Kp & Cp).
        assert (Nm : exists v, tree_attr "name" t = Some v).
        { inversion Fu as [k a cx num fs N _]; subst. cbn [tree_kind] in Sk. subst k. specialize (N "name"%string (or_introl eq_refl)). destruct (tree_attr "name" _); [eauto | congruence]. }
        destruct Nm as [v Ev]. exists (Some (Tree KBlockGroup (o_args op) (o_ctx op) None [("name"%string, v)])).
        split; [split; [reflexivity |]; exists (o_args op), (o_ctx op), v; auto |]. exists op. split; [exact Eop |].
        split; [exact Kp |]. split; [reflexivity |]. split; [reflexivity |]. unfold facet_of. rewrite Cp, Kp. unfold tree_facet. cbn [tree_kind tree_args]. f_equal.
        assert (C := f_equal fc_custom Sf). cbn [facet_of tree_facet fc_custom] in C. rewrite C, <- Sk. cbn [custom_names flat_map]. rewrite Ev. cbn [tree_attr find fst snd option_map String.eqb Ascii.eqb Bool.eqb]. reflexivity.
      + destruct R as (-> & dd & od & ls & -> & Ed & _ & Kd & Pd & Ad & Fd & Fo & (a & z & oa & oz & Ha & (before & Hz) & Ea & Ez & Cx)).
        assert (Nm : exists v, tree_attr "content" t = Some v).
        { inversion Fu as [k ag cx num fs N _]; subst. cbn [tree_kind] in Sk. subst k. specialize (N "content"%string (or_introl eq_refl)). destruct (tree_attr "content" _); [eauto | congruence]. }
        destruct Nm as [v Ev]. destruct (attr_field _ _ _ _ _ _ _ T E Ev) as (f & Ef & Hf). assert (f = Nodes ls) by congruence. subst f. inversion Hf as [| ts ls' F2 Et El | | |]. subst v. clear El ls' Hf Hp.
        assert (Ct : contents t = ts).
        { destruct t as [k ag cx num fs]. unfold contents. cbn [tree_attr] in Ev. destruct (find _ fs) as [[nm w] |]; [| discriminate]. cbn in Ev. assert (w = TNodes ts) as -> by congruence. reflexivity. }
        destruct ls as [| a' ls]; [discriminate Ha |]. assert (a' = a) by (cbn [hd_error] in Ha; congruence). subst a'. destruct ts as [| first ts]; [inversion F2 |].
        assert (Ta : is_tree b h first a) by (inversion F2; assumption).
        assert (exists b' final, first :: ts = b' ++ [final] /\ is_tree b h final z) as (b' & final & Eb & Tz).
        { rewrite Hz in F2. apply Forall2_app_inv_r in F2 as (l1 & l2 & _ & F4 & ->). inversion F4 as [| x ? l3 ? Tx F5]; subst. inversion F5; subst. exists l1, x. split; [reflexivity | exact Tx]. }
        exists (Some (Tree KDocument empty_args (merge_contexts (tree_ctx first) (tree_ctx final)) None [])).
        split; [split; [reflexivity |]; exists first, final; rewrite Ct; split; [reflexivity |]; split; [exists b'; exact Eb | reflexivity] |].
        exists od. split; [exact Ed |]. split; [exact Kd |]. split; [exact Ad |]. split.
        * cbn [tree_ctx]. rewrite Cx. f_equal.
          -- inversion Ta; subst. cbn [tree_ctx]. congruence.
          -- inversion Tz; subst. cbn [tree_ctx]. congruence.
        * unfold facet_of, tree_facet, custom_fields. rewrite Kd, Ad. reflexivity.
      + destruct R as [-> ->].
        assert (Nm : exists v, tree_attr "main_node" t = Some v).
        { inversion Fu as [k ag cx num fs N _]; subst. cbn [tree_kind] in Sk. subst k. specialize (N "main_node"%string (or_introl eq_refl)). destruct (tree_attr "main_node" _); [eauto | congruence]. }
        destruct Nm as [v Ev]. rewrite Ev. destruct (attr_field _ _ _ _ _ _ _ T E Ev) as (f & Ef & Hf). rewrite Ef. inversion Hf; subst; try (exists pf; split; [split; reflexivity | exact L]).
        destruct v0 as [| | | [|] |]; try (exists pf; split; [split; reflexivity | exact L]). exists (Some t). split; [split; reflexivity | exact Lt].
    - rewrite <- Sk. destruct (o_kind o) eqn:K; try contradiction.
      + destruct R as [-> ->]. exists (Some t). split; [split; reflexivity | exact Lt].
      + destruct R as (_ & -> & ->). exists pf. split; [split; reflexivity | exact L].
      + destruct R as (-> & p & op & -> & Eop & _ & Fc). exists (Some t). split; [split; reflexivity |]. exists op. split; [exact Eop |]. exact (face_sees _ _ _ Fc S).
    - destruct R as [-> ->]. exists (Some t). split; [split; reflexivity | exact Lt].
  Qed.

  Lemma node_basics o t : sees o t -> basics kw t (node_data kw o).
  Proof.
    intros (A & B & C & _). unfold basics, node_data. rewrite <- A, <- B, <- C. unfold opt_value.
    destruct (kw_context kw); do 6 (split; [reflexivity |]); reflexivity.
  Qed.
  Lemma opened n l o t pf d : nth_error h l = Some o -> sees o t -> looks (o_parent o) pf -> visit_data hk kw n h l = Ok d ->
    exists m d', n = S m /\ d = DtD d' /\ basics kw t d' /\ parent_entry kw pf d' /\
      (forall name f, fget name (o_fields o) = Some f -> hidden (o_kind o) name = false -> exists e, dget (lit name) d' = Some e /\ shown hk kw m h (o_kind o) name f e).
  Proof.
    intros E S L V. destruct n as [| m]; [discriminate V |].
    assert (D : exists d', d = DtD d').
    { cbn [visit_data] in V. rewrite E in V. destruct (visit_rows _ _ _ _ _) as [rows |]; cbn [rbind] in V; [| discriminate V]. eexists. symmetry. apply Ok_inv in V. exact V. }
    destruct D as [d' ->]. exists m, d'. split; [reflexivity |]. split; [reflexivity |].
    assert (P : proper o) by (unfold proper_heap in is_proper; rewrite Forall_forall in is_proper; apply is_proper; exact (nth_error_In _ _ E)).
    destruct (C66_everything_is_shown hk kw m h l o d' E P V) as (B & Pa & F).
    split; [| split].
    - destruct S as (A1 & A2 & A3 & _). unfold shown_of_node in B. unfold basics. rewrite <- A1, <- A2, <- A3. exact B.
    - unfold parent_entry. destruct (kw_parent kw); [| exact Pa]. eexists. split; [exact Pa |]. unfold parent_of.
      destruct (o_parent o) as [p |], pf as [pt |]; cbn [looks] in L; try contradiction; [| reflexivity]. destruct L as (op & -> & So). apply node_basics. exact So.
    - intros name f Ef Hh. exact (F name f (fget_in _ _ _ Ef) Hh).
  Qed.
  Lemma visit_split n l r : visit hk kw n h l = Ok r -> exists o d, nth_error h l = Some o /\ visit_data hk kw n h l = Ok d /\ hk_finish hk (jnode_of h o) d = Ok r.
  Proof.
    unfold visit, finish. intro V. destruct (visit_data hk kw n h l) as [d |]; cbn [rbind] in V; [| discriminate V]. destruct (nth_error h l) as [o |]; [| discriminate V]. eauto.
  Qed.

  Definition mode (live : bool) : kind -> nat -> nat -> Prop := if live then at_ else anywhere.
  Definition Good (n : nat) : Prop := forall l o t live pf d, nth_error h l = Some o -> is_tree (mode live) h t l -> full t -> looks (o_parent o) pf ->
    visit_data hk kw n h l = Ok d -> exists d', d = DtD d' /\ data_of hk kw done (from l) live pf t d'.
  Lemma good_drawn n l o t live pf r : Good n -> nth_error h l = Some o -> is_tree (mode live) h t l -> full t -> looks (o_parent o) pf -> visit hk kw n h l = Ok r -> drawn hk kw done (from l) live pf t r.
  Proof.
    intros G E T Fu L V. apply visit_split in V as (o' & d & E' & Vd & Fin). assert (o' = o) by congruence. subst o'.
    destruct (G _ _ _ _ _ _ E T Fu L Vd) as (d' & -> & D). econstructor; [exact D |].
    rewrite <- (looks_facet _ _ L). rewrite <- (proj2 (proj2 (proj2 (tree_sees _ _ _ _ _ T Fu E)))). exact Fin.
  Qed.
  Lemma child_drawn n b l o name f c t live pf t' r : Good n -> nth_error h l = Some o -> is_tree b h t l -> full t -> looks (o_parent o) pf ->
    fget name (o_fields o) = Some f -> In c (refs f) -> pointer (o_kind o) name = false -> is_tree (mode live) h t' c -> full t' -> visit hk kw n h c = Ok r ->
    exists from' pf', child_look (from l) pf t name from' pf' /\ drawn hk kw done from' live pf' t' r.
  Proof.
    intros G E T Fu L Ef Hc Hp T' Fu' V. destruct (right _ _ _ _ _ E (fget_in _ _ _ Ef) Hc) as (oc & Ec & R).
    destruct (right_look _ _ _ _ _ _ _ _ E T Fu L Hp Ec R) as (pf' & Cl & L'). exists (from c), pf'. split; [exact Cl |]. exact (good_drawn _ _ _ _ _ _ _ G Ec T' Fu' L' V).
  Qed.
  (* what a pointer to a footnote gives *)
  Lemma foot_data n l o p f e : Good n -> nth_error h l = Some o -> o_kind o = KMacroFootnote \/ o_kind o = KFootnotesItem -> fget "footnote" (o_fields o) = Some (One (Some p)) ->
    is_tree anywhere h (footnote_tree f) p -> shown hk kw n h (o_kind o) "footnote" (One (Some p)) e -> exists e', e = DtD e' /\ data_of hk kw done Made false None (footnote_tree f) e'.
  Proof.
    intros G E K Ef T Sh. destruct (right _ _ _ _ _ E (fget_in _ _ _ Ef) (or_introl eq_refl)) as (op & Ep & R).
    assert (Hp : pointer (o_kind o) "footnote" = true) by (destruct K as [-> | ->]; reflexivity). unfold right_parent in R. rewrite Hp in R.
    assert (R' : from p = Made /\ o_parent op = None) by (destruct K as [K | K]; rewrite K in R; tauto). destruct R' as [F P].
    assert (V : visit_data hk kw n h p = Ok e) by (inversion Sh; subst; [assumption | congruence]). rewrite <- F.
    apply (G p op (footnote_tree f) false None e Ep T (footnote_full f)); [rewrite P; exact I | exact V].
  Qed.
  (* and to a header *)
  Lemma head_data n l o p hd e : Good n -> nth_error h l = Some o -> o_kind o = KMacroHeader \/ o_kind o = KTocItem -> fget "header" (o_fields o) = Some (One (Some p)) ->
    at_ KHeader (h_id hd) p -> is_tree anywhere h (header_tree hd) p -> shown hk kw n h (o_kind o) "header" (One (Some p)) e -> exists e', e = DtD e' /\ header_data hk kw done hd e'.
  Proof.
    intros G E K Ef A T Sh. destruct (right _ _ _ _ _ E (fget_in _ _ _ Ef) (or_introl eq_refl)) as (op & Ep & R).
    assert (Hp : pointer (o_kind o) "header" = true) by (destruct K as [-> | ->]; reflexivity). unfold right_parent in R. rewrite Hp in R.
    assert (F : from p = Parsed) by (destruct K as [K | K]; rewrite K in R; tauto).
    assert (V : visit_data hk kw n h p = Ok e) by (inversion Sh; subst; [assumption | congruence]).
    destruct (some_looks _ _ Ep) as [pf L].
    destruct (G p op (header_tree hd) false pf e Ep T (header_full hd) L V) as (e' & -> & D). rewrite F in D. exists e'. split; [reflexivity |]. econstructor; [exact D |].
    intros s Es. destruct (done_right _ _ _ A _ Es) as (o2 & E2 & F2). assert (o2 = op) by congruence. subst o2.
    destruct (opened _ _ _ _ _ _ Ep (tree_sees _ _ _ _ _ T (header_full hd) Ep) L V) as (m & d2 & _ & Ed & _ & _ & Al). assert (d2 = e') by congruence. subst d2.
    assert (Kp : o_kind op = KHeader) by (inversion T; subst; congruence).
    destruct (Al "internal_id"%string _ F2) as (x & Ex & Sx); [rewrite Kp; reflexivity |]. rewrite Ex. inversion Sx; subst. reflexivity.
  Qed.
  Lemma is_a_tree b k l fs : is_a h l k -> Forall (fun nf : string * attr => exists f, has h l (fst nf) f /\ is_attr b h (snd nf) f) fs ->
    is_tree b h (Tree k empty_args empty_context None fs) l.
  Proof.
    intros (o & E & K & A & C) F. econstructor; [exact E | exact K | exact A | exact C | discriminate |].
    rewrite Forall_forall in *. intros nf Hn. destruct (F nf Hn) as (f & (o' & E' & Ef) & Ha). assert (o' = o) by congruence. subst o'. eauto.
  Qed.
  Lemma note_item_full : full note_item. Proof. unfold note_item. is_full. Qed.
  Lemma toc_entry_full : full toc_entry. Proof. unfold toc_entry. is_full. Qed.
  Lemma group_item_full g p : full (group_item g p). Proof. unfold group_item. is_full. Qed.
  Lemma item_ok n l o pf f p r : (forall m, m <= n -> Good m) -> nth_error h l = Some o -> is_a h l KFootnotesItem -> looks (o_parent o) pf ->
    has h l "footnote" (One (Some p)) -> is_tree anywhere h (footnote_tree f) p -> visit hk kw n h l = Ok r -> item_drawn hk kw done (from l) pf f r.
  Proof.
    intros G E A L (o' & E' & Ef) T V. assert (o' = o) by congruence. subst o'.
    assert (T0 : is_tree (mode false) h note_item l) by (apply is_a_tree; [exact A | constructor]).
    apply visit_split in V as (o' & d & E2 & Vd & Fin). assert (o' = o) by congruence. subst o'.
    destruct (G n (le_n n) _ _ _ _ _ _ E T0 note_item_full L Vd) as (d' & -> & D).
    pose proof (tree_sees _ _ _ _ _ T0 note_item_full E) as S.
    destruct (opened _ _ _ _ _ _ E S L Vd) as (m & d2 & -> & Ed & _ & _ & Al). assert (d2 = d') by congruence. subst d2.
    assert (K : o_kind o = KFootnotesItem) by apply S.
    destruct (Al _ _ Ef) as (x & Ex & Sx); [rewrite K; reflexivity |].
    destruct (foot_data m l o p f x (G m ltac:(lia)) E (or_intror K) Ef T Sx) as (e & -> & De).
    econstructor; [exact D | exact Ex | exact De |]. rewrite <- (proj2 (proj2 (proj2 S))), <- (looks_facet _ _ L). exact Fin.
  Qed.
  Lemma entry_ok n : (forall m, m <= n -> Good m) -> forall ti l o pf r, nth_error h l = Some o -> is_entry at_ h ti l -> looks (o_parent o) pf ->
    visit hk kw n h l = Ok r -> entry_drawn hk kw done (from l) pf ti r.
  Proof.
    induction n as [n IH] using lt_wf_ind. intros G ti l o pf r E En L V. inversion En as [hd es l' p ls A (o1 & E1 & Eh) At Th (o2 & E2 & Ee) Fe]; subst.
    assert (o1 = o) by congruence. assert (o2 = o) by congruence. subst o1 o2.
    assert (T0 : is_tree (mode false) h toc_entry l) by (apply is_a_tree; [exact A | constructor]).
    apply visit_split in V as (o' & d & E3 & Vd & Fin). assert (o' = o) by congruence. subst o'.
    destruct (G n (le_n n) _ _ _ _ _ _ E T0 toc_entry_full L Vd) as (d' & -> & D).
    pose proof (tree_sees _ _ _ _ _ T0 toc_entry_full E) as S.
    destruct (opened _ _ _ _ _ _ E S L Vd) as (m & d2 & -> & Ed & _ & _ & Al). assert (d2 = d') by congruence. subst d2.
    assert (K : o_kind o = KTocItem) by apply S.
    destruct (Al _ _ Eh) as (x & Ex & Sx); [rewrite K; reflexivity |].
    destruct (head_data m l o p hd x (G m ltac:(lia)) E (or_intror K) Eh At Th Sx) as (e & -> & De).
    destruct (Al _ _ Ee) as (y & Ey & Sy); [rewrite K; reflexivity |]. inversion Sy as [| ls' ds Fv | | | | |]; subst. rewrite K in Ey.
    econstructor; [exact D | exact Ex | exact De | exact Ey | |].
    - refine (Forall2_comp' _ _ _ _ _ _ _ Fe Fv). intros ti0 c r0 Hc H1 H2. destruct (right _ _ _ _ _ E (fget_in _ _ _ Ee) Hc) as (oc & Ec & R).
      destruct (right_look _ _ _ "entries" _ _ _ _ E T0 toc_entry_full L ltac:(rewrite K; reflexivity) Ec R) as (pf' & Cl & L').
      exists (from c), pf'. split; [exact Cl |]. exact (IH m ltac:(lia) (fun k Hk => G k ltac:(lia)) ti0 c oc pf' r0 Ec H1 L' H2).
    - rewrite <- (proj2 (proj2 (proj2 S))), <- (looks_facet _ _ L). exact Fin.
  Qed.
  Lemma block_ok n l o g pos b p pf r : (forall m, m <= n -> Good m) -> nth_error h l = Some o -> is_a h l KBlockGroupItem -> looks (o_parent o) pf ->
    has h l "position" (Plain (VStr pos)) -> has h l "group" (Plain (VStr g)) -> has h l "block" (One (Some p)) -> is_tree at_ h (node_tree b) p ->
    visit hk kw n h l = Ok r -> block_drawn hk kw done (from l) pf g pos b r.
  Proof.
    intros G E A L Hpos Hg (o1 & E1 & Eb) Tb V. assert (o1 = o) by congruence. subst o1.
    assert (T0 : is_tree (mode true) h (group_item g pos) l).
    { apply is_a_tree; [exact A |]. apply Forall_cons; [exists (Plain (VStr g)); split; [exact Hg | constructor] |]. apply Forall_cons; [exists (Plain (VStr pos)); split; [exact Hpos | constructor] | constructor]. }
    pose proof (group_item_full g pos) as F0.
    apply visit_split in V as (o' & d & E3 & Vd & Fin). assert (o' = o) by congruence. subst o'.
    destruct (G n (le_n n) _ _ _ _ _ _ E T0 F0 L Vd) as (d' & -> & D).
    pose proof (tree_sees _ _ _ _ _ T0 F0 E) as S.
    destruct (opened _ _ _ _ _ _ E S L Vd) as (m & d2 & -> & Ed & _ & _ & Al). assert (d2 = d') by congruence. subst d2.
    assert (K : o_kind o = KBlockGroupItem) by apply S.
    destruct (Al _ _ Eb) as (x & Ex & Sx); [rewrite K; reflexivity |].
    assert (Vx : visit hk kw m h p = Ok x) by (inversion Sx; subst; [rewrite K in *; discriminate | assumption]).
    destruct (child_drawn m _ l o "block" _ p (group_item g pos) true _ (node_tree b) x (G m ltac:(lia)) E T0 F0 L Eb (or_introl eq_refl) ltac:(rewrite K; reflexivity) Tb (node_full b) Vx) as (f' & pf' & Cl & Dr).
    econstructor; [exact D | exact Ex | exact Cl | exact Dr |]. rewrite <- (proj2 (proj2 (proj2 S))), <- (looks_facet _ _ L). exact Fin.
  Qed.
  Lemma all_good : forall n, Good n.
  Proof.
    induction n as [n IH] using lt_wf_ind. intros l o t live pf d E T Fu L V.
    pose proof (tree_sees _ _ _ _ _ T Fu E) as S.
    destruct (opened _ _ _ _ _ _ E S L V) as (m & d' & -> & -> & B & Pe & Al). exists d'. split; [reflexivity |].
    assert (Gm : Good m) by (apply IH; lia). assert (Gle : forall j, j <= m -> Good j) by (intros j Hj; apply IH; lia).
    destruct t as [k a c num fs]. assert (K : o_kind o = k) by apply S.
    assert (Num : forall i, live = true -> num = Some i -> completed done at_ h k i l).
    { intros i -> Hn. apply done_right. inversion T as [? ? ? ? ? ? ? _ _ _ _ HN _]. exact (HN i Hn). }
    assert (At : forall name v, In (name, v) fs -> exists f, fget name (o_fields o) = Some f /\ is_attr (mode live) h v f).
    { intros name v Hin. inversion T as [? ? ? ? ? ? o' E' _ _ _ _ F]; subst. assert (o' = o) by congruence. subst o'. rewrite Forall_forall in F. exact (F _ Hin). }
    assert (Fa : forall name v, In (name, v) fs -> pointer k name = false /\ full_attr v).
    { intros name v Hin. inversion Fu as [? ? ? ? ? _ F]; subst. rewrite Forall_forall in F. exact (F _ Hin). }
    assert (Lk : forall name f x, fget name (o_fields o) = Some f -> In x (refs f) -> pointer (o_kind o) name = false ->
      exists ox pf', nth_error h x = Some ox /\ child_look (from l) pf (Tree k a c num fs) name (from x) pf' /\ looks (o_parent ox) pf').
    { intros name f x Ef Hx Hp. destruct (right _ _ _ _ _ E (fget_in _ _ _ Ef) Hx) as (ox & Ex & R). destruct (right_look _ _ _ _ _ _ _ _ E T Fu L Hp Ex R) as (pf' & Cl & L'). eauto. }
    constructor; [exact B | exact Pe | ..].
    - intros name v Hin Hh. destruct (At _ _ Hin) as (f & Ef & Ha). destruct (Fa _ _ Hin) as [Hp Hf]. rewrite <- K in Hh. destruct (Al _ _ Ef Hh) as (e & Ee & Sh). exists e. split; [exact Ee |].
      rewrite <- K in Hp.
      assert (Ch : forall x t' r0, In x (refs f) -> is_tree (mode live) h t' x -> full t' -> visit hk kw m h x = Ok r0 ->
        exists from' pf', child_look (from l) pf (Tree k a c num fs) name from' pf' /\ drawn hk kw done from' live pf' t' r0).
      { intros x t' r0 Hx Tx Fx Vx. exact (child_drawn m _ l o name f x _ live pf t' r0 Gm E T Fu L Ef Hx Hp Tx Fx Vx). }
      destruct Ha as [v | ts ls F2 | ts ls F2 | | t' c' T'].
      + inversion Sh; subst. constructor.
      + inversion Sh as [| ls' ds Fv | | | | |]; subst. apply (drawn_nodes _ _ _ _ _ _ (Tree (o_kind o) a c num fs)). inversion Hf as [| ? Ff | | |]; subst.
        assert (F3 : Forall2 (fun t' x => full t' /\ is_tree (mode live) h t' x) ts ls) by (clear -F2 Ff; induction F2; inversion Ff; subst; constructor; auto).
        refine (Forall2_comp' _ _ _ _ _ _ _ F3 Fv). intros t' x r0 Hx [Fx Tx] Vx. exact (Ch x t' r0 Hx Tx Fx Vx).
      + inversion Sh as [| | ls' ds Fv | | | |]; subst. apply drawn_named. inversion Hf as [| | ? Ff | |]; subst.
        assert (F3 : Forall2 (fun (t' : str * tree) (x : str * nat) => full (snd t') /\ fst t' = fst x /\ is_tree (mode live) h (snd t') (snd x)) ts ls)
          by (clear -F2 Ff; induction F2 as [| ? ? ? ? [? ?]]; inversion Ff; subst; constructor; auto).
        refine (Forall2_comp' _ _ _ _ _ _ _ F3 Fv). intros t' x r0 Hx (Fx & Ex & Tx) [Er Vx]. split; [congruence |].
        exact (Ch (snd x) (snd t') (snd r0) (in_map snd _ _ Hx) Tx Fx Vx).
      + inversion Sh; subst; [congruence |]. constructor.
      + inversion Sh; subst; [congruence |]. inversion Hf; subst. destruct (Ch c' t' e (or_introl eq_refl) T') as (f' & pf' & C1 & D1); [assumption | assumption |].
        econstructor; [exact C1 | exact D1].
    - intros i f Hl Hn Hk Hd. specialize (Num i Hl Hn). rewrite Hk in K, Num. destruct (Num f Hd) as (p & (o' & E' & Ef) & Tf). assert (o' = o) by congruence. subst o'.
      destruct (Al _ _ Ef) as (e & Ee & Sh); [rewrite K; reflexivity |]. destruct (foot_data m l o p f e Gm E (or_introl K) Ef Tf Sh) as (e' & -> & De). eauto.
    - intros i fl Hl Hn Hk Hd. specialize (Num i Hl Hn). rewrite Hk in K, Num. destruct (Num fl Hd) as (ls & (o' & E' & Ef) & F2). assert (o' = o) by congruence. subst o'.
      destruct (Al _ _ Ef) as (e & Ee & Sh); [rewrite K; reflexivity |]. inversion Sh as [| ls' ds Fv | | | | |]; subst e ls'. exists ds. rewrite K in Ee. split; [exact Ee |].
      refine (Forall2_comp' _ _ _ _ _ _ _ F2 Fv). intros f x r0 Hx (A & p & Hp & Tf) Vx. destruct (Lk _ _ x Ef Hx) as (ox & pf' & Ex & Cl & L'); [rewrite K; reflexivity |].
      exists (from x), pf'. split; [exact Cl |]. exact (item_ok m x ox pf' f p r0 Gle Ex A L' Hp Tf Vx).
    - intros i s Hl Hn Hk Hd. specialize (Num i Hl Hn). rewrite Hk in K, Num. destruct (Num s Hd) as (o' & E' & Ef). assert (o' = o) by congruence. subst o'.
      destruct (Al _ _ Ef) as (e & Ee & Sh); [rewrite K; reflexivity |]. rewrite Ee. inversion Sh; subst. reflexivity.
    - intros i nested plain Hl Hn Hk Hd. specialize (Num i Hl Hn). rewrite Hk in K, Num. destruct (Num _ _ Hd) as (ls & ps & (o' & E' & Ef) & F2 & (o2 & E2 & Ef2) & F3).
      assert (o' = o) by congruence. assert (o2 = o) by congruence. subst o' o2.
      destruct (Al _ _ Ef) as (e & Ee & Sh); [rewrite K; reflexivity |]. inversion Sh as [| ls' ds Fv | | | | |]; subst e ls'. rewrite K in Ee.
      destruct (Al _ _ Ef2) as (e & Ee2 & Sh2); [rewrite K; reflexivity |]. inversion Sh2 as [| ls' ds2 Fv2 | | | | |]; subst e ls'. rewrite K in Ee2.
      exists ds, ds2. split; [exact Ee |]. split; [| split; [exact Ee2 |]].
      + refine (Forall2_comp' _ _ _ _ _ _ _ F2 Fv). intros ti x r0 Hx Hti Vx. destruct (Lk _ _ x Ef Hx) as (ox & pf' & Ex & Cl & L'); [rewrite K; reflexivity |].
        exists (from x), pf'. split; [exact Cl |]. exact (entry_ok m Gle ti x ox pf' r0 Ex Hti L' Vx).
      + refine (Forall2_comp' _ _ _ _ _ _ _ F3 Fv2). intros hd x r0 Hx Hhd Vx.
        exact (child_drawn m _ l o "plain_entries" _ x _ false pf _ r0 Gm E T Fu L Ef2 Hx ltac:(rewrite K; reflexivity) Hhd (header_full hd) Vx).
    - intros i hd Hl Hn Hk Hd. specialize (Num i Hl Hn). rewrite Hk in K, Num. destruct (Num _ Hd) as (p & (o' & E' & Ef) & Ap & Tp & hd' & content & ls & Hin & (o2 & E2 & Ef2) & F2).
      assert (o' = o) by congruence. assert (o2 = o) by congruence. subst o' o2. split.
      + destruct (Al _ _ Ef) as (e & Ee & Sh); [rewrite K; reflexivity |]. destruct (head_data m l o p hd e Gm E (or_introl K) Ef Ap Tp Sh) as (e' & -> & De). eauto.
      + destruct (Al _ _ Ef2) as (e & Ee2 & Sh2); [rewrite K; reflexivity |]. inversion Sh2 as [| ls' ds2 Fv2 | | | | |]; subst e ls'. rewrite K in Ee2.
        exists hd', content, ds2. split; [exact Hin |]. split; [exact Ee2 |].
        refine (Forall2_comp' _ _ _ _ _ _ _ F2 Fv2). intros nd x r0 Hx Hnd Vx.
        exact (child_drawn m _ l o "content" _ x _ false pf _ r0 Gm E T Fu L Ef2 Hx ltac:(rewrite K; reflexivity) Hnd (inode_full nd) Vx).
    - intros i items Hl Hn Hk Hd. specialize (Num i Hl Hn). rewrite Hk in K, Num. destruct (Num _ Hd) as (ls & (o' & E' & Ef) & F2). assert (o' = o) by congruence. subst o'.
      destruct (Al _ _ Ef) as (e & Ee & Sh); [rewrite K; reflexivity |]. inversion Sh as [| | ls' ds Fv | | | |]; subst e ls'. exists ds. split; [exact Ee |].
      refine (Forall2_comp' _ _ _ _ _ _ _ F2 Fv). intros b x r0 Hx (Eb & A & Hpos & (g & Ig & Hg & (o2 & E2 & Hname)) & p & Hp & Tp) [Er Vx]. split; [congruence |].
      assert (o2 = o) by congruence. subst o2. exists g. split; [| split; [exact Ig |]].
      + assert (Nm : exists v, tree_attr "name" (Tree k a c num fs) = Some v).
        { inversion Fu as [k' a' c' num' fs' N _]; subst. specialize (N "name"%string (or_introl eq_refl)). destruct (tree_attr "name" _); [eauto | congruence]. }
        destruct Nm as [v Ev]. rewrite Ev. destruct (attr_field _ _ _ _ _ _ _ T E Ev) as (f & Ef3 & Hf). assert (f = Plain (VStr g)) by congruence. subst f. inversion Hf; subst. reflexivity.
      + destruct (Lk _ _ (snd x) Ef (in_map snd _ _ Hx)) as (ox & pf' & Ex & Cl & L'); [rewrite K; reflexivity |].
        exists (from (snd x)), pf'. split; [exact Cl |]. exact (block_ok m (snd x) ox g (fst b) (snd b) p pf' (snd r0) Gle Ex A L' Hpos Hg Hp Tp Vx).
  Qed.
End Draw.
