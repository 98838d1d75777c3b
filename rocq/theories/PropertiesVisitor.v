(* PropertiesVisitor.v -- C50: copies of nodes *)
From Verif Require Import SpecVisitor.
From Coq Require Import List Lia PeanoNat.
Import ListNotations.
#[local] Open Scope list_scope.

(* ------------------------------------------------------------- lists *)
Lemma length_update {A} i (a : A) l : length (update i a l) = length l.
Proof. revert i; induction l as [| x l IH]; intros [| i]; cbn; auto. Qed.
Lemma nth_update_other {A} i j (a : A) l : i <> j -> nth_error (update i a l) j = nth_error l j.
Proof. revert i j; induction l as [| x l IH]; intros [| i] [| j] H; cbn; auto; lia. Qed.
Lemma nth_update_same {A} i (a : A) l : i < length l -> nth_error (update i a l) i = Some a.
Proof. revert i; induction l as [| x l IH]; intros [| i] H; cbn in *; auto; try lia; apply IH; lia. Qed.
Lemma nth_length {A} (l : list A) i a : nth_error l i = Some a -> i < length l.
Proof. intro H. apply nth_error_Some. congruence. Qed.

Lemma fget_in k l f : fget k l = Some f -> In (k, f) l.
Proof.
  induction l as [| [a v] l IH]; cbn; [discriminate |]. destruct (String.eqb_spec k a) as [-> | _]; [| auto].
  intro E. left. congruence.
Qed.

(* ------------------------------------------------------------- copies *)
(* the field of the copy *)
Definition field_copy (R : nat -> nat -> option nat -> Prop) (new : nat) (m : copy_mode) (f f' : field) : Prop :=
  match m, f, f' with
  | Same, _, _ => f' = f
  | EachOfList, Nodes l, Nodes l' => Forall2 (fun c c' => R c c' (Some new)) l l'
  | EachOfDict, Named d, Named d' => Forall2 (fun c c' : str * nat => fst c = fst c' /\ R (snd c) (snd c') (Some new)) d d'
  | TheNode, One (Some c), One (Some c') => R c c' (Some new)
  | TheNodeIfAny, One (Some c), One (Some c') => R c c' (Some new)
  | TheNodeIfAny, One None, One None => True
  | _, _, _ => False
  end.
Definition fields_copy (R : nat -> nat -> option nat -> Prop) (new : nat) (fs : list (string * field)) (rows : list (string * copy_mode)) (fs' : list (string * field)) :=
  Forall2 (fun (row : string * copy_mode) (kf : string * field) =>
    fst kf = fst row /\ exists f, fget (fst row) fs = Some f /\ field_copy R new (snd row) f (snd kf)) rows fs'.

(* l' is a copy of l with the parent p, within n levels; the originals are below a,
   the copies not below b *)
Fixpoint copy_of (a b n : nat) (H : heap) (l l' : nat) (p : option nat) : Prop :=
  match n with
  | 0 => False
  | S n =>
      l < a /\ b <= l' /\
      exists o o', nth_error H l = Some o /\ nth_error H l' = Some o' /\
        o_kind o' = o_kind o /\ o_args o' = o_args o /\ o_ctx o' = o_ctx o /\ o_parent o' = p /\
        fields_copy (copy_of a b n H) l' (o_fields o) (copied (o_kind o)) (o_fields o')
  end.

Lemma field_copy_mono (R R' : nat -> nat -> option nat -> Prop) new m f f' :
  (forall c c' p, R c c' p -> R' c c' p) -> field_copy R new m f f' -> field_copy R' new m f f'.
Proof.
  intros HR. destruct m, f as [v | l | d | [c |]], f' as [v' | l' | d' | [c' |]]; cbn; auto.
  - intro F. induction F; constructor; auto.
  - intro F. induction F as [| x y ? ? [E1 E2]]; constructor; auto.
Qed.
Lemma fields_copy_mono (R R' : nat -> nat -> option nat -> Prop) new fs rows fs' :
  (forall c c' p, R c c' p -> R' c c' p) -> fields_copy R new fs rows fs' -> fields_copy R' new fs rows fs'.
Proof.
  intros HR F. induction F as [| row kf rows fs' (E & f & Ef & Hf) F IH]; constructor; auto.
  split; [exact E |]. exists f. split; [exact Ef |]. exact (field_copy_mono R R' _ _ _ _ HR Hf).
Qed.

Lemma copy_of_mono a b b' n H H' l l' p :
  b' <= b -> (forall i o, i < a \/ b <= i -> nth_error H i = Some o -> nth_error H' i = Some o) ->
  copy_of a b n H l l' p -> copy_of a b' n H' l l' p.
Proof.
  intros Hb Hext. revert l l' p. induction n as [| n IH]; intros l l' p; cbn [copy_of]; [auto |].
  intros (Hl & Hl' & o & o' & E1 & E2 & K1 & K2 & K3 & K4 & F).
  split; [exact Hl | split; [lia |]]. exists o, o'.
  split; [apply Hext; auto | split; [apply Hext; auto |]].
  repeat (split; [assumption |]).
  exact (fields_copy_mono (copy_of a b n H) (copy_of a b' n H') _ _ _ _ IH F).
Qed.

(* a heap with more objects *)
Definition extends (H H' : heap) : Prop := length H <= length H' /\ forall i, i < length H -> nth_error H' i = nth_error H i.
Lemma extends_refl H : extends H H. Proof. split; auto. Qed.
Lemma extends_trans H1 H2 H3 : extends H1 H2 -> extends H2 H3 -> extends H1 H3.
Proof. intros [L1 N1] [L2 N2]. split; [lia |]. intros i Hi. rewrite N2 by lia. auto. Qed.
Lemma extends_some H H' i o : extends H H' -> nth_error H i = Some o -> nth_error H' i = Some o.
Proof. intros [L N] E. rewrite N; [exact E | exact (nth_length _ _ _ E)]. Qed.

Section Copies.
  Context (a : nat).
  (* the part of the heap below a does not point outside *)
  Definition own (H : heap) : Prop :=
    a <= length H /\ forall i o k f c, i < a -> nth_error H i = Some o -> In (k, f) (o_fields o) -> In c (refs f) -> c < a.
  Lemma own_extends H H' : own H -> extends H H' -> own H'.
  Proof.
    intros [La C] [L N]. split; [lia |]. intros i o k f c Hi E. rewrite N in E by lia. eauto.
  Qed.

  Context (cp : heap -> nat -> option nat -> res (heap * nat)) (n : nat).
  (* cp makes copies *)
  Definition copies := forall H l p H' l', own H -> l < a -> cp H l p = Ok (H', l') ->
    extends H H' /\ l' = length H /\ length H < length H' /\ copy_of a (length H) n H' l l' p.
  Context (Hcp : copies).

  Lemma copy_list_spec new l H H' l' b :
    own H -> b <= length H -> Forall (fun c => c < a) l -> copy_list cp new l H = Ok (H', l') ->
    extends H H' /\ Forall2 (fun c c' => copy_of a b n H' c c' (Some new)) l l'.
  Proof.
    revert H l'. induction l as [| c r IH]; intros H l' O Hb Hl E; cbn [copy_list] in E.
    - replace H' with H by congruence. replace l' with (@nil nat) by congruence. split; [apply extends_refl | constructor].
    - destruct (cp H c (Some new)) as [[H1 c'] |] eqn:E1; cbn [rbind] in E; [| discriminate].
      destruct (copy_list cp new r H1) as [[H2 r'] |] eqn:E2; cbn [rbind] in E; [| discriminate].
      assert (H2 = H') as -> by congruence. replace l' with (c' :: r') by congruence.
      inversion Hl as [| ? ? Hc Hr]; subst.
      destruct (Hcp _ _ _ _ _ O Hc E1) as (X1 & -> & L1 & C1).
      destruct (IH H1 r' (own_extends _ _ O X1) ltac:(lia) Hr E2) as (X2 & F2).
      split; [exact (extends_trans _ _ _ X1 X2) |]. constructor; [| exact F2].
      refine (copy_of_mono _ _ _ _ _ _ _ _ _ Hb _ C1). intros i o _. exact (extends_some _ _ _ _ X2).
  Qed.
  Lemma copy_dict_spec new (l : list (str * nat)) H H' l' b :
    own H -> b <= length H -> Forall (fun c => c < a) (map snd l) -> copy_dict cp new l H = Ok (H', l') ->
    extends H H' /\ Forall2 (fun c c' : str * nat => fst c = fst c' /\ copy_of a b n H' (snd c) (snd c') (Some new)) l l'.
  Proof.
    revert H l'. induction l as [| [k c] r IH]; intros H l' O Hb Hl E; cbn [copy_dict] in E.
    - replace H' with H by congruence. replace l' with (@nil (str * nat)) by congruence. split; [apply extends_refl | constructor].
    - destruct (cp H c (Some new)) as [[H1 c'] |] eqn:E1; cbn [rbind] in E; [| discriminate].
      destruct (copy_dict cp new r H1) as [[H2 r'] |] eqn:E2; cbn [rbind] in E; [| discriminate].
      assert (H2 = H') as -> by congruence. replace l' with ((k, c') :: r') by congruence.
      inversion Hl as [| ? ? Hc Hr]; subst.
      destruct (Hcp _ _ _ _ _ O Hc E1) as (X1 & -> & L1 & C1).
      destruct (IH H1 r' (own_extends _ _ O X1) ltac:(lia) Hr E2) as (X2 & F2).
      split; [exact (extends_trans _ _ _ X1 X2) |]. constructor; [| exact F2]. split; [reflexivity |].
      refine (copy_of_mono _ _ _ _ _ _ _ _ _ Hb _ C1). intros i o _. exact (extends_some _ _ _ _ X2).
  Qed.
  Lemma copy_field_spec new m f H H' f' b :
    own H -> b <= length H -> Forall (fun c => c < a) (refs f) -> copy_field cp new m f H = Ok (H', f') ->
    extends H H' /\ field_copy (copy_of a b n H') new m f f'.
  Proof.
    intros O Hb Hl E.
    assert (Hone : forall c, c < a -> (let? (h1, c') := cp H c (Some new) in Ok (h1, One (Some c'))) = Ok (H', f') ->
      extends H H' /\ exists c', f' = One (Some c') /\ copy_of a b n H' c c' (Some new)).
    { clear E. intros c Hc E. destruct (cp H c (Some new)) as [[H1 c'] |] eqn:E1; cbn [rbind] in E; [| discriminate].
      replace H' with H1 by congruence. replace f' with (One (Some c')) by congruence.
      destruct (Hcp _ _ _ _ _ O Hc E1) as (X1 & -> & L1 & C1). split; [exact X1 |].
      eexists. split; [reflexivity |]. refine (copy_of_mono _ _ _ _ _ _ _ _ _ Hb _ C1). auto. }
    destruct m, f as [v | l | d | [c |]]; cbn [copy_field] in E; try discriminate;
      try (replace H' with H by congruence; split; [apply extends_refl | cbn; congruence]).
    - destruct (copy_list cp new l H) as [[H1 l'] |] eqn:E1; cbn [rbind] in E; [| discriminate].
      replace H' with H1 by congruence. replace f' with (Nodes l') by congruence.
      exact (copy_list_spec _ _ _ _ _ b O Hb Hl E1).
    - destruct (copy_dict cp new d H) as [[H1 l'] |] eqn:E1; cbn [rbind] in E; [| discriminate].
      replace H' with H1 by congruence. replace f' with (Named l') by congruence.
      exact (copy_dict_spec _ _ _ _ _ b O Hb Hl E1).
    - inversion Hl; subst. destruct (Hone c ltac:(assumption) E) as (X & c' & -> & C). split; [exact X | exact C].
    - inversion Hl; subst. destruct (Hone c ltac:(assumption) E) as (X & c' & -> & C). split; [exact X | exact C].
    - replace H' with H by congruence. replace f' with (One None) by congruence. split; [apply extends_refl | exact I].
  Qed.
  Lemma copy_fields_spec new o rows H H' fs b i :
    own H -> b <= length H -> i < a -> nth_error H i = Some o -> copy_fields cp new o rows H = Ok (H', fs) ->
    extends H H' /\ fields_copy (copy_of a b n H') new (o_fields o) rows fs.
  Proof.
    revert H fs. induction rows as [| [k m] rows IH]; intros H fs O Hb Hi Ho E; cbn [copy_fields] in E.
    - replace H' with H by congruence. replace fs with (@nil (string * field)) by congruence. split; [apply extends_refl | constructor].
    - destruct (fget k (o_fields o)) as [f |] eqn:Ef; [| discriminate].
      destruct (copy_field cp new m f H) as [[H1 f'] |] eqn:E1; cbn [rbind] in E; [| discriminate].
      destruct (copy_fields cp new o rows H1) as [[H2 fs2] |] eqn:E2; cbn [rbind] in E; [| discriminate].
      assert (H2 = H') as -> by congruence. replace fs with ((k, f') :: fs2) by congruence.
      assert (Hl : Forall (fun c => c < a) (refs f)).
      { apply Forall_forall. intros c Hc. exact (proj2 O i o k f c Hi Ho (fget_in _ _ _ Ef) Hc). }
      destruct (copy_field_spec new m f H H1 f' b O Hb Hl E1) as (X1 & C1).
      destruct (IH H1 fs2 (own_extends _ _ O X1) ltac:(destruct X1; lia) Hi (extends_some _ _ _ _ X1 Ho) E2) as (X2 & F2).
      split; [exact (extends_trans _ _ _ X1 X2) |]. constructor; [| exact F2].
      split; [reflexivity |]. exists f. split; [exact Ef |].
      refine (field_copy_mono _ _ _ _ _ _ _ C1). intros c c' p. apply copy_of_mono; [lia |].
      intros j oj _. exact (extends_some _ _ _ _ X2).
  Qed.
End Copies.

Lemma deepcopy_copies a n : copies a (deepcopy n) n.
Proof.
  induction n as [| n IH]; intros H l p H' l' O Hl E; cbn [deepcopy] in E; [discriminate |].
  destruct (nth_error H l) as [o |] eqn:Eo; [| discriminate].
  set (H0 := H ++ [mkObj (o_kind o) p (o_args o) (o_ctx o) []]) in *.
  destruct (copy_fields (deepcopy n) (length H) o (copied (o_kind o)) H0) as [[H1 fs] |] eqn:E1; cbn [rbind] in E; [| discriminate].
  set (o' := mkObj (o_kind o) p (o_args o) (o_ctx o) fs) in *.
  replace H' with (update (length H) o' H1) by congruence. replace l' with (length H) by congruence. clear E.
  assert (L0 : length H0 = S (length H)) by (unfold H0; rewrite app_length; cbn; lia).
  assert (X0 : extends H H0).
  { split; [lia |]. intros i Hi. unfold H0. rewrite nth_error_app1 by exact Hi. reflexivity. }
  assert (Ho : nth_error H0 l = Some o) by exact (extends_some _ _ _ _ X0 Eo).
  destruct (copy_fields_spec a (deepcopy n) n IH (length H) o _ H0 H1 fs (S (length H)) l (own_extends a H H0 O X0) ltac:(lia) Hl Ho E1)
    as ((L1 & N1) & F1).
  assert (X : extends H (update (length H) o' H1)).
  { split; [rewrite length_update; lia |]. intros i Hi. rewrite nth_update_other by lia. rewrite N1 by lia. exact (proj2 X0 i Hi). }
  split; [exact X |]. split; [reflexivity |]. split; [rewrite length_update; lia |].
  cbn [copy_of]. split; [exact Hl |]. split; [lia |]. exists o, o'.
  split; [exact (extends_some _ _ _ _ X Eo) |]. split; [apply nth_update_same; lia |].
  repeat (split; [reflexivity |]). cbn [o_fields o'].
  refine (fields_copy_mono _ _ _ _ _ _ _ F1). intros c c' q. apply copy_of_mono; [lia |].
  intros i oi Hi Ei. destruct O as [La _]. rewrite nth_update_other by lia. exact Ei.
Qed.

(* ------------------------------------------------------------- visits *)
(* the two fields give the same data when related nodes do *)
Definition field_sim (R : nat -> nat -> Prop) (f f' : field) : Prop :=
  match f, f' with
  | Plain v, Plain v' => v = v'
  | Nodes l, Nodes l' => Forall2 R l l'
  | Named d, Named d' => Forall2 (fun c c' : str * nat => fst c = fst c' /\ R (snd c) (snd c')) d d'
  | One (Some c), One (Some c') => R c c'
  | One None, One None => True
  | _, _ => False
  end.
Definition same_field (R : nat -> nat -> Prop) (o o' : option field) : Prop :=
  match o, o' with None, None => True | Some f, Some f' => field_sim R f f' | _, _ => False end.

(* par: parents matter *)
Definition simulation (par : bool) (H H' : heap) (R : nat -> nat -> Prop) : Prop :=
  forall l l', R l l' -> exists o o', nth_error H l = Some o /\ nth_error H' l' = Some o' /\
    o_kind o' = o_kind o /\ o_args o' = o_args o /\ o_ctx o' = o_ctx o /\ custom_fields o' = custom_fields o /\
    (par = true -> option_map face (parent_of H' o') = option_map face (parent_of H o)) /\
    forall key k m, In (key, k, m) (visited (o_kind o)) -> same_field R (fget k (o_fields o)) (fget k (o_fields o')).

Definition no_parents (hk : hooks) (kw : kwargs) : Prop :=
  kw_parent kw = false /\ forall f p q d, hk_finish hk (f, p) d = hk_finish hk (f, q) d.

Lemma visit_each_sim {A} (g g' : A -> res data) (Q : A -> A -> Prop) l l' :
  (forall c c', Q c c' -> g' c' = g c) -> Forall2 Q l l' -> visit_each g' l' = visit_each g l.
Proof.
  intros Hg F. induction F as [| c c' l l' HQ F IH]; cbn [visit_each]; [reflexivity |]. rewrite (Hg _ _ HQ), IH. reflexivity.
Qed.

Lemma visit_field_sim hk k (R : nat -> nat -> Prop) dat dat' nod nod' m f f' :
  (forall c c', R c c' -> dat' c' = dat c /\ nod' c' = nod c) -> field_sim R f f' ->
  visit_field hk k dat' nod' m f' = visit_field hk k dat nod m f.
Proof.
  intros HR. destruct f as [v | l | d | [c |]], f' as [v' | l' | d' | [c' |]]; cbn [field_sim]; try contradiction; intro F.
  - subst. reflexivity.
  - destruct m; cbn [visit_field]; try reflexivity. rewrite (visit_each_sim nod nod' R l l'); [reflexivity | | exact F].
    intros c c' Hc. exact (proj2 (HR _ _ Hc)).
  - destruct m; cbn [visit_field]; try reflexivity.
    rewrite (visit_each_sim (fun kc => nod (snd kc)) (fun kc => nod' (snd kc)) _ d d' (fun c c' Hc => proj2 (HR _ _ (proj2 Hc))) F).
    replace (map fst d') with (map fst d); [reflexivity |].
    clear -F. induction F as [| x y d d' [E _] F IH]; cbn; congruence.
  - destruct (HR _ _ F). destruct m; cbn [visit_field]; auto.
  - reflexivity.
Qed.

Lemma visit_sim par H H' R hk kw : simulation par H H' R -> par = true \/ no_parents hk kw ->
  forall n l l', R l l' -> visit_data hk kw n H' l' = visit_data hk kw n H l /\ visit hk kw n H' l' = visit hk kw n H l.
Proof.
  intros HS Hp.
  assert (Hfin : forall l l' d, R l l' -> finish hk H' l' d = finish hk H l d).
  { intros l l' d HR. destruct (HS _ _ HR) as (o & o' & E1 & E2 & K1 & K2 & K3 & K4 & K5 & _).
    unfold finish. rewrite E1, E2. unfold jnode_of.
    assert (Ef : facet_of o' = facet_of o) by (unfold facet_of; rewrite K1, K2, K4; reflexivity). rewrite Ef.
    destruct Hp as [-> | [_ Hh]]; [| apply Hh]. specialize (K5 eq_refl).
    do 2 f_equal. destruct (parent_of H o) as [q |], (parent_of H' o') as [q' |]; cbn in K5 |- *; try discriminate; [| reflexivity].
    unfold face in K5. injection K5 as A1 A2 A3 A4. unfold facet_of. rewrite A1, A2, A4. reflexivity. }
  induction n as [| n IH]; intros l l' HR; [split; reflexivity |].
  assert (Hd : visit_data hk kw (S n) H' l' = visit_data hk kw (S n) H l).
  { destruct (HS _ _ HR) as (o & o' & E1 & E2 & K1 & K2 & K3 & K4 & K5 & K6).
    cbn [visit_data]. rewrite E1, E2, K1.
    assert (Edef : default_data kw H' o' = default_data kw H o).
    { unfold default_data. assert (En : node_data kw o' = node_data kw o) by (unfold node_data; rewrite K1, K2, K3; reflexivity).
      rewrite En. destruct Hp as [-> | [-> _]]; [| reflexivity]. specialize (K5 eq_refl).
      destruct (kw_parent kw); [| reflexivity]. do 4 f_equal.
      destruct (parent_of H o) as [q |], (parent_of H' o') as [q' |]; cbn in K5 |- *; try discriminate; [| reflexivity].
      unfold face in K5. injection K5 as A1 A2 A3 A4. unfold node_data. rewrite A1, A2, A3. reflexivity. }
    rewrite Edef.
    match goal with |- rbind ?x _ = rbind ?y _ => enough (Er : x = y) by (rewrite Er; reflexivity) end.
    revert K6. induction (visited (o_kind o)) as [| [[key k] m] rows IHr]; intro K6; cbn [visit_rows]; [reflexivity |].
    pose proof (K6 key k m (or_introl eq_refl)) as Hf.
    destruct (fget k (o_fields o)) as [f |], (fget k (o_fields o')) as [f' |]; cbn [same_field] in Hf; try contradiction; [| reflexivity].
    rewrite IHr by (intros; eapply K6; right; eassumption). rewrite K1.
    rewrite (visit_field_sim hk (o_kind o) R (visit_data hk kw n H) (visit_data hk kw n H')
      (fun c => let? d := visit_data hk kw n H c in finish hk H c d) (fun c => let? d := visit_data hk kw n H' c in finish hk H' c d) m f f'
      (fun c c' Hc => conj (proj1 (IH c c' Hc)) (proj2 (IH c c' Hc))) Hf). reflexivity. }
  split; [exact Hd |]. unfold visit. rewrite Hd. destruct (visit_data hk kw (S n) H l); cbn [rbind]; [| reflexivity]. apply Hfin, HR.
Qed.

(* ------------------------------------------------------------- the tables *)
Lemma visited_copied k key name m : In (key, name, m) (visited k) -> In name (map fst (copied k)).
Proof.
  assert (E : forallb (fun row : string * string * visit_mode => existsb (String.eqb (snd (fst row))) (map fst (copied k))) (visited k) = true)
    by (destruct k; vm_compute; reflexivity).
  intro Hin. rewrite forallb_forall in E. specialize (E _ Hin). cbn in E. apply existsb_exists in E.
  destruct E as (x & Hx & Ex). apply String.eqb_eq in Ex. subst. exact Hx.
Qed.
Lemma copied_pointer k name m : In (name, m) (copied k) -> m = Same \/ pointer k name = false.
Proof.
  assert (E : forallb (fun row : string * copy_mode => match snd row with Same => true | _ => negb (pointer k (fst row)) end) (copied k) = true)
    by (destruct k; vm_compute; reflexivity).
  intro Hin. rewrite forallb_forall in E. specialize (E _ Hin). cbn in E. destruct m; auto; right; destruct (pointer k name); auto; discriminate.
Qed.
Lemma custom_copied k name : In name (custom_names k) -> In (name, Same) (copied k).
Proof. destruct k; cbn; intro H; try contradiction; destruct H as [<- | []]; auto. Qed.
Lemma copied_once k name m m' : In (name, m) (copied k) -> In (name, m') (copied k) -> m = m'.
Proof.
  assert (E : forallb (fun r : string * copy_mode => forallb (fun r' : string * copy_mode =>
      negb (String.eqb (fst r) (fst r')) || match snd r, snd r' with
        | Same, Same | EachOfList, EachOfList | EachOfDict, EachOfDict | TheNode, TheNode | TheNodeIfAny, TheNodeIfAny => true | _, _ => false end)
      (copied k)) (copied k) = true) by (destruct k; vm_compute; reflexivity).
  intros H1 H2. rewrite forallb_forall in E. specialize (E _ H1). rewrite forallb_forall in E. specialize (E _ H2). cbn in E.
  rewrite String.eqb_refl in E. destruct m, m'; cbn in E; congruence.
Qed.

(* proper objects *)
Lemma proper_get o name f : proper o -> fget name (o_fields o) = Some f -> exists s, In (name, s) (attributes (o_kind o)) /\ of_shape s f.
Proof.
  unfold proper. intro F. induction F as [| [k g] [k' s] l l' [E Hs] F IH]; cbn [fget]; [discriminate |]. cbn in E, Hs. subst k'.
  destruct (String.eqb_spec name k) as [-> | _].
  - intro E. replace f with g by congruence. exists s. split; [left; reflexivity | exact Hs].
  - intro E. destruct (IH E) as (s' & A & B). exists s'. split; [right |]; assumption.
Qed.
Lemma proper_has o name s : proper o -> In (name, s) (attributes (o_kind o)) -> exists f, fget name (o_fields o) = Some f.
Proof.
  unfold proper. intro F. induction F as [| [k g] [k' s'] l l' [E Hs] F IH]; [intros [] |]. cbn in E. subst k'. cbn [fget].
  destruct (String.eqb_spec name k) as [-> | Hne]; [eauto |]. intros [E | Hin]; [congruence | auto].
Qed.
(* the shape that each way to copy a field expects *)
Definition expects (k : kind) (name : string) (m : copy_mode) (s : shape) : bool :=
  match m, s with
  | Same, SPlain => true
  | Same, (SOne | SOpt) => pointer k name
  | EachOfList, SNodes | EachOfDict, SNamed | TheNode, SOne | TheNodeIfAny, (SOne | SOpt) => true
  | _, _ => false
  end.
Lemma copied_shape k name m s : In (name, m) (copied k) -> In (name, s) (attributes k) -> expects k name m s = true.
Proof.
  assert (E : forallb (fun r : string * copy_mode => forallb (fun r' : string * shape =>
      negb (String.eqb (fst r) (fst r')) || expects k (fst r) (snd r) (snd r')) (attributes k)) (copied k) = true)
    by (destruct k; vm_compute; reflexivity).
  intros H1 H2. rewrite forallb_forall in E. specialize (E _ H1). rewrite forallb_forall in E. specialize (E _ H2). cbn in E.
  rewrite String.eqb_refl in E. exact E.
Qed.
Lemma copied_attribute k name m : In (name, m) (copied k) -> exists s, In (name, s) (attributes k).
Proof.
  assert (E : forallb (fun r : string * copy_mode => existsb (String.eqb (fst r)) (map fst (attributes k))) (copied k) = true)
    by (destruct k; vm_compute; reflexivity).
  intro Hin. rewrite forallb_forall in E. specialize (E _ Hin). cbn in E. apply existsb_exists in E.
  destruct E as (x & Hx & Ex). apply String.eqb_eq in Ex. subst x. apply in_map_iff in Hx. destruct Hx as ([n s] & E & Hx). cbn in E. subst n. eauto.
Qed.

Lemma fields_copy_get R new fs rows fs' name :
  fields_copy R new fs rows fs' -> In name (map fst rows) ->
  exists m f f', In (name, m) rows /\ fget name fs = Some f /\ fget name fs' = Some f' /\ field_copy R new m f f'.
Proof.
  intro F. induction F as [| [k m] [k' f'] rows fs' (E & f & Ef & Hf) F IH]; cbn [map In]; [intros [] |].
  cbn in E, Ef, Hf. subst k'. intros [E | Hin]; cbn [fst] in *.
  - subst k. exists m, f, f'. cbn [fget]. rewrite String.eqb_refl. auto.
  - cbn [fget]. destruct (String.eqb_spec name k) as [-> | Hne].
    + exists m, f, f'. auto.
    + destruct (IH Hin) as (m1 & f1 & f1' & A1 & A2 & A3 & A4). exists m1, f1, f1'. auto.
Qed.

Lemma fields_copy_custom R new o o' :
  o_kind o' = o_kind o -> fields_copy R new (o_fields o) (copied (o_kind o)) (o_fields o') -> custom_fields o' = custom_fields o.
Proof.
  intros K F. unfold custom_fields. rewrite K.
  assert (Hc : forall name, In name (custom_names (o_kind o)) -> fget name (o_fields o') = fget name (o_fields o)).
  { intros name Hin. apply custom_copied in Hin.
    destruct (fields_copy_get _ _ _ _ _ name F (in_map fst _ _ Hin)) as (m & f & f' & A1 & A2 & A3 & A4).
    rewrite (copied_once _ _ _ _ A1 Hin) in A4. cbn in A4. congruence. }
  induction (custom_names (o_kind o)) as [| name r IH]; cbn [flat_map]; [reflexivity |].
  rewrite (Hc name) by (left; reflexivity). rewrite IH by (intros; apply Hc; right; assumption). reflexivity.
Qed.

(* ------------------------------------------------------------- C50 *)
Lemma closed_own h : closed h -> own (length h) h.
Proof. intro C. split; [lia |]. intros i o k f c _ E Hin Hc. exact (proj2 (C i o E) k f c Hin Hc). Qed.
Lemma forall2_refl {A} (R : A -> A -> Prop) l : (forall x, In x l -> R x x) -> Forall2 R l l.
Proof. induction l; intro H; constructor; [apply H; left; reflexivity | apply IHl; intros; apply H; right; assumption]. Qed.
Lemma field_sim_refl (R : nat -> nat -> Prop) f : (forall c, In c (refs f) -> R c c) -> field_sim R f f.
Proof.
  destruct f as [v | l | d | [c |]]; cbn; intro H; auto.
  - apply forall2_refl; auto.
  - apply forall2_refl. intros x Hx. split; [reflexivity |]. apply H, in_map, Hx.
Qed.

Definition parent_in (h : heap) (p : option nat) : option obj := match p with Some q => nth_error h q | None => None end.

Section Same.
  Context (par : bool) (h h' : heap) (root : nat).
  Context (Hc : closed h) (Hx : extends h h') (Hw : par = true -> well_parented h root).
  Let a := length h.

  Definition renders (l l' : nat) : Prop :=
    (l = l' /\ l < a) \/
    (exists n p, copy_of a a n h' l l' p /\ below h root l /\ (par = true -> option_map face (parent_in h' p) = parent_face h l)).

  Lemma renders_simulation : simulation par h h' renders.
  Proof.
    intros l l' [[<- Hl] | (n & p & Cp & Hb & Hp)].
    - destruct (nth_error h l) as [o |] eqn:Eo; [| apply nth_error_None in Eo; lia].
      exists o, o. split; [reflexivity |]. split; [exact (extends_some _ _ _ _ Hx Eo) |].
      do 4 (split; [reflexivity |]). destruct (Hc _ _ Eo) as [C1 C2]. split.
      + intros _. unfold parent_of. destruct (o_parent o) as [q |]; [| reflexivity]. rewrite (proj2 Hx) by (apply C1; reflexivity). reflexivity.
      + intros key k m _. destruct (fget k (o_fields o)) as [f |] eqn:Ef; [| exact I]. cbn [same_field]. apply field_sim_refl.
        intros c Hin. left. split; [reflexivity |]. exact (C2 _ _ _ (fget_in _ _ _ Ef) Hin).
    - destruct n as [| n]; [destruct Cp |]. cbn [copy_of] in Cp. destruct Cp as (Hl & Hl' & o & o' & E1 & E2 & K1 & K2 & K3 & K4 & F).
      assert (Eo : nth_error h l = Some o) by (rewrite <- (proj2 Hx l Hl); exact E1).
      assert (Kc : custom_fields o' = custom_fields o) by exact (fields_copy_custom _ _ _ _ K1 F).
      exists o, o'. do 6 (split; [assumption |]). split.
      + intros Hpar. unfold parent_of. rewrite K4. fold (parent_in h' p). rewrite (Hp Hpar). unfold parent_face. rewrite Eo. reflexivity.
      + intros key k m Hin.
        destruct (fields_copy_get _ _ _ _ _ k F (visited_copied _ _ _ _ Hin)) as (cm & f & f' & A1 & A2 & A3 & A4).
        rewrite A2, A3. cbn [same_field].
        assert (Hkid : pointer (o_kind o) k = false -> forall c c', In c (refs f) -> copy_of a a n h' c c' (Some l') -> renders c c').
        { intros Hptr c c' Hcin Cc. right.
          assert (Hch : child h l c) by (exists o, k, f; split; [exact Eo | split; [exact (fget_in _ _ _ A2) | auto]]).
          exists n, (Some l'). split; [exact Cc |]. split; [exact (below_child _ _ _ _ Hb Hch) |].
          intro Hpar. cbn [parent_in]. rewrite E2. cbn [option_map]. rewrite (Hw Hpar l c o Hb Hch Eo).
          unfold face. rewrite K1, K2, K3, Kc. reflexivity. }
        destruct (copied_pointer _ _ _ A1) as [-> | Hptr].
        * cbn in A4. subst f'. apply field_sim_refl. intros c Hcin. left. split; [reflexivity |].
          exact (proj2 (Hc _ _ Eo) _ _ _ (fget_in _ _ _ A2) Hcin).
        * specialize (Hkid Hptr). destruct cm, f as [v | fl | d | [c |]], f' as [v' | fl' | d' | [c' |]]; cbn [field_copy] in A4; try contradiction; try discriminate.
          all: try (replace v' with v by congruence; reflexivity).
          all: try exact I.
          all: try (apply Hkid; [left; reflexivity | exact A4]).
          -- injection A4 as ->. apply forall2_refl. intros c Hcin. left. split; [reflexivity |]. exact (proj2 (Hc _ _ Eo) _ _ _ (fget_in _ _ _ A2) Hcin).
          -- injection A4 as ->. apply field_sim_refl with (f := Named d). intros c Hcin. left. split; [reflexivity |]. exact (proj2 (Hc _ _ Eo) _ _ _ (fget_in _ _ _ A2) Hcin).
          -- injection A4 as ->. left. split; [reflexivity |]. exact (proj2 (Hc _ _ Eo) _ _ _ (fget_in _ _ _ A2) (or_introl eq_refl)).
          -- cbn [field_sim]. revert A4. cbn [refs] in Hkid. clear -Hkid. intro A4.
             assert (Hin : forall x, In x fl -> forall c', copy_of a a n h' x c' (Some l') -> renders x c') by auto.
             clear Hkid. induction A4; constructor; [apply Hin; [left; reflexivity | assumption] |]. apply IHA4. intros; apply Hin; [right |]; assumption.
          -- cbn [field_sim]. revert A4. cbn [refs] in Hkid. clear -Hkid. intro A4.
             assert (Hin : forall x, In x d -> forall c', copy_of a a n h' (snd x) c' (Some l') -> renders (snd x) c').
             { intros x Hx c' Hc'. apply Hkid; [exact (in_map snd _ _ Hx) | exact Hc']. }
             clear Hkid. induction A4 as [| x y ? ? [B1 B2]]; constructor; [split; [exact B1 | apply Hin; [left; reflexivity | assumption]] |].
             apply IHA4. intros; apply Hin; [right |]; assumption.
  Qed.
End Same.

(* Visiting a copy gives what visiting the node gives, for every visitor, when the
   nodes below have the node that contains them as their parent (or a node that
   cannot be told from it), and the copy has been given a parent that looks like that
   of the original. *)
Theorem C50_copy_renders_partial h l p n h' l' :
  closed h -> l < length h -> well_parented h l ->
  (forall q, p = Some q -> q < length h) -> option_map face (parent_in h p) = parent_face h l ->
  deepcopy n h l p = Ok (h', l') ->
  forall hk kw m, visit hk kw m h' l' = visit hk kw m h l.
Proof.
  intros Hc Hl Hw Hq Hp E hk kw m.
  destruct (deepcopy_copies (length h) n h l p h' l' (closed_own h Hc) Hl E) as (Hx & El & _ & Cp).
  refine (proj2 (visit_sim true h h' _ hk kw (renders_simulation true h h' l Hc Hx (fun _ => Hw)) (or_introl eq_refl) m l l' _)).
  right. exists n, p. split; [exact Cp |]. split; [apply below_self |]. intros _. rewrite <- Hp. f_equal.
  destruct p as [q |]; [| reflexivity]. cbn. apply Hx, Hq. reflexivity.
Qed.

(* Without parents in the result, visiting a copy gives what visiting the node gives,
   for every tree of nodes. *)
Theorem C50_copy_data h l p n h' l' :
  closed h -> l < length h -> deepcopy n h l p = Ok (h', l') ->
  forall hk kw m, no_parents hk kw -> visit hk kw m h' l' = visit hk kw m h l.
Proof.
  intros Hc Hl E hk kw m Hno.
  destruct (deepcopy_copies (length h) n h l p h' l' (closed_own h Hc) Hl E) as (Hx & El & _ & Cp).
  refine (proj2 (visit_sim false h h' _ hk kw (renders_simulation false h h' l Hc Hx ltac:(discriminate)) (or_intror Hno) m l l' _)).
  right. exists n, p. split; [exact Cp |]. split; [apply below_self |]. discriminate.
Qed.

(* A copy is made of new objects, and no object of the document changes. *)
Theorem C50_copy_is_separate h l p n h' l' :
  closed h -> proper_heap h -> l < length h -> deepcopy n h l p = Ok (h', l') ->
  (forall i, i < length h -> nth_error h' i = nth_error h i) /\
  (forall hk kw m i, i < length h -> visit hk kw m h' i = visit hk kw m h i) /\
  (forall i, below h' l' i -> length h <= i < length h').
Proof.
  intros Hc Hpr Hl E.
  destruct (deepcopy_copies (length h) n h l p h' l' (closed_own h Hc) Hl E) as (Hx & El & _ & Cp).
  split; [exact (proj2 Hx) |]. split.
  - intros hk kw m i Hi. refine (proj2 (visit_sim true h h' (fun x y => x = y /\ x < length h) hk kw _ (or_introl eq_refl) m i i (conj eq_refl Hi))).
    intros x y [<- Hxl]. destruct (nth_error h x) as [o |] eqn:Eo; [| apply nth_error_None in Eo; lia].
    exists o, o. split; [reflexivity |]. split; [exact (extends_some _ _ _ _ Hx Eo) |].
    do 4 (split; [reflexivity |]). destruct (Hc _ _ Eo) as [C1 C2]. split.
    + intros _. unfold parent_of. destruct (o_parent o) as [q |]; [| reflexivity]. rewrite (proj2 Hx) by (apply C1; reflexivity). reflexivity.
    + intros key k mo _. destruct (fget k (o_fields o)) as [f |] eqn:Ef; [| exact I]. cbn [same_field]. apply field_sim_refl.
      intros c Hin. split; [reflexivity |]. exact (C2 _ _ _ (fget_in _ _ _ Ef) Hin).
  - assert (Hb : forall i, below h' l' i -> exists j k q, copy_of (length h) (length h) k h' j i q).
    { intros i Hi. induction Hi as [| i c Hi (j & k & q & Ci) (o' & name & f' & Ei & Hin & Hptr & Hcin)]; [exists l, n, p; exact Cp |].
      destruct k as [| k]; [destruct Ci |]. cbn [copy_of] in Ci. destruct Ci as (Hl1 & Hl2 & o & o2 & E1 & E2 & K1 & K2 & K3 & K4 & F).
      assert (o2 = o') by congruence. subst o2. rewrite K1 in Hptr.
      assert (Hrow : exists m f, In (name, m) (copied (o_kind o)) /\ fget name (o_fields o) = Some f /\ field_copy (copy_of (length h) (length h) k h') i m f f').
      { clear -F Hin. unfold fields_copy in F. induction F as [| row kf rows fs (E & f & Ef & Hf) F IH]; [destruct Hin |].
        destruct Hin as [-> | Hin]; [| destruct (IH Hin) as (m & g & A & B); exists m, g; split; [right |]; assumption].
        destruct row as [nm m]. cbn in E, Ef, Hf. subst nm. exists m, f. split; [left; reflexivity | split; [exact Ef | exact Hf]]. }
      destruct Hrow as (m & f & Hrow & Hget & Hf).
      assert (Hsome : exists x, copy_of (length h) (length h) k h' x c (Some i)).
      { assert (Hm : m = Same -> refs f' = []) 
        by (intros ->; assert (Eo : nth_error h j = Some o) by (rewrite <- (proj2 Hx j Hl1); exact E1);
            destruct (proper_get _ _ _ (proj1 (Forall_forall _ _) Hpr o (nth_error_In _ _ Eo)) Hget) as (s & Hs1 & Hs2);
            pose proof (copied_shape _ _ _ _ Hrow Hs1) as He; cbn in Hf; subst f'; rewrite Hptr in He || idtac;
            destruct s; cbn in He; try discriminate; try congruence; destruct f as [? | ? | ? | [? |]]; cbn in Hs2; try contradiction; reflexivity).
        destruct m, f as [v | fl | d | [x |]], f' as [v' | fl' | d' | [x' |]]; cbn [field_copy refs] in Hf, Hcin, Hm; try contradiction; try discriminate;
          try (rewrite (Hm eq_refl) in Hcin; destruct Hcin).
        - clear -Hf Hcin. induction Hf; [destruct Hcin |]. destruct Hcin as [<- | Hcin]; eauto.
        - clear -Hf Hcin. induction Hf as [| ? ? ? ? [B1 B2]]; [destruct Hcin |]. destruct Hcin as [<- | Hcin]; eauto.
        - destruct Hcin as [<- | []]. eauto.
        - destruct Hcin as [<- | []]. eauto. }
      destruct Hsome as (x & Hx0). eauto. }
    intros i Hi. destruct (Hb i Hi) as (j & k & q & Ci). destruct k as [| k]; [destruct Ci |]. cbn [copy_of] in Ci.
    destruct Ci as (_ & Hi2 & o & o2 & _ & E2 & _). split; [exact Hi2 | exact (nth_length _ _ _ E2)].
Qed.

(* ------------------------------------------------------------- copies exist *)
Section Exist.
  Context (h : heap) (Hc : closed h) (Hpr : proper_heap h) (cp : heap -> nat -> option nat -> res (heap * nat)) (n : nat).
  Context (Hcp : copies (length h) cp n).
  Context (Hok : forall H l p, extends h H -> height h l n -> exists r, cp H l p = Ok r).

  Lemma height_in l k : height h l k -> l < length h.
  Proof. intros [i k' Hi _]. exact Hi. Qed.
  Lemma own_of H : extends h H -> own (length h) H.
  Proof. intro X. exact (own_extends _ _ _ (closed_own h Hc) X). Qed.

  Lemma copy_list_ok new l : forall H, extends h H -> Forall (fun c => height h c n) l -> exists H' l', copy_list cp new l H = Ok (H', l') /\ extends h H'.
  Proof.
    induction l as [| c r IH]; intros H X Hl; cbn [copy_list]; [eauto |].
    inversion Hl as [| ? ? Hc1 Hr]; subst. destruct (Hok H c (Some new) X Hc1) as [[H1 c'] E1]. rewrite E1. cbn [rbind].
    destruct (Hcp _ _ _ _ _ (own_of _ X) (height_in _ _ Hc1) E1) as (X1 & _).
    destruct (IH H1 (extends_trans _ _ _ X X1) Hr) as (H2 & r' & E2 & X2). rewrite E2. cbn [rbind]. eauto.
  Qed.
  Lemma copy_dict_ok new (l : list (str * nat)) : forall H, extends h H -> Forall (fun c => height h c n) (map snd l) -> exists H' l', copy_dict cp new l H = Ok (H', l') /\ extends h H'.
  Proof.
    induction l as [| [k c] r IH]; intros H X Hl; cbn [copy_dict]; [eauto |].
    inversion Hl as [| ? ? Hc1 Hr]; subst. destruct (Hok H c (Some new) X Hc1) as [[H1 c'] E1]. rewrite E1. cbn [rbind].
    destruct (Hcp _ _ _ _ _ (own_of _ X) (height_in _ _ Hc1) E1) as (X1 & _).
    destruct (IH H1 (extends_trans _ _ _ X X1) Hr) as (H2 & r' & E2 & X2). rewrite E2. cbn [rbind]. eauto.
  Qed.
  Lemma copy_one_ok new c H : extends h H -> height h c n ->
    exists H' f, (let? (h1, c') := cp H c (Some new) in Ok (h1, One (Some c'))) = Ok (H', f) /\ extends h H'.
  Proof.
    intros X Hc1. destruct (Hok H c (Some new) X Hc1) as [[H1 c'] E1]. rewrite E1. cbn [rbind].
    destruct (Hcp _ _ _ _ _ (own_of _ X) (height_in _ _ Hc1) E1) as (X1 & _). exists H1, (One (Some c')). split; [reflexivity |]. exact (extends_trans _ _ _ X X1).
  Qed.
  Lemma copy_fields_ok new o l : nth_error h l = Some o -> (forall c, child h l c -> height h c n) ->
    forall rows, incl rows (copied (o_kind o)) -> forall H, extends h H -> exists H' fs, copy_fields cp new o rows H = Ok (H', fs) /\ extends h H'.
  Proof.
    intros Eo Hch. pose proof (proj1 (Forall_forall _ _) Hpr o (nth_error_In _ _ Eo)) as Hp.
    induction rows as [| [k m] rows IH]; intros Hin H X; cbn [copy_fields]; [eauto |].
    assert (Hrow : In (k, m) (copied (o_kind o))) by (apply Hin; left; reflexivity).
    destruct (copied_attribute _ _ _ Hrow) as (s0 & Hs0). destruct (proper_has _ _ _ Hp Hs0) as (f & Ef). rewrite Ef.
    destruct (proper_get _ _ _ Hp Ef) as (s & Hs & Hof). pose proof (copied_shape _ _ _ _ Hrow Hs) as He.
    assert (Hf : exists H' f', copy_field cp new m f H = Ok (H', f') /\ extends h H').
    { destruct (copied_pointer _ _ _ Hrow) as [-> | Hptr]; [cbn; eauto |].
      assert (Hk : Forall (fun c => height h c n) (refs f)).
      { apply Forall_forall. intros c Hcin. apply Hch. exists o, k, f. split; [exact Eo |]. split; [exact (fget_in _ _ _ Ef) |]. auto. }
      destruct m, s; cbn in He; try discriminate He; try (rewrite Hptr in He; discriminate He);
        destruct f as [v | fl | d | [c |]]; cbn [of_shape] in Hof; try contradiction; cbn [copy_field refs] in Hk |- *; eauto.
      - destruct (copy_list_ok new fl H X Hk) as (H1 & l1 & E1 & X1). rewrite E1. cbn [rbind]. eauto.
      - destruct (copy_dict_ok new d H X Hk) as (H1 & l1 & E1 & X1). rewrite E1. cbn [rbind]. eauto.
      - inversion Hk; subst. apply copy_one_ok; assumption.
      - inversion Hk; subst. apply copy_one_ok; assumption.
      - inversion Hk; subst. apply copy_one_ok; assumption. }
    destruct Hf as (H1 & f' & E1 & X1). rewrite E1. cbn [rbind].
    destruct (IH ltac:(intros x Hx; apply Hin; right; exact Hx) H1 X1) as (H2 & fs & E2 & X2). rewrite E2. cbn [rbind]. eauto.
  Qed.
End Exist.

Lemma deepcopy_ok h : closed h -> proper_heap h -> forall n H l p, extends h H -> height h l n -> exists r, deepcopy n H l p = Ok r.
Proof.
  intros Hc Hpr. induction n as [| n IH]; intros H l p X Hh; inversion Hh as [i k Hl Hch]; subst. cbn [deepcopy].
  destruct (nth_error h l) as [o |] eqn:Eo; [| apply nth_error_None in Eo; lia].
  rewrite (extends_some _ _ _ _ X Eo).
  assert (X0 : extends h (H ++ [mkObj (o_kind o) p (o_args o) (o_ctx o) []])).
  { destruct X as [L N]. split; [rewrite app_length; lia |]. intros j Hj. rewrite nth_error_app1 by lia. auto. }
  destruct (copy_fields_ok h Hc Hpr (deepcopy n) n (deepcopy_copies _ n) IH (length H) o l Eo Hch (copied (o_kind o)) (incl_refl _) _ X0) as (H1 & fs & E1 & _).
  rewrite E1. cbn [rbind]. eauto.
Qed.

(* Every tree of nodes can be copied, when its height is within the limit of the
   interpreter. *)
Theorem C50_copy_exists h l p n :
  closed h -> proper_heap h -> height h l n -> exists h' l', deepcopy n h l p = Ok (h', l').
Proof.
  intros Hc Hpr Hh. destruct (deepcopy_ok h Hc Hpr n h l p (extends_refl h) Hh) as [[h' l'] E]. eauto.
Qed.

(* ------------------------------------------------------------- examples *)
(* the paragraph a *b*: a text and a styled text *)
Definition plain_obj (k : kind) (p : option nat) (fs : list (string * field)) : obj := mkObj k p empty_args empty_context fs.
Definition para_heap : heap :=
  [plain_obj KDocument None [("content", Nodes [1])];
   plain_obj KParagraph (Some 0) [("content", Nodes [2]); ("labels", Named [])];
   plain_obj KParagraphLine (Some 1) [("content", Nodes [3; 4]); ("labels", Named [])];
   plain_obj KText (Some 2) [("value", Plain (VStr (lit "a ")))];
   plain_obj KStyle (Some 2) [("style", Plain (VStr (lit "star"))); ("content", Nodes [5])];
   plain_obj KText (Some 4) [("value", Plain (VStr (lit "b")))]]%string.

(* a check of the conditions on all the objects *)
Definition edges (h : heap) : list (nat * nat) :=
  flat_map (fun i => match nth_error h i with
    | Some o => flat_map (fun kf : string * field => if pointer (o_kind o) (fst kf) then [] else map (fun c => (i, c)) (refs (snd kf))) (o_fields o)
    | None => [] end) (seq 0 (length h)).
Lemma child_edge h i c : child h i c -> In (i, c) (edges h).
Proof.
  intros (o & k & f & E & Hin & Hp & Hc). apply in_flat_map. exists i. split; [apply in_seq; pose proof (nth_length _ _ _ E); lia |].
  rewrite E. apply in_flat_map. exists (k, f). split; [exact Hin |]. cbn [fst snd]. rewrite Hp. exact (in_map _ _ _ Hc).
Qed.
Lemma edges_well_parented h l :
  Forall (fun e : nat * nat => option_map face (nth_error h (fst e)) = parent_face h (snd e)) (edges h) -> well_parented h l.
Proof.
  intros F i c o _ Hc E. apply child_edge in Hc. rewrite Forall_forall in F. specialize (F _ Hc). cbn in F. rewrite E in F. symmetry. exact F.
Qed.
Definition closedb (h : heap) : bool :=
  forallb (fun o => match o_parent o with Some p => p <? length h | None => true end &&
                    forallb (fun kf : string * field => forallb (fun c => c <? length h) (refs (snd kf))) (o_fields o)) h.
Lemma closedb_closed h : closedb h = true -> closed h.
Proof.
  intros E i o Eo. unfold closedb in E. rewrite forallb_forall in E. specialize (E _ (nth_error_In _ _ Eo)).
  apply Bool.andb_true_iff in E. destruct E as [E1 E2]. split.
  - intros p Ep. rewrite Ep in E1. apply Nat.ltb_lt, E1.
  - intros k f c Hin Hc. rewrite forallb_forall in E2. specialize (E2 _ Hin). cbn [snd] in E2. rewrite forallb_forall in E2.
    apply Nat.ltb_lt, E2, Hc.
Qed.

Example C50_ex : exists h' l', deepcopy 4 para_heap 1 (Some 0) = Ok (h', l') /\ length h' = 11 /\
  forall hk kw m, visit hk kw m h' l' = visit hk kw m para_heap 1.
Proof.
  assert (E : exists h' l', deepcopy 4 para_heap 1 (Some 0) = Ok (h', l') /\ length h' = 11) by (do 2 eexists; split; vm_compute; reflexivity).
  destruct E as (h' & l' & E & L). exists h', l'. split; [exact E |]. split; [exact L |].
  refine (C50_copy_renders_partial para_heap 1 (Some 0) 4 h' l' _ _ _ _ _ E).
  - apply closedb_closed. vm_compute. reflexivity.
  - vm_compute. lia.
  - apply edges_well_parented. vm_compute. repeat constructor.
  - intros q Eq. injection Eq as <-. vm_compute. lia.
  - vm_compute. reflexivity.
Qed.
Example C50_exists_ex : closed para_heap /\ proper_heap para_heap /\ height para_heap 1 4.
Proof.
  split; [apply closedb_closed; vm_compute; reflexivity |]. split.
  - repeat (apply Forall_cons; [repeat (apply Forall2_cons; [split; [reflexivity | exact I] |]); apply Forall2_nil |]). apply Forall_nil.
  - assert (Hh : forall i n, i < length para_heap -> (forall c, In (i, c) (edges para_heap) -> height para_heap c n) -> height para_heap i (S n)).
    { intros i n Hi Hc. constructor; [exact Hi |]. intros c H. apply Hc, child_edge, H. }
    assert (Hl : forall i, i < length para_heap -> i < 6) by (vm_compute; auto).
    assert (He : edges para_heap = [(0, 1); (1, 2); (2, 3); (2, 4); (4, 5)]) by (vm_compute; reflexivity).
    rewrite He in Hh. change (length para_heap) with 6 in Hh.
    assert (H5 : forall n, height para_heap 5 (S n)) by (intro n; apply Hh; [lia |]; cbn; intros c H; repeat destruct H as [H | H]; try congruence; contradiction).
    assert (H3 : forall n, height para_heap 3 (S n)) by (intro n; apply Hh; [lia |]; cbn; intros c H; repeat destruct H as [H | H]; try congruence; contradiction).
    assert (H4 : height para_heap 4 2) by (apply Hh; [lia |]; cbn; intros c H; repeat destruct H as [H | H]; try congruence; try contradiction; injection H as <-; apply H5).
    assert (H2 : height para_heap 2 3) by (apply Hh; [lia |]; cbn; intros c H; repeat destruct H as [H | H]; try congruence; try contradiction; injection H as <-; auto).
    apply Hh; [lia |]; cbn; intros c H; repeat destruct H as [H | H]; try congruence; try contradiction; injection H as <-; auto.
Qed.

(* the base visitor (and that for YAML) with add_parent=False *)
Lemma base_no_parents transformer ctx : no_parents (base_hooks transformer) (mkKwargs ctx false).
Proof. split; [reflexivity |]. reflexivity. Qed.

(* The list [* a]: document_processors/list.py:27 gives the nodes of the text of an
   item the list as their parent, not the item that contains them. *)
Definition list_heap : heap :=
  [plain_obj KDocument None [("content", Nodes [1])];
   plain_obj KList (Some 0) [("ordered", Plain (VBool false)); ("main_node", Plain (VBool true)); ("start", Plain (VInt 1)); ("content", Nodes [2]); ("labels", Named [])];
   plain_obj KListItem (Some 1) [("content", Nodes [3]); ("level", Plain (VInt 1))];
   plain_obj KText (Some 1) [("value", Plain (VStr (lit "a")))]]%string.
Lemma C50_refuted : closed list_heap /\ proper_heap list_heap /\
  exists h' l', deepcopy 3 list_heap 1 (Some 0) = Ok (h', l') /\
    visit (base_hooks (fun d => d)) (mkKwargs true true) 4 h' l' <> visit (base_hooks (fun d => d)) (mkKwargs true true) 4 list_heap 1.
Proof.
  split; [apply closedb_closed; vm_compute; reflexivity |]. split.
  - repeat (apply Forall_cons; [repeat (apply Forall2_cons; [split; [reflexivity | exact I] |]); apply Forall2_nil |]). apply Forall_nil.
  - do 2 eexists. split; [vm_compute; reflexivity |]. vm_compute. discriminate.
Qed.
