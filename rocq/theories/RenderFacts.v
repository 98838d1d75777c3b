(* RenderFacts.v -- documents whose headers are plain can be rendered *)
From Verif Require Import Build BuildFacts SpecVisitor SpecRender PropertiesVisitor PropertiesVisit PropertiesBuild.
From Coq Require Import List Lia PeanoNat.
Import ListNotations.
#[local] Open Scope list_scope.
#[local] Notation length := List.length.

(* ------------------------------------------------------------- calm objects *)
(* the classes whose objects are assigned to after they are made, except for the ids
   of the headers *)
Definition mutable (k : kind) : bool := match k with KMacroFootnote | KMacroHeader | KToc | KFootnotes | KBlockGroup => true | _ => false end.
(* An object is calm when no object that it leads to is assigned to; N is the number of
   the objects before the assignments. *)
Inductive calm (N : nat) (h : heap) : nat -> Prop :=
| calm_intro i o : nth_error h i = Some o -> (N <= i \/ mutable (o_kind o) = false) ->
    (forall k f c, In (k, f) (o_fields o) -> In c (refs f) -> calm N h c) -> calm N h i.

Lemma calm_extends N h h' i : extends h h' -> calm N h i -> calm N h' i.
Proof. intros X C. induction C as [i o E M _ IH]. econstructor; [exact (extends_some _ _ _ _ X E) | exact M | exact IH]. Qed.
Lemma calm_put N h m o k v i : nth_error h m = Some o -> m < N -> mutable (o_kind o) = true -> calm N h i -> calm N (put h m k v) i.
Proof.
  intros Em Hm Mm C. induction C as [i oi E M _ IH]. destruct (Nat.eq_dec i m) as [-> | Hne].
  - assert (oi = o) as -> by congruence. destruct M as [M | M]; [lia | congruence].
  - econstructor; [rewrite (put_nth _ _ _ _ _ _ E); destruct (Nat.eq_dec i m); [congruence | reflexivity] | exact M | exact IH].
Qed.
Lemma calm_put_value N h m k v i : refs v = [] -> calm N h i -> calm N (put h m k v) i.
Proof.
  intros Hv C. induction C as [i o E M _ IH]. econstructor; [exact (put_nth _ _ _ _ _ _ E) | |].
  - destruct (Nat.eq_dec i m); exact M.
  - intros k' f c Hf Hc. destruct (Nat.eq_dec i m); [| eauto]. cbn in Hf. destruct (set_field_in _ _ _ _ _ Hf) as [[-> ->] | Hf']; [rewrite Hv in Hc; destruct Hc | eauto].
Qed.

(* The same with the parents changed. *)
Definition same_but_parents (h h' : heap) : Prop := length h' = length h /\
  forall i o, nth_error h i = Some o -> exists o', nth_error h' i = Some o' /\ o_kind o' = o_kind o /\ o_fields o' = o_fields o.
Lemma put_parent_same h l p : same_but_parents h (put_parent h l p).
Proof.
  split; [apply put_parent_length |]. intros i o E. rewrite (put_parent_nth _ _ _ _ _ E). eexists. split; [reflexivity |]. destruct (Nat.eq_dec i l); split; reflexivity.
Qed.
Lemma calm_parents N h h' i : same_but_parents h h' -> calm N h i -> calm N h' i.
Proof.
  intros [_ S1] C. induction C as [i o E M _ IH]. destruct (S1 i o E) as (o' & E' & K & F). econstructor; [exact E' | rewrite K; exact M |]. rewrite F. exact IH.
Qed.

(* The objects of the tree have levels: those of a block of a group are lower than the
   node that shows the group. *)
Section Levels.
Context (lev : nat -> nat).
(* an item of a group, whose block is lower than a level *)
Definition block_item (N : nat) (h : heap) (top c : nat) : Prop :=
  N <= c /\ exists o, nth_error h c = Some o /\ o_kind o = KBlockGroupItem /\ forall k f x, In (k, f) (o_fields o) -> In x (refs f) -> x < N /\ lev x < top.
Lemma block_item_extends N h h' t c : extends h h' -> block_item N h t c -> block_item N h' t c.
Proof. intros X (L & o & E & H). split; [exact L |]. exists o. split; [exact (extends_some _ _ _ _ X E) | exact H]. Qed.
Lemma block_item_put N h m k v t c : m < N -> block_item N h t c -> block_item N (put h m k v) t c.
Proof.
  intros Hm (L & o & E & H). split; [exact L |]. exists o. split; [| exact H]. rewrite (put_nth _ _ _ _ _ _ E). destruct (Nat.eq_dec c m); [lia | reflexivity].
Qed.
Lemma block_item_put_value N h m k v t c : refs v = [] -> block_item N h t c -> block_item N (put h m k v) t c.
Proof.
  intros Hv (L & o & E & K & H). split; [exact L |]. eexists. split; [exact (put_nth _ _ _ _ _ _ E) |]. destruct (Nat.eq_dec c m); [| split; assumption].
  split; [exact K |]. intros k' f x Hf Hx. cbn in Hf. destruct (set_field_in _ _ _ _ _ Hf) as [[-> ->] | Hf']; [rewrite Hv in Hx; destruct Hx | eauto].
Qed.
Lemma block_item_parents N h h' t c : same_but_parents h h' -> block_item N h t c -> block_item N h' t c.
Proof.
  intros [_ S1] (L & o & E & K & H). split; [exact L |]. destruct (S1 c o E) as (o' & E' & K' & F'). exists o'. split; [exact E' |]. rewrite K', F'. split; assumption.
Qed.
Lemma block_item_top N h t t' c : t <= t' -> block_item N h t c -> block_item N h t' c.
Proof. intros Ht (L & o & E & K & H). split; [exact L |]. exists o. split; [exact E |]. split; [exact K |]. intros k f x Hf Hx. destruct (H k f x Hf Hx). split; lia. Qed.

(* The objects added are calm, or items of groups; the objects before them refer to
   later ones, to calm ones or to items of groups with lower blocks. *)
Definition settled (N : nat) (h : heap) : Prop :=
  N <= length h /\ (forall i, N <= i < length h -> calm N h i \/ exists t, block_item N h t i) /\
  (forall i o k f c, i < N -> nth_error h i = Some o -> In (k, f) (o_fields o) -> In c (refs f) ->
     (pointer (o_kind o) k = false /\ i < c < N /\ lev c <= lev i) \/ calm N h c \/ (pointer (o_kind o) k = false /\ block_item N h (lev i) c)).

Lemma settled_grow N h h' : settled N h -> extends h h' ->
  (forall i o k f c, length h <= i -> nth_error h' i = Some o -> In (k, f) (o_fields o) -> In c (refs f) -> i < c < length h' \/ calm N h c) ->
  settled N h' /\ forall i, length h <= i < length h' -> calm N h' i.
Proof.
  intros (L & I1 & I2) X F.
  assert (Hn : forall i, length h <= i < length h' -> calm N h' i).
  { assert (Hi : forall d i, length h' - i <= d -> length h <= i < length h' -> calm N h' i).
    { induction d as [| d IH]; intros i Hd Hi; [lia |].
      destruct (nth_some h' i (proj2 Hi)) as (o & Eo). econstructor; [exact Eo | left; lia |]. intros k f c Hf Hc.
      destruct (F i o k f c (proj1 Hi) Eo Hf Hc) as [Hr | Hr]; [apply IH; lia | exact (calm_extends _ _ _ _ X Hr)]. }
    intros i Hr. exact (Hi _ i (le_n _) Hr). }
  split; [| exact Hn]. split; [destruct X; lia |]. split.
  - intros i Hi. destruct (Nat.lt_ge_cases i (length h)) as [Hl | Hl]; [| left; apply Hn; lia].
    destruct (I1 i ltac:(lia)) as [C | [t C]]; [left; exact (calm_extends _ _ _ _ X C) | right; exists t; exact (block_item_extends _ _ _ _ _ X C)].
  - intros i o k f c Hi Eo Hf Hc. rewrite (proj2 X i) in Eo by lia. destruct (I2 i o k f c Hi Eo Hf Hc) as [Hr | [Hr | [Hp Hr]]]; [left; exact Hr | |].
    + right. left. exact (calm_extends _ _ _ _ X Hr).
    + right. right. split; [exact Hp | exact (block_item_extends _ _ _ _ _ X Hr)].
Qed.
Lemma settled_fresh N h h' : settled N h -> extends h h' ->
  (forall i o k f c, length h <= i -> nth_error h' i = Some o -> In (k, f) (o_fields o) -> In c (refs f) -> i < c < length h' \/ calm N h c) ->
  settled N h'.
Proof. intros A B C. exact (proj1 (settled_grow N h h' A B C)). Qed.
Lemma settled_pointer N h j o k f c : settled N h -> nth_error h j = Some o -> pointer (o_kind o) k = true -> In (k, f) (o_fields o) -> In c (refs f) -> calm N h c.
Proof.
  intros (L & I1 & I2) Eo Hp Hf Hc. destruct (Nat.lt_ge_cases j N) as [Hj | Hj].
  - destruct (I2 j o k f c Hj Eo Hf Hc) as [[Hr _] | [Hr | [Hr _]]]; [congruence | exact Hr | congruence].
  - destruct (I1 j (conj Hj (nth_length _ _ _ Eo))) as [C | (t & _ & o' & Eo' & K & _)].
    + inversion C as [? o' Eo' _ Hk]; subst. assert (o' = o) as -> by congruence. eauto.
    + assert (o' = o) as -> by congruence. rewrite K in Hp. discriminate Hp.
Qed.
Lemma segment_added N h cs ok : segment ok (length h) cs -> (forall c, ok c -> calm N h c) ->
  forall i o k f c, length h <= i -> nth_error (h ++ map fst cs) i = Some o -> In (k, f) (o_fields o) -> In c (refs f) -> i < c < length (h ++ map fst cs) \/ calm N h c.
Proof.
  intros Sg Hok i o k f c Hi Eo Hf Hc. rewrite app_length, map_length.
  rewrite nth_error_app2 in Eo by exact Hi. rewrite nth_error_map in Eo. change (obj * option nat)%type with cell in Eo. destruct (@nth_error cell cs (i - length h)) as [x |] eqn:Ex; cbn [option_map] in Eo; [| congruence].
  assert (o = fst x) as -> by congruence. destruct (Sg _ _ Ex) as (_ & _ & R). specialize (R k f c Hf Hc). destruct (pointer _ k); [right; exact (Hok c R) |].
  left. change (obj * option nat)%type with cell. lia.
Qed.
Lemma settled_segment N h cs ok : settled N h -> segment ok (length h) cs -> (forall c, ok c -> calm N h c) ->
  settled N (h ++ map fst cs) /\ forall i, length h <= i < length (h ++ map fst cs) -> calm N (h ++ map fst cs) i.
Proof. intros Hs Sg Hok. apply (settled_grow N h); [exact Hs | apply extends_app | exact (segment_added N h cs ok Sg Hok)]. Qed.
Lemma settled_copied N h h' : wf_heap h -> settled N h -> fresh (length h) h h' -> settled N h' /\ forall i, length h <= i < length h' -> calm N h' i.
Proof.
  intros Hw Hs [X F]. apply (settled_grow N h); [exact Hs | exact X |]. intros i o k f c Hi Eo Hf Hc.
  assert (Hp : forall j o, j < length h -> nth_error h' j = Some o -> proper o).
  { intros j oj Hj Ej. rewrite (proj2 X j Hj) in Ej. exact (wf_proper _ _ _ Hw Ej). }
  destruct (made_from_refs _ _ _ _ _ _ _ Hp (F i o Hi Eo) Hf Hc) as [Hr | (Hpt & j & oj & Hj & Ej & K & Hin)]; [left; exact (proj1 (proj2 Hr)) | right].
  rewrite (proj2 X j Hj) in Ej. apply (settled_pointer N h j oj k f c Hs Ej); [rewrite K; exact Hpt | exact Hin | exact Hc].
Qed.
(* An attribute of an object of the tree. *)
Lemma settled_put N h m o k v : settled N h -> nth_error h m = Some o -> m < N -> mutable (o_kind o) = true ->
  (forall c, In c (refs v) -> calm N h c \/ (pointer (o_kind o) k = false /\ block_item N h (lev m) c)) -> settled N (put h m k v).
Proof.
  intros (L & I1 & I2) Em Hm Mm Hv. assert (Hc : forall i, calm N h i -> calm N (put h m k v) i) by (intro i; exact (calm_put N h m o k v i Em Hm Mm)).
  assert (Hb : forall t i, block_item N h t i -> block_item N (put h m k v) t i) by (intros t i; exact (block_item_put N h m k v t i Hm)).
  split; [rewrite put_length; exact L |]. split; [intros i Hi; rewrite put_length in Hi; destruct (I1 i Hi) as [C | [t C]]; eauto |]. intros i o' k' f c Hi Eo Hf Hcin.
  destruct (nth_some h i) as (oi & Ei); [lia |]. rewrite (put_nth _ _ _ _ _ _ Ei) in Eo. destruct (Nat.eq_dec i m) as [-> | Hne].
  - assert (oi = o) as -> by congruence. assert (o' = new_obj o k v) as -> by congruence. cbn in Hf. destruct (set_field_in _ _ _ _ _ Hf) as [[-> ->] | Hf'].
    + right. cbn [new_obj o_kind]. destruct (Hv c Hcin) as [C | [P C]]; auto.
    + cbn [new_obj o_kind]. destruct (I2 m o k' f c Hi Ei Hf' Hcin) as [C | [C | [P C]]]; auto.
  - assert (o' = oi) as -> by congruence. destruct (I2 i oi k' f c Hi Ei Hf Hcin) as [C | [C | [P C]]]; auto.
Qed.
Lemma settled_put_value N h m k v : settled N h -> refs v = [] -> settled N (put h m k v).
Proof.
  intros (L & I1 & I2) Hv. assert (Hc : forall i, calm N h i -> calm N (put h m k v) i) by (intro i; exact (calm_put_value N h m k v i Hv)).
  assert (Hb : forall t i, block_item N h t i -> block_item N (put h m k v) t i) by (intros t i; exact (block_item_put_value N h m k v t i Hv)).
  split; [rewrite put_length; exact L |]. split; [intros i Hi; rewrite put_length in Hi; destruct (I1 i Hi) as [C | [t C]]; eauto |]. intros i o' k' f c Hi Eo Hf Hcin.
  destruct (nth_some h i) as (oi & Ei); [lia |]. rewrite (put_nth _ _ _ _ _ _ Ei) in Eo. destruct (Nat.eq_dec i m) as [-> | Hne].
  - assert (o' = new_obj oi k v) as -> by congruence. cbn in Hf. destruct (set_field_in _ _ _ _ _ Hf) as [[-> ->] | Hf']; [rewrite Hv in Hcin; destruct Hcin |].
    cbn [new_obj o_kind]. destruct (I2 m oi k' f c Hi Ei Hf' Hcin) as [C | [C | [P C]]]; auto.
  - assert (o' = oi) as -> by congruence. destruct (I2 i oi k' f c Hi Ei Hf Hcin) as [C | [C | [P C]]]; auto.
Qed.
Lemma settled_parents N h h' : same_but_parents h h' -> settled N h -> settled N h'.
Proof.
  intros Sm (L & I1 & I2). pose proof Sm as [Sl S1]. split; [lia |]. split.
  - intros i Hi. rewrite Sl in Hi. destruct (I1 i Hi) as [C | [t C]]; [left; exact (calm_parents _ _ _ _ Sm C) | right; exists t; exact (block_item_parents _ _ _ _ _ Sm C)].
  - intros i o' k f c Hi Eo Hf Hc. destruct (nth_some h i) as (oi & Ei); [lia |]. destruct (S1 i oi Ei) as (o2 & E2 & K2 & F2). assert (o2 = o') as -> by congruence. rewrite K2. rewrite F2 in Hf.
    destruct (I2 i oi k f c Hi Ei Hf Hc) as [C | [C | [P C]]]; [left; exact C | right; left; exact (calm_parents _ _ _ _ Sm C) | right; right; split; [exact P | exact (block_item_parents _ _ _ _ _ Sm C)]].
Qed.
(* A new item of a group. *)
Lemma settled_item N h o t : settled N h -> o_kind o = KBlockGroupItem -> (forall k f x, In (k, f) (o_fields o) -> In x (refs f) -> x < N /\ lev x < t) ->
  settled N (h ++ [o]) /\ block_item N (h ++ [o]) t (length h).
Proof.
  intros (L & I1 & I2) K Ho. pose proof (extends_app h [o]) as X.
  assert (Bn : block_item N (h ++ [o]) t (length h)).
  { split; [exact L |]. exists o. split; [rewrite nth_error_app2 by lia; rewrite Nat.sub_diag; reflexivity |]. split; assumption. }
  split; [| exact Bn]. split; [rewrite app_length; lia |]. split.
  - intros i Hi. rewrite app_length in Hi. cbn in Hi. destruct (Nat.eq_dec i (length h)) as [-> | Hne]; [right; exists t; exact Bn |].
    destruct (I1 i ltac:(lia)) as [C | [t' C]]; [left; exact (calm_extends _ _ _ _ X C) | right; exists t'; exact (block_item_extends _ _ _ _ _ X C)].
  - intros i oi k f c Hi Eo Hf Hc. rewrite (proj2 X i) in Eo by lia. destruct (I2 i oi k f c Hi Eo Hf Hc) as [Hr | [Hr | [Hp Hr]]]; [left; exact Hr | |].
    + right. left. exact (calm_extends _ _ _ _ X Hr).
    + right. right. split; [exact Hp | exact (block_item_extends _ _ _ _ _ X Hr)].
Qed.

(* ------------------------------------------------------------- heights *)
Lemma visit_height_mono h l n : visit_height h l n -> forall m, n <= m -> visit_height h l m.
Proof. intro H. induction H as [i n o E _ IH]. intros [| m] Hm; [lia |]. econstructor; [exact E |]. intros k f c Hf Hc. apply (IH k f c Hf Hc). lia. Qed.
Lemma all_heights h l : Forall (fun c => exists n, visit_height h c n) l -> exists n, Forall (fun c => visit_height h c n) l.
Proof.
  induction 1 as [| c l [n Hn] _ [m Hm]]; [exists 0; constructor |]. exists (max n m). constructor; [exact (visit_height_mono _ _ _ Hn _ (Nat.le_max_l _ _)) |].
  refine (Forall_impl _ _ Hm). intros x Hx. exact (visit_height_mono _ _ _ Hx _ (Nat.le_max_r _ _)).
Qed.
Lemma node_height h i o : nth_error h i = Some o -> (forall k f c, In (k, f) (o_fields o) -> In c (refs f) -> exists n, visit_height h c n) -> exists n, visit_height h i n.
Proof.
  intros E H. destruct (all_heights h (flat_map (fun kf : string * field => refs (snd kf)) (o_fields o))) as [n Hn].
  - apply Forall_forall. intros c Hc. apply in_flat_map in Hc. destruct Hc as ([k f] & Hf & Hc). eauto.
  - exists (S n). econstructor; [exact E |]. intros k f c Hf Hc. rewrite Forall_forall in Hn. apply Hn. apply in_flat_map. exists (k, f). split; assumption.
Qed.
Lemma calm_height N h i : calm N h i -> exists n, visit_height h i n.
Proof. induction 1 as [i o E _ _ IH]. exact (node_height h i o E IH). Qed.
Lemma settled_height N h : settled N h -> forall i, i < length h -> exists n, visit_height h i n.
Proof.
  intros (L & I1 & I2).
  assert (Hi : forall t d i, lev i < t -> N - i <= d -> i < N -> exists n, visit_height h i n).
  { induction t as [| t IHt]; intros d; [lia |]. induction d as [| d IH]; intros i Ht Hd Hi; [lia |].
    destruct (nth_some h i ltac:(lia)) as (o & Eo). apply (node_height h i o Eo). intros k f c Hf Hc.
    destruct (I2 i o k f c Hi Eo Hf Hc) as [(_ & Hr & Hl) | [Hr | (_ & _ & oc & Ec & _ & Hr)]]; [apply IH; lia | exact (calm_height _ _ _ Hr) |].
    apply (node_height h c oc Ec). intros k' f' x Hf' Hx. destruct (Hr k' f' x Hf' Hx) as [Hx1 Hx2]. apply (IHt (N - x) x); lia. }
  intros i Hl. destruct (Nat.lt_ge_cases i N) as [Hn | Hn]; [exact (Hi (S (lev i)) (N - i) i (Nat.lt_succ_diag_r _) (le_n _) Hn) |].
  destruct (I1 i (conj Hn Hl)) as [C | (t & _ & o & Eo & _ & Hr)]; [exact (calm_height _ _ _ C) |].
  apply (node_height h i o Eo). intros k f x Hf Hx. destruct (Hr k f x Hf Hx) as [Hx1 Hx2]. exact (Hi (S (lev x)) (N - x) x (Nat.lt_succ_diag_r _) (le_n _) Hx1).
Qed.
Lemma visit_height_height h i n : visit_height h i n -> height h i n.
Proof.
  induction 1 as [i n o E _ IH]. constructor; [exact (nth_length _ _ _ E) |]. intros c (o' & k & f & Eo & Hf & _ & Hc).
  assert (o' = o) as -> by congruence. eauto.
Qed.
Lemma height_mono h l n : height h l n -> forall m, n <= m -> height h l m.
Proof. intro H. induction H as [i n Hi _ IH]. intros [| m] Hm; [lia |]. constructor; [exact Hi |]. intros c Hc. apply (IH c Hc). lia. Qed.

(* ------------------------------------------------------------- the recursion limit *)
(* from some limit on, the result is the same *)
Definition eventually {A} (r : nat -> res A) (a : A) : Prop := exists n, forall m, n <= m -> r m = Ok a.
Lemma ev_const {A} (a : A) : eventually (fun _ => Ok a) a.
Proof. exists 0. reflexivity. Qed.
Lemma ev_bind {A B} (r : nat -> res A) (k : nat -> A -> res B) a b : eventually r a -> eventually (fun n => k n a) b -> eventually (fun n => let? x := r n in k n x) b.
Proof. intros [n Hn] [m Hm]. exists (max n m). intros j Hj. rewrite Hn by lia. cbn [rbind]. apply Hm. lia. Qed.

Section Mono.
  Context (cp cp' : heap -> nat -> option nat -> res (heap * nat)) (Hcp : forall H l p r, cp H l p = Ok r -> cp' H l p = Ok r).
  Lemma copy_list_mono new l : forall H r, copy_list cp new l H = Ok r -> copy_list cp' new l H = Ok r.
  Proof.
    induction l as [| c r IH]; intros H x E; cbn [copy_list] in E |- *; [exact E |].
    destruct (cp H c (Some new)) as [[H1 c'] |] eqn:E1; cbn [rbind] in E; [| discriminate]. rewrite (Hcp _ _ _ _ E1). cbn [rbind].
    destruct (copy_list cp new r H1) as [[H2 r'] |] eqn:E2; cbn [rbind] in E; [| discriminate]. rewrite (IH _ _ E2). exact E.
  Qed.
  Lemma copy_dict_mono new (l : list (str * nat)) : forall H r, copy_dict cp new l H = Ok r -> copy_dict cp' new l H = Ok r.
  Proof.
    induction l as [| [k c] r IH]; intros H x E; cbn [copy_dict] in E |- *; [exact E |].
    destruct (cp H c (Some new)) as [[H1 c'] |] eqn:E1; cbn [rbind] in E; [| discriminate]. rewrite (Hcp _ _ _ _ E1). cbn [rbind].
    destruct (copy_dict cp new r H1) as [[H2 r'] |] eqn:E2; cbn [rbind] in E; [| discriminate]. rewrite (IH _ _ E2). exact E.
  Qed.
  Lemma copy_field_mono new m f H r : copy_field cp new m f H = Ok r -> copy_field cp' new m f H = Ok r.
  Proof.
    destruct m, f as [v | l | d | [c |]]; cbn [copy_field]; auto; intro E.
    - destruct (copy_list cp new l H) as [[H1 l'] |] eqn:E1; cbn [rbind] in E; [| discriminate]. rewrite (copy_list_mono _ _ _ _ E1). exact E.
    - destruct (copy_dict cp new d H) as [[H1 l'] |] eqn:E1; cbn [rbind] in E; [| discriminate]. rewrite (copy_dict_mono _ _ _ _ E1). exact E.
    - destruct (cp H c (Some new)) as [[H1 c'] |] eqn:E1; cbn [rbind] in E; [| discriminate]. rewrite (Hcp _ _ _ _ E1). exact E.
    - destruct (cp H c (Some new)) as [[H1 c'] |] eqn:E1; cbn [rbind] in E; [| discriminate]. rewrite (Hcp _ _ _ _ E1). exact E.
  Qed.
  Lemma copy_fields_mono new o rows : forall H r, copy_fields cp new o rows H = Ok r -> copy_fields cp' new o rows H = Ok r.
  Proof.
    induction rows as [| [k m] rows IH]; intros H r E; cbn [copy_fields] in E |- *; [exact E |]. destruct (fget k (o_fields o)) as [f |]; [| exact E].
    destruct (copy_field cp new m f H) as [[H1 f'] |] eqn:E1; cbn [rbind] in E; [| discriminate]. rewrite (copy_field_mono _ _ _ _ _ E1). cbn [rbind].
    destruct (copy_fields cp new o rows H1) as [[H2 fs] |] eqn:E2; cbn [rbind] in E; [| discriminate]. rewrite (IH _ _ E2). exact E.
  Qed.
End Mono.
Lemma deepcopy_mono n : forall m, n <= m -> forall H l p r, deepcopy n H l p = Ok r -> deepcopy m H l p = Ok r.
Proof.
  induction n as [| n IH]; intros [| m] Hm H l p r E; cbn [deepcopy] in E |- *; try discriminate; [lia |].
  destruct (nth_error H l) as [o |]; [| exact E].
  destruct (copy_fields (deepcopy n) (length H) o (copied (o_kind o)) (H ++ [mkObj (o_kind o) p (o_args o) (o_ctx o) []])) as [[H1 fs] |] eqn:E1; cbn [rbind] in E; [| discriminate].
  rewrite (copy_fields_mono (deepcopy n) (deepcopy m) (IH m ltac:(lia)) _ _ _ _ _ E1). exact E.
Qed.
Lemma ev_copies h new l : wf_heap h -> (forall i, i < length h -> exists n, visit_height h i n) -> Forall (fun c => c < length h) l ->
  exists h' l', eventually (fun n => copy_list (deepcopy n) new l h) (h', l').
Proof.
  intros Hw Hh Hl. destruct (all_heights h l) as [n Hn]; [refine (Forall_impl _ _ Hl); intros c Hc; exact (Hh c Hc) |].
  assert (Hn' : Forall (fun c => height h c n) l) by (refine (Forall_impl _ _ Hn); intros c Hc; exact (visit_height_height _ _ _ Hc)).
  destruct (copy_list_ok h (proj1 Hw) (deepcopy n) n (deepcopy_copies _ n) (deepcopy_ok h (proj1 Hw) (proj2 Hw) n) new l h (extends_refl h) Hn') as (h' & l' & E & _).
  exists h', l'. exists n. intros m Hm. exact (copy_list_mono (deepcopy n) (deepcopy m) (deepcopy_mono n m Hm) _ _ _ _ E).
Qed.

(* ------------------------------------------------------------- headers *)
Definition still (c : cell) : Prop := mutable (o_kind (fst c)) = false /\ o_kind (fst c) <> KHeader.
Definition no_header (c : cell) : Prop := o_kind (fst c) <> KHeader.
Lemma place_all {A} (P : cell -> Prop) (f : nat -> A -> list cell) (l : list A) : forall base,
  (forall b a, In a l -> Forall P (f b a)) -> Forall P (snd (place f base l)).
Proof.
  induction l as [| a r IH]; intros base H; cbn [place]; [constructor |]. specialize (IH (base + length (f base a)) ltac:(intros; apply H; right; assumption)).
  pose proof (H base a (or_introl eq_refl)). destruct (place f (base + length (f base a)) r) as [ls cs]. cbn [snd] in *. apply Forall_app. split; assumption.
Qed.
Lemma inode_no_header i : forall parent base, Forall no_header (inode_cells parent base i).
Proof.
  induction i using inode_all; intros parent base; cbn [inode_cells]; unfold with_content;
    repeat (constructor; [unfold no_header; cbn; discriminate |]); try constructor;
    apply place_all; intros b a Ha; rewrite Forall_forall in H; apply (H a Ha).
Qed.
Lemma inode_still i : quiet i = true -> forall parent base, Forall still (inode_cells parent base i).
Proof.
  induction i using inode_all; intros Hq parent base; cbn [quiet] in Hq; try discriminate Hq; cbn [inode_cells]; unfold with_content;
    repeat (constructor; [split; [reflexivity | cbn; discriminate] |]); try constructor;
    apply place_all; intros b a Ha; rewrite Forall_forall in H; apply (H a Ha); rewrite forallb_forall in Hq; apply Hq; exact Ha.
Qed.
Lemma inodes_still l parent base : forallb quiet l = true -> Forall still (snd (place (inode_cells parent) base l)).
Proof. intro H. apply place_all. intros b a Ha. apply inode_still. rewrite forallb_forall in H. exact (H a Ha). Qed.
Lemma labels_still (l : labels) host base : forallb (fun l : str * list inode => forallb quiet (snd l)) l = true -> Forall still (snd (place (label_cells host) base l)).
Proof.
  intro H. apply place_all. intros b a Ha. unfold label_cells, with_content. constructor; [split; [reflexivity | cbn; discriminate] |].
  apply inodes_still. rewrite forallb_forall in H. exact (H a Ha).
Qed.
Lemma labels_no_header (l : labels) host base : Forall no_header (snd (place (label_cells host) base l)).
Proof.
  apply place_all. intros b a Ha. unfold label_cells, with_content. constructor; [unfold no_header; cbn; discriminate |].
  apply place_all. intros b' x Hx. apply inode_no_header.
Qed.

(* Every header is the first of objects that are not assigned to, and that refer only
   to objects after them among these. *)
Definition head_at (base j : nat) (cs : list cell) : Prop := exists len, 0 < len /\ forall i, j <= i < j + len ->
  exists c, nth_error cs i = Some c /\ mutable (o_kind (fst c)) = false /\ forall k f x, In (k, f) (o_fields (fst c)) -> In x (refs f) -> base + i < x < base + j + len.
Definition heads (base : nat) (cs : list cell) : Prop := forall j c, nth_error cs j = Some c -> o_kind (fst c) = KHeader -> head_at base j cs.

Lemma heads_none base cs : Forall no_header cs -> heads base cs.
Proof. intros F j c E K. rewrite Forall_forall in F. destruct (F c (nth_error_In _ _ E) K). Qed.
Lemma head_at_app base j cs ds : head_at base j cs -> head_at base j (cs ++ ds).
Proof.
  intros (len & L & H). exists len. split; [exact L |]. intros i Hi. destruct (H i Hi) as (c & E & M & R). exists c. split; [| split; assumption].
  rewrite nth_error_app1; [exact E |]. exact (nth_length _ _ _ E).
Qed.
Lemma head_at_shift base j cs ds : head_at (base + length cs) j ds -> head_at base (length cs + j) (cs ++ ds).
Proof.
  intros (len & L & H). exists len. split; [exact L |]. intros i Hi. destruct (H (i - length cs) ltac:(lia)) as (c & E & M & R). exists c.
  split; [rewrite nth_error_app2 by lia; exact E |]. split; [exact M |]. intros k f x Hf Hx. specialize (R k f x Hf Hx). lia.
Qed.
Lemma heads_app base cs ds : heads base cs -> heads (base + length cs) ds -> heads base (cs ++ ds).
Proof.
  intros H1 H2 j c E K. destruct (Nat.lt_ge_cases j (length cs)) as [Hj | Hj].
  - rewrite nth_error_app1 in E by exact Hj. apply head_at_app. exact (H1 j c E K).
  - rewrite nth_error_app2 in E by exact Hj. replace j with (length cs + (j - length cs)) by lia. apply head_at_shift. exact (H2 _ c E K).
Qed.
Lemma heads_cons base c cs : no_header c -> heads (S base) cs -> heads base (c :: cs).
Proof. intros H1 H2. apply (heads_app base [c] cs); [apply heads_none; constructor; [exact H1 | constructor] |]. cbn [length]. rewrite Nat.add_1_r. exact H2. Qed.
Lemma heads_place {A} (f : nat -> A -> list cell) (l : list A) : forall base, (forall b a, In a l -> base <= b -> heads b (f b a)) -> heads base (snd (place f base l)).
Proof.
  induction l as [| a r IH]; intros base H; cbn [place]; [apply heads_none; constructor |].
  specialize (IH (base + length (f base a)) ltac:(intros b x Hx Hb; apply H; [right; exact Hx | lia])). pose proof (H base a (or_introl eq_refl) (le_n _)).
  destruct (place f (base + length (f base a)) r) as [ls cs]. cbn [snd] in *. apply heads_app; assumption.
Qed.
Lemma heads_labels o num base l (p : list nat * list cell) : (forall ls lb, o_kind (o ls lb) <> KHeader) -> heads (S base) (snd p) -> heads base (with_labels o num base l p).
Proof.
  intros Ho Hp. unfold with_labels. pose proof (labels_no_header l base (S base + length (snd p))) as Hl.
  destruct (place (label_cells base) (S base + length (snd p)) l) as [ls cs]. cbn [snd] in Hl. apply heads_cons; [apply Ho |]. apply heads_app; [exact Hp | exact (heads_none _ _ Hl)].
Qed.
Lemma header_heads parent base h : below_of parent base -> quiet_header h = true -> heads base (header_cells parent base h).
Proof.
  intros Hb Hq. unfold quiet_header in Hq. apply andb_prop in Hq. destruct Hq as [Q1 Q2].
  destruct (header_segment (fun _ => False) parent base h Hb) as (Sg & _).
  assert (Hk : exists o cs, header_cells parent base h = o :: cs /\ o_kind (fst o) = KHeader /\ Forall still cs).
  { unfold header_cells, with_labels. pose proof (inodes_still (h_content h) (Some base) (S base) Q1) as S1.
    pose proof (labels_still (h_labels h) base (S base + length (snd (place (inode_cells (Some base)) (S base) (h_content h)))) Q2) as S2.
    destruct (place (label_cells base) _ (h_labels h)) as [ls cs]. cbn [snd] in S2. eexists. eexists. split; [reflexivity |]. split; [reflexivity |]. apply Forall_app. split; assumption. }
  destruct Hk as (o & cs & Eq & Ko & Hs). rewrite Eq in *. intros j c E K.
  assert (j = 0) as ->. { destruct j as [| j]; [reflexivity |]. cbn in E. rewrite Forall_forall in Hs. destruct (Hs c (nth_error_In _ _ E)) as [_ Hn]. congruence. }
  exists (length (o :: cs)). split; [cbn; lia |]. intros i Hi. destruct (nth_some (o :: cs) i ltac:(lia)) as (x & Ex). exists x. split; [exact Ex |]. split.
  - destruct i as [| i]; cbn in Ex; [assert (x = o) as -> by congruence; rewrite Ko; reflexivity |]. rewrite Forall_forall in Hs. exact (proj1 (Hs x (nth_error_In _ _ Ex))).
  - intros k f y Hf Hy. destruct (Sg i x Ex) as (_ & _ & R). specialize (R k f y Hf Hy). destruct (pointer _ k); [destruct R |]. lia.
Qed.
Lemma line_no_header p base l : Forall no_header (line_cells p base l).
Proof. unfold line_cells, with_content. constructor; [unfold no_header; cbn; discriminate |]. apply place_all. intros. apply inode_no_header. Qed.
Lemma source_no_header p base l : Forall no_header (source_line_cells p base l).
Proof.
  unfold source_line_cells. constructor; [unfold no_header; cbn; discriminate |]. destruct (sl_marker l) as [[v c] |]; [| constructor].
  constructor; [unfold no_header; cbn; discriminate | constructor].
Qed.
Lemma dnode_heads d : (forall h, In h (headers_of_node d) -> quiet_header h = true) -> forall parent base, below_of parent base -> heads base (dnode_cells parent base d).
Proof.
  assert (Hin : forall l, Forall (fun d => (forall h, In h (headers_of_node d) -> quiet_header h = true) -> forall parent base, below_of parent base -> heads base (dnode_cells parent base d)) l ->
    (forall h, In h (flat_map headers_of_node l) -> quiet_header h = true) -> forall parent base, below_of parent base -> heads base (snd (place (dnode_cells parent) base l))).
  { intros l F Hq parent base Hb. apply heads_place. intros b a Ha Hle. rewrite Forall_forall in F. apply (F a Ha); [| exact (below_le _ _ _ Hb Hle)].
    intros h Hh. apply Hq. apply in_flat_map. eauto. }
  induction d using dnode_all; intros Hq parent base Hb; cbn [headers_of_node] in Hq.
  - cbn [dnode_cells]. apply heads_labels; [intros; discriminate |]. exact (Hin l H Hq (Some base) (S base) (below_some _ _ (Nat.lt_succ_diag_r base))).
  - cbn [dnode_cells]. apply heads_labels; [intros; discriminate |].
    assert (Hp : below_of (if m then Some base else parent) (S base)) by (destruct m; [apply below_some; lia | eapply below_le; [eassumption | lia]]).
    exact (Hin l H Hq _ (S base) Hp).
  - destruct l as [| n l]; cbn [dnode_cells]; (apply heads_labels; [intros; discriminate |]); [apply heads_none; constructor |].
    pose proof (Hin _ H Hq (Some (S base)) (S (S base)) (below_some _ _ (Nat.lt_succ_diag_r (S base)))) as S1.
    destruct (place (dnode_cells (Some (S base))) (S (S base)) (n :: l)) as [ls cs]. cbn [snd] in *. apply heads_cons; [unfold no_header; cbn; discriminate | exact S1].
  - destruct d; try destruct H; cbn [dnode_cells];
      try (apply heads_labels; [intros; discriminate |]; try (apply heads_none; constructor; fail)).
    + apply header_heads; [exact Hb | apply Hq; left; reflexivity].
    + apply heads_none, place_all. intros ? ? _. apply line_no_header.
    + apply heads_none, place_all. intros ? ? _. constructor; [unfold no_header; cbn; discriminate | constructor].
    + apply heads_none, place_all. intros ? ? _. apply source_no_header.
    + unfold with_content. apply heads_none. constructor; [unfold no_header; cbn; discriminate |]. apply place_all. intros ? ? _. apply inode_no_header.
    + apply heads_none, place_all. intros ? ? _. constructor; [unfold no_header; cbn; discriminate | constructor].
Qed.

(* ------------------------------------------------------------- the tree *)
Definition ordered (h : heap) : Prop := forall i o k f c, nth_error h i = Some o -> In (k, f) (o_fields o) -> In c (refs f) ->
  pointer (o_kind o) k = false /\ i < c < length h.
Definition calm_headers (h : heap) : Prop := forall j o, nth_error h j = Some o -> o_kind o = KHeader -> forall N, calm N h j.
Lemma ordered_add h cs : ordered h -> segment (fun _ => False) (length h) cs -> ordered (h ++ map fst cs).
Proof.
  intros Ho Sg i o k f c E Hf Hc. rewrite app_length, map_length. change (obj * option nat)%type with cell. destruct (Nat.lt_ge_cases i (length h)) as [Hi | Hi].
  - rewrite nth_error_app1 in E by exact Hi. destruct (Ho i o k f c E Hf Hc) as [P R]. split; [exact P | lia].
  - rewrite nth_error_app2 in E by exact Hi. rewrite nth_error_map in E. change (obj * option nat)%type with cell in E.
    destruct (@nth_error cell cs (i - length h)) as [x |] eqn:Ex; cbn [option_map] in E; [| congruence]. assert (o = fst x) as -> by congruence.
    destruct (Sg _ _ Ex) as (_ & _ & R). specialize (R k f c Hf Hc). destruct (pointer _ k); [destruct R |]. split; [reflexivity | lia].
Qed.
Lemma calm_headers_add h cs : calm_headers h -> heads (length h) cs -> calm_headers (h ++ map fst cs).
Proof.
  intros Hh Hd j o E K N. destruct (Nat.lt_ge_cases j (length h)) as [Hj | Hj].
  - rewrite nth_error_app1 in E by exact Hj. exact (calm_extends _ _ _ _ (extends_app _ _) (Hh j o E K N)).
  - pose proof E as E'. rewrite nth_error_app2 in E' by exact Hj. rewrite nth_error_map in E'. change (obj * option nat)%type with cell in E'.
    destruct (@nth_error cell cs (j - length h)) as [x |] eqn:Ex; cbn [option_map] in E'; [| congruence]. assert (o = fst x) as -> by congruence.
    destruct (Hd _ _ Ex K) as (len & L & Hl).
    assert (Hc : forall d i, j + len - i <= d -> j <= i < j + len -> calm N (h ++ map fst cs) i).
    { induction d as [| d IH]; intros i Hdi Hi; [lia |]. destruct (Hl (i - length h) ltac:(lia)) as (y & Ey & M & R).
      econstructor; [rewrite nth_error_app2 by lia; rewrite nth_error_map; change (obj * option nat)%type with cell; rewrite Ey; reflexivity | right; exact M |].
      intros k f c Hf Hcin. specialize (R k f c Hf Hcin). apply IH; lia. }
    apply (Hc _ j (le_n _)). lia.
Qed.
Definition tidy (b : build) : Prop := ordered (b_heap b) /\ calm_headers (b_heap b).
Lemma tidy_add b cs : tidy b -> segment (fun _ => False) (length (b_heap b)) cs -> heads (length (b_heap b)) cs -> tidy (add_cells b cs).
Proof. intros [A B] Sg Hd. split; cbn; [exact (ordered_add _ _ A Sg) | exact (calm_headers_add _ _ B Hd)]. Qed.
Lemma tidy_parts l : (forall p : part * dnode, In p l -> forall h, In h (headers_of_node (snd p)) -> quiet_header h = true) -> forall b, tidy b -> tidy (fold_left join_part l b).
Proof.
  induction l as [| p l IH]; intros Hq b Hb; cbn [fold_left]; [exact Hb |]. apply IH; [intros q Hin; apply Hq; right; exact Hin |].
  unfold join_part. destruct (find (same_part _) (b_parts b)) as [[[q i] k] |]; [exact Hb |].
  destruct (dnode_segment (fun _ => False) (snd p) None (length (b_heap b)) (below_none _)) as (S1 & _).
  exact (tidy_add b _ Hb S1 (dnode_heads (snd p) (Hq p (or_introl eq_refl)) None _ (below_none _))).
Qed.
Lemma tidy_headers l : (forall h, In h l -> quiet_header h = true) -> forall b, tidy b -> tidy (fold_left add_header l b).
Proof.
  induction l as [| h l IH]; intros Hq b Hb; cbn [fold_left]; [exact Hb |]. apply IH; [intros q Hin; apply Hq; right; exact Hin |].
  unfold add_header. destruct (locate KHeader (h_id h) (b_nums b)); [exact Hb |].
  destruct (header_segment (fun _ => False) None (length (b_heap b)) h (below_none _)) as (S1 & _).
  exact (tidy_add b _ Hb S1 (header_heads None _ h (below_none _) (Hq h (or_introl eq_refl)))).
Qed.
Lemma toc_headers_same t : toc_headers t = headers_of_item t.
Proof. reflexivity. Qed.
Lemma parts_quiet done p h : In p (flat_map parts_of done) -> In h (headers_of_node (snd p)) -> In h (flat_map headers_of_assign done).
Proof.
  rewrite !in_flat_map. intros (a & Ha & Hp) Hh. exists a. split; [exact Ha |]. destruct a as [? f | ? l | | | | ? ? items]; cbn [parts_of headers_of_assign] in *; try contradiction.
  - destruct Hp as [<- | []]. exact Hh.
  - apply in_map_iff in Hp. destruct Hp as (f & <- & Hf). apply in_flat_map. exists f. split; assumption.
  - apply in_map_iff in Hp. destruct Hp as (kb & <- & Hk). apply in_flat_map. exists kb. split; assumption.
Qed.
Lemma headers_in_quiet done h : In h (flat_map headers_in done) -> In h (flat_map headers_of_assign done).
Proof.
  rewrite !in_flat_map. intros (a & Ha & Hh). exists a. split; [exact Ha |]. destruct a as [? f | ? l | | ? nested plain | | ? ? items]; cbn [headers_in headers_of_assign] in *; try contradiction; auto.
Qed.
Lemma build_tree_tidy doc done : quiet_headers (fst doc) done -> tidy (build_tree doc done).
Proof.
  intro Hq. unfold build_tree. apply tidy_headers; [intros h Hh; apply Hq, in_or_app; right; exact (headers_in_quiet _ _ Hh) |].
  apply tidy_parts; [intros p Hp h Hh; apply Hq, in_or_app; right; exact (parts_quiet _ _ _ Hp Hh) |].
  destruct (document_segment doc) as (S1 & _). assert (H0 : heads 0 (document_cells doc)).
  { unfold document_cells, with_content. apply heads_cons; [unfold no_header; cbn; discriminate |]. apply heads_place. intros b a Ha Hb.
    apply dnode_heads; [| apply below_some; lia]. intros h Hh. apply Hq, in_or_app. left. apply in_flat_map. eauto. }
  assert (T0 : tidy (mkBuild [] [] [] [] [])) by (split; [intros [|] ? ? ? ? E; discriminate E | intros [|] ? E; discriminate E]).
  exact (tidy_add (mkBuild [] [] [] [] []) (document_cells doc) T0 S1 H0).
Qed.
(* every header of the assignments has an object *)
Lemma locate_app_l k i l r m : locate k i l = Some m -> locate k i (l ++ r) = Some m.
Proof. revert m. induction l as [| t l IH]; intros m E; cbn in E |- *; [discriminate |]. destruct (tagged k i t); [exact E |]. destruct (locate k i l) as [x |]; [| discriminate]. rewrite (IH x eq_refl). exact E. Qed.
Lemma locate_new k i l r : exists m, locate k i (l ++ Some (k, i) :: r) = Some m.
Proof.
  induction l as [| t l [m E]]; cbn.
  - destruct (kind_dec k k); [| congruence]. rewrite Nat.eqb_refl. eauto.
  - destruct (tagged k i t); [eauto |]. rewrite E. cbn. eauto.
Qed.
Definition has_header (b : build) (i : nat) : Prop := exists m, locate KHeader i (b_nums b) = Some m.
Lemma add_header_keeps b h i : has_header b i -> has_header (add_header b h) i.
Proof. intros [m E]. unfold add_header, has_header. destruct (locate KHeader (h_id h) (b_nums b)); [eauto |]. exists m. cbn. apply locate_app_l. exact E. Qed.
Lemma add_header_has b h : has_header (add_header b h) (h_id h).
Proof.
  unfold add_header, has_header. destruct (locate KHeader (h_id h) (b_nums b)) as [m |] eqn:E; [eauto |]. cbn. unfold header_cells, with_labels.
  destruct (place (label_cells _) _ (h_labels h)) as [ls cs]. cbn [map tag_of fst snd option_map o_kind]. apply locate_new.
Qed.
Lemma add_headers_keep l : forall b i, has_header b i -> has_header (fold_left add_header l b) i.
Proof. induction l as [| h l IH]; intros b i H; cbn [fold_left]; [exact H |]. apply IH, add_header_keeps, H. Qed.
Lemma add_headers_all l : forall b h, In h l -> has_header (fold_left add_header l b) (h_id h).
Proof. induction l as [| x l IH]; intros b h; [intros [] |]. intros [-> | H]; cbn [fold_left]; [apply add_headers_keep, add_header_has | apply IH, H]. Qed.
Lemma build_tree_headers doc done h : In h (flat_map headers_in done) -> has_header (build_tree doc done) (h_id h).
Proof. intro H. unfold build_tree. apply add_headers_all. exact H. Qed.

(* ------------------------------------------------------------- the assignments *)
(* The levels of the objects of the tree agree with the groups. *)
Definition levelled (done : list assign) (b : build) : Prop :=
  (forall i o k f c, nth_error (b_heap b) i = Some o -> In (k, f) (o_fields o) -> In c (refs f) -> lev c <= lev i) /\
  (forall id m made items, locate KBlockGroup id (b_nums b) = Some m -> In (AGroup id made items) done -> made < lev m) /\
  (forall id made items pos e, In (AGroup id made items) done -> In pos (map fst items) ->
     find (fun e : part * option nat * nat => part_eqb (PBlock id made pos) (fst (fst e))) (b_parts b) = Some e -> lev (snd e) <= made).
Definition ready (N : nat) (done : list assign) (b : build) : Prop :=
  wf b /\ settled N (b_heap b) /\ bodies_there done b /\ length (b_nums b) = N /\
  Forall (fun e => calm N (b_heap b) (snd e)) (b_foots b) /\
  (forall t, In t (flat_map headers_in done) -> calm N (b_heap b) (header_loc b t)) /\
  Forall (fun e : nat * str * str * nat => block_item N (b_heap b) (S (fst (fst (fst e)))) (snd e)) (b_items b) /\
  (forall id m made items, locate KBlockGroup id (b_nums b) = Some m -> In (AGroup id made items) done -> made < lev m) /\
  (forall id made items pos e, In (AGroup id made items) done -> In pos (map fst items) ->
     find (fun e : part * option nat * nat => part_eqb (PBlock id made pos) (fst (fst e))) (b_parts b) = Some e -> snd e < N /\ lev (snd e) <= made).

Lemma build_tree_ready doc done : quiet_headers (fst doc) done -> levelled done (build_tree doc done) -> ready (length (b_heap (build_tree doc done))) done (build_tree doc done).
Proof.
  intros Hq (V1 & V2 & V3). destruct (build_tree_ok doc done) as (W & L & F & I). destruct (build_tree_tidy doc done Hq) as [O C].
  split; [exact W |]. split; [| split; [exact (build_tree_parts doc done) | split; [exact L | split; [| split; [| split; [| split; [exact V2 |]]]]]]].
  - split; [apply le_n |]. split; [intros i Hi; lia |]. intros i o k f c _ E Hf Hc. left. destruct (O i o k f c E Hf Hc). split; [assumption |]. split; [assumption |]. exact (V1 i o k f c E Hf Hc).
  - rewrite F. constructor.
  - intros t Ht. destruct (build_tree_headers doc done t Ht) as [m E]. unfold header_loc. rewrite E. destruct (located _ _ _ _ W E) as (o & Eo & K). exact (C m o Eo K _).
  - rewrite I. constructor.
  - intros id made items pos e Ha Hp Ef. split; [| exact (V3 id made items pos e Ha Hp Ef)]. destruct W as (_ & _ & _ & P & _). rewrite Forall_forall in P. exact (P _ (find_snd _ _ _ Ef)).
Qed.
Lemma located_N N done b k i m : ready N done b -> locate k i (b_nums b) = Some m -> m < N.
Proof. intros (_ & _ & _ & L & _) E. apply locate_nth in E. apply nth_length in E. lia. Qed.

(* a change of the heap *)
Lemma ready_set N done b h : ready N done b -> wf_heap h -> keeps (b_heap b) h -> settled N h -> (forall i, calm N (b_heap b) i -> calm N h i) ->
  (forall t i, block_item N (b_heap b) t i -> block_item N h t i) -> ready N done (set_heap b h).
Proof.
  intros (W & S1 & B & L & F & C & I & V) Wh K Sh Hc Hb. split; [exact (wf_set _ _ W Wh K) |]. split; [exact Sh |]. split; [exact B |]. split; [exact L |].
  split; [refine (Forall_impl _ _ F); intros e He; exact (Hc _ He) |]. split; [intros t Ht; apply Hc; exact (C t Ht) |].
  split; [refine (Forall_impl _ _ I); intros e He; exact (Hb _ _ He) | exact V].
Qed.
Lemma ready_heights N done b : ready N done b -> forall i, i < length (b_heap b) -> exists n, visit_height (b_heap b) i n.
Proof. intros (_ & S1 & _). exact (settled_height N _ S1). Qed.

Lemma make_footnote_ready N done b f : ready N done b -> exists b', eventually (fun n => make_footnote n b f) b' /\ ready N done b'.
Proof.
  intro R. pose proof R as (W & S1 & B & L & F & C & I & V). unfold make_footnote.
  destruct (find (same_foot f) (b_foots b)) as [e |] eqn:Ef; [exists b; split; [apply ev_const | exact R] |].
  destruct (find (same_body f) (b_parts b)) as [[[q i] body] |] eqn:Eb; [| exists b; split; [apply ev_const | exact R]].
  fold (footnote_obj f []). set (new := length (b_heap b)). set (h0 := b_heap b ++ [footnote_obj f []]).
  assert (W0 : wf_heap h0).
  { exact (wf_segment (fun _ => False) (b_heap b) [(footnote_obj f [], None)] (proj1 W) (footnote_seg _ _ f) (fun c (H : False) => match H with end)). }
  assert (S0 : settled N h0).
  { exact (proj1 (settled_segment N (b_heap b) [(footnote_obj f [], None)] (fun _ => False) S1 (footnote_seg _ _ f) (fun c (H : False) => match H with end))). }
  assert (L0 : length h0 = S new) by (unfold h0; rewrite app_length; cbn; lia).
  assert (Hl : Forall (fun c => c < length h0) (nodes_in (b_heap b) body "content")).
  { apply (Forall_lt (fun c => c) (length (b_heap b))); [lia | exact (nodes_in_lt _ _ _ (proj1 W))]. }
  destruct (ev_copies h0 new _ W0 (settled_height N h0 S0) Hl) as (h & ls & Ev).
  destruct Ev as [n0 Ev]. pose proof (Ev n0 (le_n _)) as Ec. destruct (wf_copies n0 h0 new _ h ls W0 ltac:(lia) Hl Ec) as (W1 & Fr & _ & R1).
  destruct Fr as [X1 _].
  assert (En : nth_error h new = Some (footnote_obj f [])).
  { apply (extends_some _ _ _ _ X1). unfold h0. rewrite nth_error_app2 by (unfold new; lia). unfold new. rewrite Nat.sub_diag. reflexivity. }
  set (b' := mkBuild (put h new "content" (Nodes ls)) (b_nums b) (b_parts b) (b_foots b ++ [(fst (fn_content f), fn_name f, new)]) (b_items b)).
  exists b'. assert (Hev : forall m, n0 <= m -> make_footnote m b f = Ok b').
  { intros m Hm. unfold make_footnote. rewrite Ef, Eb. fold (footnote_obj f []). fold new h0. rewrite (Ev m Hm). cbn [rbind]. fold (footnote_obj f ls).
    rewrite (update_put h new f ls En). reflexivity. }
  split.
  - exists n0. intros m Hm. specialize (Hev m Hm). unfold make_footnote in Hev. rewrite Ef, Eb in Hev. exact Hev.
  - assert (Xb : extends (b_heap b) (put h new "content" (Nodes ls))).
    { unfold put. rewrite En. apply extends_update; [| unfold new; lia]. eapply extends_trans; [apply (extends_app _ [footnote_obj f []]) | exact X1]. }
    destruct (make_footnote_wf n0 b f b' W (Hev n0 (le_n _))) as (Wb & _ & _ & Pb).
    assert (Sb : settled N (b_heap b') /\ forall i, length (b_heap b) <= i < length (b_heap b') -> calm N (b_heap b') i).
    { cbn [b' b_heap]. apply (settled_grow N (b_heap b)); [exact S1 | exact Xb |]. intros j o k g c Hj Ej Hg Hc. rewrite put_length.
      destruct (Nat.eq_dec j new) as [-> | Hne].
      - rewrite (put_nth _ _ _ _ _ _ En) in Ej. destruct (Nat.eq_dec new new) as [_ | ?]; [| congruence]. assert (o = footnote_obj f ls) as -> by (injection Ej as <-; reflexivity).
        in_fields Hg; injection Hg as <- <-; cbn [refs In] in Hc; try contradiction. left. specialize (R1 c Hc). lia.
      - destruct (nth_some h j) as (oj & Eoj); [apply nth_length in Ej; rewrite put_length in Ej; exact Ej |]. rewrite (put_nth _ _ _ _ _ _ Eoj) in Ej.
        destruct (Nat.eq_dec j new) as [? | _]; [congruence |]. assert (o = oj) as -> by congruence.
        assert (Hp : forall j o, j < length h0 -> nth_error h j = Some o -> proper o) by (intros ? ? _ E; exact (wf_proper _ _ _ W1 E)).
        assert (Hj' : length h0 <= j) by (change (length (b_heap b)) with new in Hj; lia).
        destruct (wf_copies n0 h0 new _ h ls W0 ltac:(lia) Hl Ec) as (_ & (_ & Fr) & _).
        destruct (made_from_refs _ _ _ _ _ _ _ Hp (Fr j oj Hj' Eoj) Hg Hc) as [Hr | (Hpt & j2 & o2 & Hj2 & Ej2 & K2 & Hin)]; [left; exact (proj1 (proj2 Hr)) | right].
        rewrite (proj2 X1 j2 Hj2) in Ej2. unfold h0 in Ej2. destruct (Nat.lt_ge_cases j2 (length (b_heap b))) as [Hlt | Hge].
        + rewrite nth_error_app1 in Ej2 by exact Hlt. apply (settled_pointer N (b_heap b) j2 o2 k g c S1 Ej2); [rewrite K2; exact Hpt | exact Hin | exact Hc].
        + rewrite nth_error_app2 in Ej2 by exact Hge. destruct (j2 - length (b_heap b)) as [| x]; [| destruct x; discriminate Ej2]. cbn in Ej2.
          assert (o2 = footnote_obj f []) as -> by congruence. in_fields Hin; injection Hin as <- <-; cbn [refs In] in Hc; contradiction. }
    destruct Sb as [Sb Sn]. split; [exact Wb |]. split; [exact Sb |]. split; [exact B |]. split; [exact L |]. split; [| split; [| split; [| exact V]]].
    + cbn [b' b_foots]. apply Forall_app. split; [refine (Forall_impl _ _ F); intros e He; exact (calm_extends _ _ _ _ Xb He) |]. constructor; [| constructor].
      cbn [snd]. apply Sn. cbn [b' b_heap]. rewrite put_length. split; [apply le_n |]. exact (nth_length _ _ _ En).
    + intros t Ht. cbn [b' b_heap]. apply (calm_extends _ _ _ _ Xb). exact (C t Ht).
    + cbn [b' b_items]. refine (Forall_impl _ _ I). intros e He. exact (block_item_extends _ _ _ _ _ Xb He).
Qed.
Lemma make_footnotes_ready N done l : forall b, ready N done b -> exists b', eventually (fun n => make_footnotes n b l) b' /\ ready N done b'.
Proof.
  induction l as [| f l IH]; intros b R; cbn [make_footnotes]; [exists b; split; [apply ev_const | exact R] |].
  destruct (make_footnote_ready N done b f R) as (b1 & E1 & R1). destruct (IH b1 R1) as (b2 & E2 & R2). exists b2. split; [| exact R2].
  exact (ev_bind (fun n => make_footnote n b f) (fun n b => make_footnotes n b l) b1 b2 E1 E2).
Qed.
Lemma foot_loc_calm N done b f l : ready N done b -> foot_loc b f = Ok l -> calm N (b_heap b) l.
Proof.
  intros (_ & _ & _ & _ & F & _) E. unfold foot_loc in E. destruct (find (same_foot f) (b_foots b)) as [[q k] |] eqn:Ef; [| discriminate]. assert (k = l) as -> by congruence.
  rewrite Forall_forall in F. exact (F _ (find_snd _ _ _ Ef)).
Qed.
Lemma foot_locs_calm N done b l : ready N done b -> forall ls, for_each (foot_loc b) l = Ok ls -> Forall (calm N (b_heap b)) ls.
Proof.
  intro R. induction l as [| f l IH]; intros ls E; cbn [for_each] in E; [assert (ls = []) as -> by congruence; constructor |].
  destruct (foot_loc b f) as [k |] eqn:Ek; cbn [rbind] in E; [| discriminate]. destruct (for_each (foot_loc b) l) as [ks |]; cbn [rbind] in E; [| discriminate].
  assert (ls = k :: ks) as -> by congruence. constructor; [exact (foot_loc_calm _ _ _ _ _ R Ek) | exact (IH ks eq_refl)].
Qed.
(* an attribute of an object of the tree *)
Lemma ready_put_item N done b m o k s v : ready N done b -> nth_error (b_heap b) m = Some o -> m < N -> mutable (o_kind o) = true ->
  In (k, s) (attributes (o_kind o)) -> of_shape s v -> (forall c, In c (refs v) -> calm N (b_heap b) c \/ (pointer (o_kind o) k = false /\ block_item N (b_heap b) (lev m) c)) ->
  ready N done (set_heap b (put (b_heap b) m k v)).
Proof.
  intros R Eo Hm M Hs Hv Hc. pose proof R as (W & S1 & _). apply ready_set; [exact R | | apply keeps_put | | |].
  - apply (wf_put _ m o k s v (proj1 W) Eo Hs Hv). intros c Hin. destruct (Hc c Hin) as [[i oi E _ _] | (_ & _ & oi & E & _)]; exact (nth_length _ _ _ E).
  - exact (settled_put N _ m o k v S1 Eo Hm M Hc).
  - intro i. exact (calm_put N _ m o k v i Eo Hm M).
  - intros t i. exact (block_item_put N _ m k v t i Hm).
Qed.
Lemma ready_put N done b m o k s v : ready N done b -> nth_error (b_heap b) m = Some o -> m < N -> mutable (o_kind o) = true ->
  In (k, s) (attributes (o_kind o)) -> of_shape s v -> (forall c, In c (refs v) -> calm N (b_heap b) c) -> ready N done (set_heap b (put (b_heap b) m k v)).
Proof. intros R Eo Hm M Hs Hv Hc. apply (ready_put_item N done b m o k s v R Eo Hm M Hs Hv). intros c Hin. left. exact (Hc c Hin). Qed.
(* objects after the others *)
Lemma ready_extend N done b h : ready N done b -> extends (b_heap b) h -> wf_heap h -> settled N h -> ready N done (set_heap b h).
Proof. intros R X W S1. apply ready_set; [exact R | exact W | exact (keeps_extends _ _ X) | exact S1 | intro i; exact (calm_extends _ _ _ _ X) | intros t i; exact (block_item_extends _ _ _ _ _ X)]. Qed.
Lemma calm_lt N h i : calm N h i -> i < length h.
Proof. intros [j o E _ _]. exact (nth_length _ _ _ E). Qed.

Lemma ready_copies N done b m l : ready N done b -> m < length (b_heap b) -> Forall (fun c => c < length (b_heap b)) l ->
  exists h ls, eventually (fun n => copy_each n m l (b_heap b)) (h, ls) /\ ready N done (set_heap b h) /\ extends (b_heap b) h /\ forall c, In c ls -> calm N h c.
Proof.
  intros R Hm Hl. pose proof R as (W & S1 & _). destruct (ev_copies (b_heap b) m l (proj1 W) (ready_heights _ _ _ R) Hl) as (h & ls & [n0 Ev]).
  exists h, ls. pose proof (Ev n0 (le_n _)) as Ec. destruct (wf_copies n0 (b_heap b) m l h ls (proj1 W) Hm Hl Ec) as (W1 & Fr & _ & R1).
  destruct (settled_copied N _ h (proj1 W) S1 Fr) as [S2 Sn]. split; [exists n0; exact Ev |]. split; [exact (ready_extend _ _ _ _ R (proj1 Fr) W1 S2) |].
  split; [exact (proj1 Fr) |]. intros c Hc. apply Sn. specialize (R1 c Hc). lia.
Qed.

(* the items of a group *)
Lemma place_item_ready N done id made items m name b pos b' l : In (AGroup id made items) done -> In pos (map fst items) -> m < N -> ready N done b ->
  place_item id made name m b pos = (b', l) -> ready N done b' /\ block_item N (b_heap b') (S made) l /\ (forall t c, block_item N (b_heap b) t c -> block_item N (b_heap b') t c).
Proof.
  intros Ha Hpos Hm R E. pose proof R as (W & S1 & B & L & F & C & I & V1 & V2). pose proof (proj1 S1) as LN. pose proof E as E'. unfold place_item in E.
  destruct (place_item_wf _ _ _ _ _ _ _ _ W (Nat.lt_le_trans _ _ _ Hm LN) E') as (Wb & Kb & Nb & _).
  destruct (find (same_item made name pos) (b_items b)) as [[[[m1 n1] p1] k] |] eqn:Ef.
  - assert (b' = set_heap b (put_parent (b_heap b) k m) /\ l = k) as [-> ->] by (split; congruence).
    pose proof (put_parent_same (b_heap b) k m) as Sm.
    assert (R' : ready N done (set_heap b (put_parent (b_heap b) k m))).
    { apply ready_set; [exact R | exact (proj1 Wb) | apply keeps_put_parent | exact (settled_parents _ _ _ Sm S1) | intro i; exact (calm_parents _ _ _ _ Sm) | intros t i; exact (block_item_parents _ _ _ _ _ Sm)]. }
    split; [exact R' |]. split; [| intros t c; exact (block_item_parents _ _ _ _ _ Sm)]. cbn [set_heap b_heap]. apply (block_item_parents _ _ _ _ _ Sm).
    rewrite Forall_forall in I. specialize (I _ (find_snd _ _ _ Ef)). cbn in I.
    pose proof (find_some _ _ Ef) as [_ Et]. cbn in Et. apply andb_prop in Et as [Et _]. apply andb_prop in Et as [Et _]. apply Nat.eqb_eq in Et. subst m1. exact I.
  - set (block := match find (fun e => part_eqb (PBlock id made pos) (fst (fst e))) (b_parts b) with Some (_, _, k) => k | None => 0 end) in *.
    assert (Hb : block < N /\ lev block <= made).
    { assert (Hin : exists d, In (PBlock id made pos, d) (flat_map parts_of done)).
      { apply in_map_iff in Hpos as ([p d] & Ep & Hp). cbn in Ep. subst p. exists d. apply in_flat_map. exists (AGroup id made items). split; [exact Ha |]. cbn [parts_of]. apply in_map_iff. exists (pos, d). split; [reflexivity | exact Hp]. }
      destruct Hin as [d Hin]. destruct (B _ Hin) as [[[q i] k] Ek]. cbn [fst] in Ek. unfold block. rewrite Ek. exact (V2 _ _ _ _ _ Ha Hpos Ek). }
    injection E as <- <-. cbn [b_heap]. set (o := mkObj KBlockGroupItem (Some m) empty_args empty_context _) in *.
    set (h := put_parent (b_heap b) block (length (b_heap b))) in *.
    pose proof (put_parent_same (b_heap b) block (length (b_heap b))) as Sm. fold h in Sm.
    assert (Lh : length h = length (b_heap b)) by apply put_parent_length.
    destruct (settled_item N h o (S made) (settled_parents _ _ _ Sm S1) eq_refl) as [S2 Bi].
    { intros k f x Hf Hx. unfold o in Hf. in_fields Hf; injection Hf as <- <-; cbn [refs In] in Hx; try contradiction. destruct Hx as [<- | []]. destruct Hb. split; [assumption | lia]. }
    rewrite Lh in Bi. pose proof (extends_app h [o]) as X.
    assert (Hc : forall i, calm N (b_heap b) i -> calm N (h ++ [o]) i) by (intros i Ci; exact (calm_extends _ _ _ _ X (calm_parents _ _ _ _ Sm Ci))).
    assert (Hbi : forall t i, block_item N (b_heap b) t i -> block_item N (h ++ [o]) t i) by (intros t i Ci; exact (block_item_extends _ _ _ _ _ X (block_item_parents _ _ _ _ _ Sm Ci))).
    split; [| split; [exact Bi | exact Hbi]]. split; [exact Wb |]. split; [exact S2 |]. split; [exact B |]. split; [exact L |]. cbn [b_heap b_foots b_items].
    split; [refine (Forall_impl _ _ F); intros e He; exact (Hc _ He) |]. split; [intros t Ht; apply Hc; exact (C t Ht) |].
    split; [| split; [exact V1 | exact V2]]. apply Forall_app. split; [refine (Forall_impl _ _ I); intros e He; exact (Hbi _ _ He) |]. constructor; [exact Bi | constructor].
Qed.
Lemma place_items_ready N done id made items m name : In (AGroup id made items) done -> m < N -> forall l b b' d, ready N done b -> (forall p, In p l -> In p (map fst items)) ->
  place_items id made name m b l = (b', d) -> ready N done b' /\ (forall c, In c (map snd d) -> block_item N (b_heap b') (S made) c).
Proof.
  intros Ha Hm l b b' d R Hl E.
  enough (H : ready N done b' /\ (forall c, In c (map snd d) -> block_item N (b_heap b') (S made) c) /\ forall t c, block_item N (b_heap b) t c -> block_item N (b_heap b') t c) by tauto.
  revert b b' d R Hl E. induction l as [| pos r IH]; intros b b' d R Hl E; cbn [place_items] in E.
  - assert (b' = b /\ d = []) as [-> ->] by (split; congruence). split; [exact R |]. split; [intros c [] | auto].
  - destruct (place_item id made name m b pos) as [b1 i] eqn:E1. destruct (place_items id made name m b1 r) as [b2 rest] eqn:E2.
    assert (b' = b2 /\ d = (pos, i) :: rest) as [-> ->] by (split; congruence).
    destruct (place_item_ready N done id made items m name b pos b1 i Ha (Hl pos (or_introl eq_refl)) Hm R E1) as (R1 & B1 & K1).
    destruct (IH b1 b2 rest R1 (fun p H => Hl p (or_intror H)) E2) as (R2 & B2 & K2). split; [exact R2 |]. split; [| intros t c H; exact (K2 _ _ (K1 _ _ H))].
    intros c [<- | Hc]; [exact (K2 _ _ B1) | exact (B2 c Hc)].
Qed.

Lemma do_assign_ready N done b a : ready N done b -> In a done -> exists b', eventually (fun n => do_assign n done b a) b' /\ ready N done b'.
Proof.
  intros R Ha. destruct a as [id f | id l | id s | id nested plain | id t cc | id made items]; cbn [do_assign].
  - destruct (make_footnotes_ready N done (made_with done f) b R) as (b1 & Ev & R1). pose proof R as (W & _ & B & _). pose proof R1 as (W1 & _).
    assert (Hf : In f (flat_map footnotes_of done)) by (apply in_flat_map; exists (AFootnote id f); split; [exact Ha | left; reflexivity]).
    destruct (foot_loc_there b1 f) as [l El].
    { destruct Ev as [n0 Ev]. destruct (make_footnotes_foots n0 _ _ _ W (Ev n0 (le_n _))) as (_ & B1). apply B1; [exact (made_with_in _ _ Hf) | exact (B _ (footnotes_parts _ _ Hf))]. }
    pose proof (foot_loc_calm _ _ _ _ _ R1 El) as Cl.
    set (b2 := match locate KMacroFootnote id (b_nums b1) with Some m => set_heap b1 (put (b_heap b1) m "footnote" (One (Some l))) | None => b1 end).
    exists b2. split.
    + apply (ev_bind (fun n => make_footnotes n b (made_with done f)) (fun n b1 => let? l0 := foot_loc b1 f in
        Ok match locate KMacroFootnote id (b_nums b1) with Some m => set_heap b1 (put (b_heap b1) m "footnote" (One (Some l0))) | None => b1 end) b1 b2 Ev).
      rewrite El. cbn [rbind]. apply ev_const.
    + unfold b2. destruct (locate KMacroFootnote id (b_nums b1)) as [m |] eqn:Em; [| exact R1]. destruct (located _ _ _ _ W1 Em) as (o & Eo & K).
      apply (ready_put N done b1 m o "footnote" SOpt); [exact R1 | exact Eo | exact (located_N _ _ _ _ _ _ R1 Em) | rewrite K; reflexivity | rewrite K; has_attribute | exact I |].
      intros x [<- | []]. exact Cl.
  - destruct (make_footnotes_ready N done (flat_map (made_with done) l) b R) as (b1 & Ev & R1). pose proof R as (W & _ & B & _). pose proof R1 as (W1 & S1 & _).
    assert (Hf : forall f, In f l -> In f (flat_map footnotes_of done)) by (intros f Hin; apply in_flat_map; exists (AFootnotes id l); split; [exact Ha | exact Hin]).
    destruct (foot_locs_there b1 l) as [ls El].
    { intros f Hin. destruct Ev as [n0 Ev]. destruct (make_footnotes_foots n0 _ _ _ W (Ev n0 (le_n _))) as (_ & B1).
      apply B1; [apply in_flat_map; exists f; split; [exact Hin | exact (made_with_in _ _ (Hf f Hin))] | exact (B _ (footnotes_parts _ _ (Hf f Hin)))]. }
    pose proof (foot_locs_calm _ _ _ _ R1 _ El) as Cl. pose proof (foot_locs_lt _ _ _ W1 El) as Ll.
    enough (He : exists b2, Ok match locate KFootnotes id (b_nums b1) with
         | Some m => let (items, cs) := place (footnote_cells m) (List.length (b_heap b1)) ls in set_heap b1 (put (b_heap b1 ++ map fst cs) m "footnotes" (Nodes items))
         | None => b1 end = Ok b2 /\ ready N done b2).
    { destruct He as (b2 & E2 & R2). exists b2. split; [| exact R2]. apply (ev_bind (fun n => make_footnotes n b (flat_map (made_with done) l)) (fun n b1 => let? ls0 := for_each (foot_loc b1) l in
        Ok match locate KFootnotes id (b_nums b1) with
         | Some m => let (items, cs) := place (footnote_cells m) (List.length (b_heap b1)) ls0 in set_heap b1 (put (b_heap b1 ++ map fst cs) m "footnotes" (Nodes items))
         | None => b1 end) b1 b2 Ev). rewrite El. cbn [rbind]. rewrite E2. apply ev_const. }
    destruct (locate KFootnotes id (b_nums b1)) as [m |] eqn:Em; [| exists b1; split; [reflexivity | exact R1]].
    destruct (located _ _ _ _ W1 Em) as (o & Eo & K). pose proof (nth_length _ _ _ Eo) as Lm. pose proof (located_N _ _ _ _ _ _ R1 Em) as Nm.
    destruct (footnote_cells_segment m (length (b_heap b1)) ls (calm N (b_heap b1)) Lm Cl) as (Sg & Rg & _).
    destruct (place (footnote_cells m) (length (b_heap b1)) ls) as [its cs]. cbn [fst snd] in Sg, Rg. eexists. split; [reflexivity |].
    assert (X : extends (b_heap b1) (b_heap b1 ++ map fst cs)) by apply extends_app.
    assert (W2 : wf_heap (b_heap b1 ++ map fst cs)) by (apply (wf_segment _ _ _ (proj1 W1) Sg); intros c Hc; apply calm_lt in Hc; lia).
    destruct (settled_segment N _ cs _ S1 Sg (fun c H => H)) as [S2 Sn].
    pose proof (ready_extend _ _ _ _ R1 X W2 S2) as R2.
    refine (ready_put N done _ m o "footnotes" SNodes (Nodes its) R2 (extends_some _ _ _ _ X Eo) Nm _ _ I _); [rewrite K; reflexivity | rewrite K; has_attribute |].
    intros c Hc. specialize (Rg c Hc). cbn [set_heap b_heap]. apply Sn. rewrite app_length, map_length. change (obj * option nat)%type with cell. lia.
  - exists (match locate KHeader id (b_nums b) with Some m => set_heap b (put (b_heap b) m "internal_id" (Plain (VStr s))) | None => b end).
    split; [apply ev_const |]. destruct (locate KHeader id (b_nums b)) as [m |] eqn:Em; [| exact R]. pose proof R as (W & S1 & _).
    destruct (located _ _ _ _ W Em) as (o & Eo & K). apply ready_set; [exact R | | apply keeps_put | | |].
    + apply (wf_put _ m o "internal_id" SPlain _ (proj1 W) Eo); [rewrite K; has_attribute | exact I | intros c []].
    + apply settled_put_value; [exact S1 | reflexivity].
    + intro i. apply calm_put_value. reflexivity.
    + intros t i. apply block_item_put_value. reflexivity.
  - destruct (locate KToc id (b_nums b)) as [m |] eqn:Em; [| exists b; split; [apply ev_const | exact R]].
    pose proof R as (W & S1 & _ & _ & _ & C & _). destruct (located _ _ _ _ W Em) as (o & Eo & K). pose proof (nth_length _ _ _ Eo) as Lm. pose proof (located_N _ _ _ _ _ _ R Em) as Nm.
    assert (Hh : forall t, In t (flat_map toc_headers nested ++ plain) -> calm N (b_heap b) (header_loc b t)).
    { intros t Ht. apply C. apply in_flat_map. exists (AToc id nested plain). split; [exact Ha | exact Ht]. }
    destruct (tocs_segment (header_loc b) m (calm N (b_heap b)) nested (length (b_heap b))) as (Sg & Rg & _);
      [apply Forall_forall; intros t Ht; apply Hh, in_or_app; left; exact Ht | exact Lm |].
    destruct (place (toc_cells (header_loc b) m) (length (b_heap b)) nested) as [its cs]. cbn [fst snd] in Sg, Rg.
    assert (X : extends (b_heap b) (b_heap b ++ map fst cs)) by apply extends_app.
    assert (W2 : wf_heap (b_heap b ++ map fst cs)) by (apply (wf_segment _ _ _ (proj1 W) Sg); intros c Hc; apply calm_lt in Hc; lia).
    destruct (settled_segment N _ cs _ S1 Sg (fun c H => H)) as [S2 Sn].
    pose proof (ready_extend _ _ _ _ R X W2 S2) as R2. pose proof (extends_some _ _ _ _ X Eo) as Eo2.
    assert (R3 : ready N done (set_heap b (put (b_heap b ++ map fst cs) m "nested_entries" (Nodes its)))).
    { refine (ready_put N done _ m o "nested_entries" SNodes (Nodes its) R2 Eo2 Nm _ _ I _); [rewrite K; reflexivity | rewrite K; has_attribute |].
      intros c Hc. specialize (Rg c Hc). cbn [set_heap b_heap]. apply Sn. rewrite app_length, map_length. change (obj * option nat)%type with cell. lia. }
    set (h1 := put (b_heap b ++ map fst cs) m "nested_entries" (Nodes its)) in *.
    assert (Eo3 : nth_error h1 m = Some (new_obj o "nested_entries" (Nodes its))).
    { unfold h1. rewrite (put_nth _ _ _ _ _ _ Eo2). destruct (Nat.eq_dec m m); [reflexivity | congruence]. }
    assert (L1 : length (b_heap b) <= length h1) by (unfold h1; rewrite put_length, app_length; lia).
    assert (Hpl : Forall (fun c => c < length h1) (map (header_loc b) plain)).
    { apply Forall_forall. intros c Hc. apply in_map_iff in Hc. destruct Hc as (x & <- & _). pose proof (header_loc_lt b x W). lia. }
    destruct (ready_copies N done (set_heap b h1) m (map (header_loc b) plain) R3 (nth_length _ _ _ Eo3) Hpl) as (h2 & ls & Ev & R4 & X2 & Cl). cbn [set_heap b_heap] in Ev, X2.
    exists (set_heap b (put h2 m "plain_entries" (Nodes ls))). split.
    + apply (ev_bind (fun n => copy_each n m (map (header_loc b) plain) h1) (fun n hl => let (h, ls) := hl in Ok (set_heap b (put h m "plain_entries" (Nodes ls)))) (h2, ls) _ Ev). apply ev_const.
    + refine (ready_put N done _ m (new_obj o "nested_entries" (Nodes its)) "plain_entries" SNodes (Nodes ls) R4 (extends_some _ _ _ _ X2 Eo3) Nm _ _ I Cl);
        [cbn; rewrite K; reflexivity | cbn; rewrite K; has_attribute].
  - destruct (locate KMacroHeader id (b_nums b)) as [m |] eqn:Em; [| exists b; split; [apply ev_const | exact R]].
    pose proof R as (W & S1 & _ & _ & _ & C & _). destruct (located _ _ _ _ W Em) as (o & Eo & K). pose proof (nth_length _ _ _ Eo) as Lm. pose proof (located_N _ _ _ _ _ _ R Em) as Nm.
    assert (Ct : calm N (b_heap b) (header_loc b t)).
    { apply C. apply in_flat_map. exists (AHeader id t cc). split; [exact Ha | left; reflexivity]. }
    set (v := One (Some (header_loc b t))) in *.
    assert (R1 : ready N done (set_heap b (put (b_heap b) m "header" v))).
    { apply (ready_put N done b m o "header" SOpt); [exact R | exact Eo | exact Nm | rewrite K; reflexivity | rewrite K; has_attribute | exact I |]. intros x [<- | []]. exact Ct. }
    set (h1 := put (b_heap b) m "header" v) in *.
    assert (Eo1 : nth_error h1 m = Some (new_obj o "header" v)).
    { unfold h1. rewrite (put_nth _ _ _ _ _ _ Eo). destruct (Nat.eq_dec m m); [reflexivity | congruence]. }
    destruct (nodes_in h1 m "content"); [| exists (set_heap b h1); split; [apply ev_const | exact R1]].
    pose proof R1 as (W1 & _).
    destruct (ready_copies N done (set_heap b h1) m (nodes_in h1 (header_loc b t) "content") R1 (nth_length _ _ _ Eo1) (nodes_in_lt _ _ _ (proj1 W1))) as (h2 & ls & Ev & R4 & X2 & Cl). cbn [set_heap b_heap] in Ev, X2.
    exists (set_heap b (put h2 m "content" (Nodes ls))). split.
    + apply (ev_bind (fun n => copy_each n m (nodes_in h1 (header_loc b t) "content") h1) (fun n hl => let (h, ls) := hl in Ok (set_heap b (put h m "content" (Nodes ls)))) (h2, ls) _ Ev). apply ev_const.
    + refine (ready_put N done _ m (new_obj o "header" v) "content" SNodes (Nodes ls) R4 (extends_some _ _ _ _ X2 Eo1) Nm _ _ I Cl);
        [cbn; rewrite K; reflexivity | cbn; rewrite K; has_attribute].
  - destruct (locate KBlockGroup id (b_nums b)) as [m |] eqn:Em; [| exists b; split; [apply ev_const | exact R]].
    pose proof R as (W & _ & _ & _ & _ & _ & _ & V1 & _). destruct (located _ _ _ _ W Em) as (o & Eo & K). pose proof (nth_length _ _ _ Eo) as Lm. pose proof (located_N _ _ _ _ _ _ R Em) as Nm.
    destruct (place_items id made (name_of (b_heap b) m) m b (map fst items)) as [b1 dd] eqn:Ep. eexists. split; [apply ev_const |].
    destruct (place_items_ready N done id made items m (name_of (b_heap b) m) Ha Nm (map fst items) b b1 dd R (fun p H => H) Ep) as (R1 & Hd).
    pose proof R1 as (W1 & _). destruct (place_items_wf _ _ _ _ _ _ _ _ W Lm Ep) as (_ & Kp & Np & _).
    destruct (proj2 Kp m o Eo) as (o1 & Eo1 & K1).
    apply (ready_put_item N done b1 m o1 "items" SNamed); [exact R1 | exact Eo1 | exact Nm | rewrite K1, K; reflexivity | rewrite K1, K; has_attribute | exact I |].
    intros c Hc. right. split; [rewrite K1, K; reflexivity |]. cbn [refs] in Hc. exact (block_item_top _ _ _ _ _ (V1 _ _ _ _ Em Ha) (Hd c Hc)).
Qed.
Lemma do_assigns_ready N done l : forall b, ready N done b -> incl l done -> exists b', eventually (fun n => do_assigns n done b l) b' /\ ready N done b'.
Proof.
  induction l as [| a l IH]; intros b R Hl; cbn [do_assigns]; [exists b; split; [apply ev_const | exact R] |].
  destruct (do_assign_ready N done b a R (Hl a (or_introl eq_refl))) as (b1 & E1 & R1).
  destruct (IH b1 R1 ltac:(intros x Hx; apply Hl; right; exact Hx)) as (b2 & E2 & R2). exists b2. split; [| exact R2].
  exact (ev_bind (fun n => do_assign n done b a) (fun n b => do_assigns n done b l) b1 b2 E1 E2).
Qed.
End Levels.
