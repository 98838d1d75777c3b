(* PropertiesBuild.v -- rendering the documents that the parser makes (C68) *)
From Verif Require Import Build BuildFacts SpecVisitor PropertiesVisitor PropertiesVisit.
From Coq Require Import List Lia PeanoNat.
Import ListNotations.
#[local] Open Scope list_scope.
#[local] Notation length := List.length.

Definition too_deep (e : exn) : Prop := e = ExPy "RecursionError".
Definition fails_with {A} (P : exn -> Prop) (r : res A) : Prop := forall e, r = Exc e -> P e.
Lemma fails_ok {A} P (a : A) : fails_with P (Ok a).
Proof. intros e E. discriminate. Qed.
Lemma fails_bind {A B} P (r : res A) (k : A -> res B) : fails_with P r -> (forall a, r = Ok a -> fails_with P (k a)) -> fails_with P (let? a := r in k a).
Proof. intros H1 H2. destruct r as [a | e]; cbn [rbind]; [apply H2; reflexivity |]. intros e' E. assert (e' = e) as -> by congruence. apply H1. reflexivity. Qed.

(* ------------------------------------------------------------- copies *)
Section Fail.
  Context (h : heap) (Hw : wf_heap h) (cp : heap -> nat -> option nat -> res (heap * nat)) (n : nat).
  Context (Hcp : copies (length h) cp n).
  Context (Hf : forall H l p, extends h H -> l < length h -> fails_with too_deep (cp H l p)).

  Lemma copy_step H l p H' l' : extends h H -> l < length h -> cp H l p = Ok (H', l') -> extends h H'.
  Proof. intros X Hl E. destruct (Hcp _ _ _ _ _ (own_of h (proj1 Hw) _ X) Hl E) as (X1 & _). exact (extends_trans _ _ _ X X1). Qed.
  Lemma copy_list_fails new l : forall H, extends h H -> Forall (fun c => c < length h) l ->
    fails_with too_deep (copy_list cp new l H) /\ forall H' l', copy_list cp new l H = Ok (H', l') -> extends h H'.
  Proof.
    induction l as [| c r IH]; intros H X Hl; cbn [copy_list]; [split; [apply fails_ok | intros H' l' E; congruence] |].
    inversion Hl as [| ? ? Hc Hr]; subst. specialize (Hf H c (Some new) X Hc).
    destruct (cp H c (Some new)) as [[H1 c'] | e] eqn:E1; cbn [rbind]; [| split; [intros e' E; apply Hf; congruence | discriminate]].
    destruct (IH H1 (copy_step _ _ _ _ _ X Hc E1) Hr) as (F2 & X2).
    destruct (copy_list cp new r H1) as [[H2 r'] | e] eqn:E2; cbn [rbind]; [| split; [intros e' E; apply F2; congruence | discriminate]].
    split; [apply fails_ok |]. intros H' l' E. assert (H' = H2) as -> by congruence. eauto.
  Qed.
  Lemma copy_dict_fails new (l : list (str * nat)) : forall H, extends h H -> Forall (fun c => c < length h) (map snd l) ->
    fails_with too_deep (copy_dict cp new l H) /\ forall H' l', copy_dict cp new l H = Ok (H', l') -> extends h H'.
  Proof.
    induction l as [| [k c] r IH]; intros H X Hl; cbn [copy_dict]; [split; [apply fails_ok | intros H' l' E; congruence] |].
    inversion Hl as [| ? ? Hc Hr]; subst. specialize (Hf H c (Some new) X Hc).
    destruct (cp H c (Some new)) as [[H1 c'] | e] eqn:E1; cbn [rbind]; [| split; [intros e' E; apply Hf; congruence | discriminate]].
    destruct (IH H1 (copy_step _ _ _ _ _ X Hc E1) Hr) as (F2 & X2).
    destruct (copy_dict cp new r H1) as [[H2 r'] | e] eqn:E2; cbn [rbind]; [| split; [intros e' E; apply F2; congruence | discriminate]].
    split; [apply fails_ok |]. intros H' l' E. assert (H' = H2) as -> by congruence. eauto.
  Qed.
  Lemma copy_fields_fails new o l : nth_error h l = Some o -> forall rows, incl rows (copied (o_kind o)) -> forall H, extends h H -> fails_with too_deep (copy_fields cp new o rows H).
  Proof.
    intro Eo. pose proof (wf_proper _ _ _ Hw Eo) as Hp. induction rows as [| [k m] rows IH]; intros Hin H X; cbn [copy_fields]; [apply fails_ok |].
    assert (Hrow : In (k, m) (copied (o_kind o))) by (apply Hin; left; reflexivity).
    destruct (copied_attribute _ _ _ Hrow) as (s0 & Hs0). destruct (proper_has _ _ _ Hp Hs0) as (f & Ef). rewrite Ef.
    destruct (proper_get _ _ _ Hp Ef) as (s & Hs & Hof). pose proof (copied_shape _ _ _ _ Hrow Hs) as He.
    assert (Hk : Forall (fun c => c < length h) (refs f)).
    { apply Forall_forall. intros c Hc. exact (proj2 (proj1 Hw l o Eo) k f c (fget_in _ _ _ Ef) Hc). }
    assert (Hone : forall c, c < length h -> fails_with too_deep (let? (h1, c') := cp H c (Some new) in Ok (h1, One (Some c'))) /\
      forall H' f', (let? (h1, c') := cp H c (Some new) in Ok (h1, One (Some c'))) = Ok (H', f') -> extends h H').
    { intros c Hc. pose proof (Hf H c (Some new) X Hc) as F. destruct (cp H c (Some new)) as [[H1 c'] | e] eqn:E1; cbn [rbind].
      - split; [apply fails_ok |]. intros H' f' E. assert (H' = H1) as -> by congruence. exact (copy_step _ _ _ _ _ X Hc E1).
      - split; [intros e' E; apply F; congruence | discriminate]. }
    assert (Hc : fails_with too_deep (copy_field cp new m f H) /\ forall H' f', copy_field cp new m f H = Ok (H', f') -> extends h H').
    { assert (Hsame : forall g, fails_with too_deep (Ok (H, g)) /\ forall H' f', Ok (H, g) = Ok (H', f') :> res (heap * field) -> extends h H').
      { intro g. split; [apply fails_ok |]. intros H' f' E. assert (H' = H) as -> by congruence. exact X. }
      destruct m, s; cbn in He; try discriminate He; destruct f as [v | fl | d | [c |]]; cbn [of_shape] in Hof; try contradiction; cbn [copy_field refs] in Hk |- *; auto;
        try (inversion Hk; subst; apply Hone; assumption).
      - destruct (copy_list_fails new fl H X Hk) as (F1 & X1). destruct (copy_list cp new fl H) as [[H1 l1] | e] eqn:E1; cbn [rbind];
          [| split; [intros e' E; apply F1; congruence | discriminate]].
        split; [apply fails_ok |]. intros H' f' E. assert (H' = H1) as -> by congruence. eauto.
      - destruct (copy_dict_fails new d H X Hk) as (F1 & X1). destruct (copy_dict cp new d H) as [[H1 l1] | e] eqn:E1; cbn [rbind];
          [| split; [intros e' E; apply F1; congruence | discriminate]].
        split; [apply fails_ok |]. intros H' f' E. assert (H' = H1) as -> by congruence. eauto. }
    destruct Hc as (F1 & X1). destruct (copy_field cp new m f H) as [[H1 f'] | e] eqn:E1; cbn [rbind]; [| intros e' E; apply F1; congruence].
    pose proof (IH ltac:(intros x Hx; apply Hin; right; exact Hx) H1 (X1 _ _ eq_refl)) as F2.
    destruct (copy_fields cp new o rows H1) as [[H2 fs] | e]; cbn [rbind]; [apply fails_ok | intros e' E; apply F2; congruence].
  Qed.
End Fail.
Lemma deepcopy_fails h : wf_heap h -> forall n H l p, extends h H -> l < length h -> fails_with too_deep (deepcopy n H l p).
Proof.
  intro Hw. induction n as [| n IH]; intros H l p X Hl; cbn [deepcopy]; [intros e E; unfold too_deep; congruence |].
  destruct (nth_some h l Hl) as (o & Eo). rewrite (extends_some _ _ _ _ X Eo).
  assert (X0 : extends h (H ++ [mkObj (o_kind o) p (o_args o) (o_ctx o) []])) by (eapply extends_trans; [exact X | apply extends_app]).
  pose proof (copy_fields_fails h Hw (deepcopy n) n (deepcopy_copies _ n) IH (length H) o l Eo (copied (o_kind o)) (incl_refl _) _ X0) as F.
  match type of F with fails_with _ ?r => destruct r as [[H1 fs] | e] end; cbn [rbind]; [apply fails_ok | intros e' E; apply F; congruence].
Qed.
Lemma copies_fail n new l h : wf_heap h -> Forall (fun c => c < length h) l -> fails_with too_deep (copy_list (deepcopy n) new l h).
Proof. intros Hw Hl. exact (proj1 (copy_list_fails h Hw (deepcopy n) n (deepcopy_copies _ n) (deepcopy_fails h Hw n) new l h (extends_refl h) Hl)). Qed.

(* ------------------------------------------------------------- visits *)
Definition from_hook (hk : hooks) (kw : kwargs) (h : heap) (e : exn) : Prop :=
  exists n l o d, nth_error h l = Some o /\ visit_data hk kw n h l = Ok d /\ hk_finish hk (jnode_of h o) d = Exc e.
Definition visit_failure (hk : hooks) (kw : kwargs) (h : heap) (e : exn) : Prop := too_deep e \/ from_hook hk kw h e.
Lemma finish_fails hk kw n h c d : c < length h -> visit_data hk kw n h c = Ok d -> fails_with (visit_failure hk kw h) (finish hk h c d).
Proof. intros Hc Hd e E. unfold finish in E. destruct (nth_some h c Hc) as (o & Eo). rewrite Eo in E. right. exists n, c, o, d. auto. Qed.
Lemma visit_data_fails hk kw h : wf_heap h -> forall n l, l < length h -> fails_with (visit_failure hk kw h) (visit_data hk kw n h l).
Proof.
  intro Hw. induction n as [| n IH]; intros l Hl; cbn [visit_data]; [intros e E; left; unfold too_deep; congruence |].
  destruct (nth_some h l Hl) as (o & Eo). rewrite Eo. pose proof (wf_proper _ _ _ Hw Eo) as Hpo. apply fails_bind; [| intros; apply fails_ok].
  assert (Hin : incl (visited (o_kind o)) (visited (o_kind o))) by apply incl_refl. revert Hin. generalize (visited (o_kind o)) at 1 3.
  intro rows. induction rows as [| [[key k] m] rows IHr]; intro Hin; cbn [visit_rows]; [apply fails_ok |].
  pose proof (Hin _ (or_introl eq_refl)) as Hrow. destruct (visited_attribute _ _ _ _ Hrow) as (s0 & Hs0).
  destruct (proper_has _ _ _ Hpo Hs0) as (f & Ef). rewrite Ef. destruct (proper_get _ _ _ Hpo Ef) as (s & Hs & Hof).
  pose proof (visited_shape _ _ _ _ _ Hrow Hs) as Hm.
  assert (Hc : forall c, In c (refs f) -> c < length h) by (intros c Hcin; exact (proj2 (proj1 Hw l o Eo) k f c (fget_in _ _ _ Ef) Hcin)).
  assert (Hn : forall c, In c (refs f) -> fails_with (visit_failure hk kw h) (let? d0 := visit_data hk kw n h c in finish hk h c d0)).
  { intros c Hcin. apply fails_bind; [exact (IH c (Hc c Hcin)) |]. intros d Ed. exact (finish_fails hk kw n h c d (Hc c Hcin) Ed). }
  assert (He : forall A (g : A -> nat) (l : list A), (forall a, In a l -> In (g a) (refs f)) ->
    fails_with (visit_failure hk kw h) (visit_each (fun a => let? d0 := visit_data hk kw n h (g a) in finish hk h (g a) d0) l)).
  { intros A g l0. induction l0 as [| a l0 IHl]; intro Hl0; cbn [visit_each]; [apply fails_ok |].
    apply fails_bind; [exact (Hn (g a) (Hl0 a (or_introl eq_refl))) |]. intros d _. apply fails_bind; [| intros; apply fails_ok].
    apply IHl. intros; apply Hl0; right; assumption. }
  apply fails_bind.
  - destruct s, m; try contradiction; destruct f as [v | fl | fd | [c |]]; cbn [of_shape] in Hof; try contradiction; cbn [visit_field refs] in *;
      try apply fails_ok; try (apply IH, Hc; left; reflexivity); try (apply Hn; left; reflexivity).
    + apply fails_bind; [| intros; apply fails_ok]. exact (He nat (fun c => c) fl ltac:(auto)).
    + apply fails_bind; [| intros; apply fails_ok]. exact (He (str * nat)%type snd fd ltac:(intros a Ha; exact (in_map snd _ _ Ha))).
  - intros d _. apply fails_bind; [apply IHr; intros x Hx; apply Hin; right; exact Hx | intros; apply fails_ok].
Qed.
Lemma visit_fails hk kw n h l : wf_heap h -> l < length h -> fails_with (visit_failure hk kw h) (visit hk kw n h l).
Proof. intros Hw Hl. unfold visit. apply fails_bind; [exact (visit_data_fails hk kw h Hw n l Hl) |]. intros d Ed. exact (finish_fails hk kw n h l d Hl Ed). Qed.

(* ------------------------------------------------------------- the build *)
Lemma part_eqb_refl p : part_eqb p p = true.
Proof. destruct p; cbn; rewrite !Nat.eqb_refl, str_eqb_refl; reflexivity. Qed.
Definition has_part (b : build) (p : part) : Prop := exists e, find (fun e : part * option nat * nat => part_eqb p (fst (fst e))) (b_parts b) = Some e.
Lemma find_app_l {A} (f : A -> bool) l r a : find f l = Some a -> find f (l ++ r) = Some a.
Proof. induction l as [| x l IH]; cbn; [discriminate |]. destruct (f x); [auto | exact IH]. Qed.
Lemma find_app_new {A} (f : A -> bool) l a : f a = true -> exists b, find f (l ++ [a]) = Some b.
Proof. intro H. induction l as [| x l IH]; cbn; [rewrite H; eauto |]. destruct (f x); eauto. Qed.
Lemma join_part_parts b p : exists i l, b_parts (join_part b p) = b_parts b ++ [(fst p, i, l)].
Proof. unfold join_part. destruct (find (same_part _) (b_parts b)) as [[[q i] l] |]; cbn; eauto. Qed.
Lemma join_parts_has l : forall b p, has_part b p -> has_part (fold_left join_part l b) p.
Proof.
  induction l as [| q l IH]; intros b p [e E]; cbn [fold_left]; [exists e; exact E |]. apply IH. destruct (join_part_parts b q) as (i & k & Eq).
  exists e. rewrite Eq. apply find_app_l. exact E.
Qed.
Lemma join_parts_all l : forall b p, In p l -> has_part (fold_left join_part l b) (fst p).
Proof.
  induction l as [| q l IH]; intros b p; [intros [] |]. intros [-> | H]; cbn [fold_left]; [| apply IH; exact H].
  apply join_parts_has. destruct (join_part_parts b p) as (i & k & Eq). unfold has_part. rewrite Eq. apply find_app_new. cbn. apply part_eqb_refl.
Qed.
Lemma add_headers_parts l : forall b, b_parts (fold_left add_header l b) = b_parts b.
Proof. induction l as [| q l IH]; intros b; cbn [fold_left]; [reflexivity |]. rewrite IH. unfold add_header. destruct (locate _ _ _); reflexivity. Qed.
Lemma build_tree_parts doc done p : In p (flat_map parts_of done) -> has_part (build_tree doc done) (fst p).
Proof. intro H. unfold build_tree, has_part. rewrite add_headers_parts. exact (join_parts_all _ _ _ H). Qed.

Definition bodies_there (done : list assign) (b : build) : Prop := forall p, In p (flat_map parts_of done) -> has_part b (fst p).
Lemma footnotes_parts done f : In f (flat_map footnotes_of done) -> In (body_part f) (flat_map parts_of done).
Proof.
  rewrite !in_flat_map. intros (a & Ha & Hf). exists a. split; [exact Ha |]. destruct a; cbn in *; try contradiction; [destruct Hf as [-> | []]; auto |].
  apply in_map. exact Hf.
Qed.
Definition has_foot (b : build) (f : footnote copy) : Prop := exists e, find (same_foot f) (b_foots b) = Some e.
Lemma make_footnote_foots n b f b' : make_footnote n b f = Ok b' -> (forall g, has_foot b g -> has_foot b' g) /\ (has_part b (fst (body_part f)) -> has_foot b' f).
Proof.
  intro E. unfold make_footnote in E. unfold has_foot at 3. destruct (find (same_foot f) (b_foots b)) as [e |] eqn:Ef.
  - assert (b' = b) as -> by congruence. split; [auto | intros _; rewrite Ef; eauto].
  - destruct (find (same_body f) (b_parts b)) as [[[q i] body] |] eqn:Eb.
    + destruct (copy_list _ _ _ _) as [[h ls] |]; cbn [rbind] in E; [| discriminate]. injection E as <-. cbn [b_foots]. split.
      * intros g [e Eg]. exists e. cbn [b_foots]. apply find_app_l. exact Eg.
      * intros _. apply find_app_new. unfold same_foot. cbn. rewrite Nat.eqb_refl, str_eqb_refl. reflexivity.
    + assert (b' = b) as -> by congruence. split; [auto |]. intros [e Ee]. unfold same_body in Eb. rewrite Eb in Ee. discriminate.
Qed.
Lemma make_footnotes_foots n l : forall b b', wf b -> make_footnotes n b l = Ok b' ->
  (forall g, has_foot b g -> has_foot b' g) /\ (forall f, In f l -> has_part b (fst (body_part f)) -> has_foot b' f).
Proof.
  induction l as [| f l IH]; intros b b' Hb E; cbn [make_footnotes] in E; [assert (b' = b) as -> by congruence; split; [auto | intros f []] |].
  destruct (make_footnote n b f) as [b1 |] eqn:E1; cbn [rbind] in E; [| discriminate].
  destruct (make_footnote_wf _ _ _ _ Hb E1) as (W1 & _ & _ & P1). destruct (make_footnote_foots _ _ _ _ E1) as (A1 & B1). destruct (IH b1 b' W1 E) as (A2 & B2).
  split; [auto |]. intros g [-> | Hg] Hp; [auto |]. apply (B2 g Hg). unfold has_part in *. rewrite P1. exact Hp.
Qed.
Lemma make_footnotes_fails n l : forall b, wf b -> fails_with too_deep (make_footnotes n b l).
Proof.
  induction l as [| f l IH]; intros b Hb; cbn [make_footnotes]; [apply fails_ok |]. apply fails_bind.
  - unfold make_footnote. destruct (find (same_foot f) (b_foots b)); [apply fails_ok |]. destruct (find (same_body f) (b_parts b)) as [[[q i] body] |]; [| apply fails_ok].
    fold (footnote_obj f []). set (new := length (b_heap b)).
    assert (W0 : wf_heap (b_heap b ++ [footnote_obj f []])).
    { exact (wf_segment (fun _ => False) (b_heap b) [(footnote_obj f [], None)] (proj1 Hb) (footnote_seg _ _ f) (fun c (H : False) => match H with end)). }
    assert (Hl : Forall (fun c => c < length (b_heap b ++ [footnote_obj f []])) (nodes_in (b_heap b) body "content")).
    { apply (Forall_lt (fun c => c) (length (b_heap b))); [rewrite app_length; lia | exact (nodes_in_lt _ _ _ (proj1 Hb))]. }
    pose proof (copies_fail n new _ _ W0 Hl) as F. match type of F with fails_with _ ?r => destruct r as [[h ls] | e] end; cbn [rbind]; [apply fails_ok | intros e' E; apply F; congruence].
  - intros b1 E1. apply IH. exact (proj1 (make_footnote_wf _ _ _ _ Hb E1)).
Qed.
Lemma foot_loc_there b f : has_foot b f -> exists l, foot_loc b f = Ok l.
Proof. intros [[[q s] l] E]. unfold foot_loc. rewrite E. eauto. Qed.
Lemma foot_locs_there b l : (forall f, In f l -> has_foot b f) -> exists ls, for_each (foot_loc b) l = Ok ls.
Proof.
  induction l as [| f l IH]; intro H; cbn [for_each]; [eauto |]. destruct (foot_loc_there b f (H f (or_introl eq_refl))) as [k ->]. cbn [rbind].
  destruct (IH (fun g Hg => H g (or_intror Hg))) as [ls ->]. cbn [rbind]. eauto.
Qed.
Lemma made_with_in done f : In f (flat_map footnotes_of done) -> In f (made_with done f).
Proof. intro H. unfold made_with. apply filter_In. split; [exact H | apply Nat.eqb_refl]. Qed.

Lemma place_items_parts group made name node l : forall b, b_parts (fst (place_items group made name node b l)) = b_parts b.
Proof.
  induction l as [| pos r IH]; intro b; cbn [place_items]; [reflexivity |]. specialize (IH (fst (place_item group made name node b pos))).
  assert (E : b_parts (fst (place_item group made name node b pos)) = b_parts b).
  { unfold place_item. destruct (find _ (b_items b)) as [[q k] |]; reflexivity. }
  destruct (place_item group made name node b pos) as [b1 i]. cbn [fst] in IH, E. destruct (place_items group made name node b1 r) as [b2 rest]. cbn [fst] in *. congruence.
Qed.
Lemma do_assign_parts n done b a b' : wf b -> do_assign n done b a = Ok b' -> b_parts b' = b_parts b.
Proof.
  intros Hb E. destruct a as [id f | id l | id s | id nested plain | id t cc | id made items]; cbn [do_assign] in E.
  - destruct (make_footnotes n b (made_with done f)) as [b1 |] eqn:E1; cbn [rbind] in E; [| discriminate].
    destruct (make_footnotes_wf _ _ _ _ Hb E1) as (_ & _ & _ & P1). destruct (foot_loc b1 f); cbn [rbind] in E; [| discriminate].
    destruct (locate KMacroFootnote id (b_nums b1)); injection E as <-; exact P1.
  - destruct (make_footnotes n b (flat_map (made_with done) l)) as [b1 |] eqn:E1; cbn [rbind] in E; [| discriminate].
    destruct (make_footnotes_wf _ _ _ _ Hb E1) as (_ & _ & _ & P1). destruct (for_each (foot_loc b1) l); cbn [rbind] in E; [| discriminate].
    destruct (locate KFootnotes id (b_nums b1)); [destruct (place _ _ _) |]; injection E as <-; exact P1.
  - destruct (locate KHeader id (b_nums b)); injection E as <-; reflexivity.
  - destruct (locate KToc id (b_nums b)); [| injection E as <-; reflexivity]. destruct (place _ _ _). destruct (copy_each _ _ _ _) as [[? ?] |]; cbn [rbind] in E; [| discriminate].
    injection E as <-. reflexivity.
  - destruct (locate KMacroHeader id (b_nums b)); [| injection E as <-; reflexivity]. destruct (nodes_in _ _ _); [| injection E as <-; reflexivity].
    destruct (copy_each _ _ _ _) as [[? ?] |]; cbn [rbind] in E; [| discriminate]. injection E as <-. reflexivity.
  - destruct (locate KBlockGroup id (b_nums b)) as [m |]; [| injection E as <-; reflexivity].
    pose proof (place_items_parts id made (name_of (b_heap b) m) m (map fst items) b) as P.
    destruct (place_items id made (name_of (b_heap b) m) m b (map fst items)). injection E as <-. exact P.
Qed.

Lemma do_assign_fails n done b a : wf b -> bodies_there done b -> In a done -> fails_with too_deep (do_assign n done b a).
Proof.
  intros Hb Hp Ha. destruct a as [id f | id l | id s | id nested plain | id t cc | id made items]; cbn [do_assign].
  - apply fails_bind; [apply make_footnotes_fails; exact Hb |]. intros b1 E1.
    assert (Hf : In f (flat_map footnotes_of done)) by (apply in_flat_map; exists (AFootnote id f); split; [exact Ha | left; reflexivity]).
    destruct (foot_loc_there b1 f) as [l ->]; [| cbn [rbind]; apply fails_ok].
    destruct (make_footnotes_foots _ _ _ _ Hb E1) as (_ & B1). apply B1; [exact (made_with_in _ _ Hf) | exact (Hp _ (footnotes_parts _ _ Hf))].
  - apply fails_bind; [apply make_footnotes_fails; exact Hb |]. intros b1 E1.
    assert (Hf : forall f, In f l -> In f (flat_map footnotes_of done)) by (intros f Hin; apply in_flat_map; exists (AFootnotes id l); split; [exact Ha | exact Hin]).
    destruct (foot_locs_there b1 l) as [ls ->]; [| cbn [rbind]; apply fails_ok].
    intros f Hin. destruct (make_footnotes_foots _ _ _ _ Hb E1) as (_ & B1).
    apply B1; [apply in_flat_map; exists f; split; [exact Hin | exact (made_with_in _ _ (Hf f Hin))] | exact (Hp _ (footnotes_parts _ _ (Hf f Hin)))].
  - apply fails_ok.
  - destruct (locate KToc id (b_nums b)) as [m |] eqn:Em; [| apply fails_ok].
    destruct (located _ _ _ _ Hb Em) as (o & Eo & K). pose proof (nth_length _ _ _ Eo) as Lm.
    destruct (tocs_segment (header_loc b) m (fun c => c < length (b_heap b)) nested (length (b_heap b))) as (S1 & R1 & _);
      [apply Forall_forall; intros; apply header_loc_lt; exact Hb | exact Lm |].
    destruct (place (toc_cells (header_loc b) m) (length (b_heap b)) nested) as [its cs]. cbn [fst snd] in S1, R1.
    assert (X : extends (b_heap b) (b_heap b ++ map fst cs)) by apply extends_app.
    assert (W2 : wf_heap (b_heap b ++ map fst cs)) by (apply (wf_segment _ _ _ (proj1 Hb) S1); intros; lia).
    assert (W3 : wf_heap (put (b_heap b ++ map fst cs) m "nested_entries" (Nodes its))).
    { apply (wf_put _ m o "nested_entries" SNodes); [exact W2 | exact (extends_some _ _ _ _ X Eo) | rewrite K; has_attribute | exact I |].
      intros c Hc. specialize (R1 c Hc). rewrite app_length, map_length. change (obj * option nat)%type with cell. lia. }
    assert (Hpl : Forall (fun c => c < length (put (b_heap b ++ map fst cs) m "nested_entries" (Nodes its))) (map (header_loc b) plain)).
    { apply Forall_forall. intros c Hc. apply in_map_iff in Hc. destruct Hc as (x & <- & _). pose proof (header_loc_lt b x Hb). rewrite put_length, app_length. lia. }
    pose proof (copies_fail n m _ _ W3 Hpl) as F. unfold copy_each.
    match type of F with fails_with _ ?r => destruct r as [[h ls] | e] end; cbn [rbind]; [apply fails_ok | intros e' E; apply F; congruence].
  - destruct (locate KMacroHeader id (b_nums b)) as [m |] eqn:Em; [| apply fails_ok].
    destruct (located _ _ _ _ Hb Em) as (o & Eo & K).
    set (v := One (Some (header_loc b t))) in *. set (h1 := put (b_heap b) m "header" v) in *.
    assert (W3 : wf_heap h1).
    { apply (wf_put _ m o "header" SOpt); [exact (proj1 Hb) | exact Eo | rewrite K; has_attribute | exact I |]. intros x [<- | []]. apply header_loc_lt. exact Hb. }
    destruct (nodes_in h1 m "content"); [| apply fails_ok].
    pose proof (copies_fail n m _ _ W3 (nodes_in_lt h1 (header_loc b t) "content" W3)) as F. unfold copy_each.
    match type of F with fails_with _ ?r => destruct r as [[h ls] | e] end; cbn [rbind]; [apply fails_ok | intros e' E; apply F; congruence].
  - destruct (locate KBlockGroup id (b_nums b)); [| apply fails_ok]. destruct (place_items _ _ _ _ _ _). apply fails_ok.
Qed.
Lemma do_assigns_fails n done l : forall b, wf b -> bodies_there done b -> incl l done -> fails_with too_deep (do_assigns n done b l).
Proof.
  induction l as [| a l IH]; intros b Hb Hp Hl; cbn [do_assigns]; [apply fails_ok |].
  apply fails_bind; [exact (do_assign_fails n done b a Hb Hp (Hl a (or_introl eq_refl))) |]. intros b1 E1.
  apply IH; [exact (proj1 (do_assign_wf _ _ _ _ _ Hb E1)) | | intros x Hx; apply Hl; right; exact Hx].
  intros p Hin. unfold has_part. rewrite (do_assign_parts _ _ _ _ _ Hb E1). exact (Hp p Hin).
Qed.
Lemma heap_of_fails n doc done : fails_with too_deep (heap_of n doc done).
Proof.
  unfold heap_of. apply fails_bind; [| intros; apply fails_ok].
  apply do_assigns_fails; [exact (proj1 (build_tree_ok doc done)) | exact (build_tree_parts doc done) | apply incl_refl].
Qed.

(* Every object that is made for a document has the attributes of its class and refers
   to objects, whatever the document and the assignments made to its nodes. *)
Theorem C68_objects_complete n doc done h : heap_of n doc done = Ok h -> closed h /\ proper_heap h /\ exists o, nth_error h 0 = Some o.
Proof. intro E. destruct (heap_of_wf _ _ _ _ E) as ((A & B) & Z). split; [exact A |]. split; [exact B |]. exact (nth_some h 0 Z). Qed.

(* A document can be rendered, except for the errors of the visitor itself (a missing
   template), or when the interpreter's recursion limit is reached: there is never a
   missing attribute, footnote, header, block or label. *)
Theorem C68_rendering_fails_only hk kw n doc done e : render_document hk kw n doc done = Exc e ->
  e = ExPy "RecursionError" \/ exists j d, hk_finish hk j d = Exc e.
Proof.
  intro E. destruct doc as [doc |]; cbn [render_document] in E; [| discriminate]. pose proof (heap_of_fails n doc done) as F.
  destruct (heap_of n doc done) as [h | e'] eqn:Eh; cbn [rbind] in E.
  - destruct (heap_of_wf _ _ _ _ Eh) as (W & Z). destruct (visit_fails hk kw n h 0 W Z e E) as [K | (m & l & o & d & _ & _ & K)]; [left; exact K | right; eauto].
  - left. apply F. congruence.
Qed.
