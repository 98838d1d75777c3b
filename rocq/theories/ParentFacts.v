(* ParentFacts.v -- the parents of the objects of a document *)
From Verif Require Import NumDoc Build BuildFacts SpecVisitor SpecParents PropertiesVisitor PropertiesBuild RenderFacts ShowFacts SpecObjects ObjFacts.
From Coq Require Import List Lia PeanoNat Bool.
Import ListNotations.
#[local] Open Scope list_scope.
#[local] Notation length := List.length.

(* ------------------------------------------------------------- the parsed objects *)
Definition all_parsed (i : nat) : provenance := Parsed.
Section Homed.
  Context (h : heap).
  Definition homed (base : nat) (cs : list cell) : Prop :=
    forall j c, nth_error cs j = Some c -> forall name f k, In (name, f) (o_fields (fst c)) -> In k (refs f) ->
      exists ok, nth_error h k = Some ok /\ right_parent all_parsed h (base + j) (fst c) name k ok.
  Lemma homed_nil base : homed base [].
  Proof. intros [| j] c E; discriminate. Qed.
  Lemma homed_app base cs ds : homed base cs -> homed (base + length cs) ds -> homed base (cs ++ ds).
  Proof.
    intros H1 H2 j c E. destruct (Nat.lt_ge_cases j (length cs)) as [Hj | Hj].
    - rewrite nth_error_app1 in E by exact Hj. exact (H1 j c E).
    - rewrite nth_error_app2 in E by exact Hj. specialize (H2 _ _ E). replace (base + length cs + (j - length cs)) with (base + j) in H2 by lia. exact H2.
  Qed.
  Lemma homed_cons base c cs : (forall name f k, In (name, f) (o_fields (fst c)) -> In k (refs f) -> exists ok, nth_error h k = Some ok /\ right_parent all_parsed h base (fst c) name k ok) ->
    homed (S base) cs -> homed base (c :: cs).
  Proof.
    intros H1 H2 [| j] d E.
    - assert (d = c) as -> by (cbn in E; congruence). rewrite Nat.add_0_r. exact H1.
    - replace (base + S j) with (S base + j) by lia. exact (H2 j d E).
  Qed.
  Lemma homed_place {A} (f : nat -> A -> list cell) (l : list A) : forall base, (forall a b, In a l -> placed anywhere h b (f b a) -> homed b (f b a)) ->
    placed anywhere h base (snd (place f base l)) -> homed base (snd (place f base l)).
  Proof.
    induction l as [| a r IH]; intros base H Hp; cbn [place] in *; [apply homed_nil |].
    specialize (IH (base + length (f base a)) (fun a' b Hin => H a' b (or_intror Hin))). destruct (place f (base + length (f base a)) r) as [ls cs]. cbn [fst snd] in *.
    apply placed_app in Hp as [H1 H2]. apply homed_app; [exact (H a base (or_introl eq_refl) H1) | exact (IH H2)].
  Qed.
  (* the first object of the cells *)
  Definition first_is (Q : obj -> Prop) (cs : list cell) : Prop := match cs with c :: _ => Q (fst c) | [] => False end.
  Lemma first_place {A} (f : nat -> A -> list cell) (Q : obj -> Prop) (l : list A) base : (forall a b, In a l -> first_is Q (f b a)) -> placed anywhere h base (snd (place f base l)) ->
    forall c, In c (fst (place f base l)) -> exists oc, nth_error h c = Some oc /\ Q oc.
  Proof.
    intros H Hp. assert (F : Forall2 (fun (a : A) c => exists oc, nth_error h c = Some oc /\ Q oc) l (fst (place f base l))).
    { revert Hp. apply placed_place. intros a b Ha _ Hp. specialize (H a b Ha). destruct (f b a) as [| c cs]; [destruct H |]. apply placed_cons in Hp as (E & _ & _). exists (fst c). split; [exact E | exact H]. }
    clear Hp H. induction F as [| a c l r Hc F IH]; intros x [].
    - subst x. exact Hc.
    - exact (IH x H).
  Qed.
  Definition of_parent (p : option nat) (o : obj) : Prop := o_parent o = p.
  Lemma inode_first p base i : first_is (of_parent p) (inode_cells p base i).
  Proof. destruct i; reflexivity. Qed.
  Lemma inodes_first p base l c : placed anywhere h base (snd (place (inode_cells p) base l)) -> In c (fst (place (inode_cells p) base l)) -> exists oc, nth_error h c = Some oc /\ o_parent oc = p.
  Proof. intro Hp. apply (first_place _ (of_parent p)); [| exact Hp]. intros a b _. apply inode_first. Qed.
  Ltac one_field := let name := fresh in let f := fresh in let k := fresh in let H := fresh in let Hk := fresh "Hk" in
    intros name f k H Hk; in_fields H; injection H as <- <-; cbn [refs In] in Hk; try (destruct Hk; fail).
  Lemma inode_homed i : forall parent base, placed anywhere h base (inode_cells parent base i) -> homed base (inode_cells parent base i).
  Proof.
    assert (Hin : forall l, Forall (fun i => forall parent base, placed anywhere h base (inode_cells parent base i) -> homed base (inode_cells parent base i)) l ->
      forall parent base, placed anywhere h base (snd (place (inode_cells parent) base l)) -> homed base (snd (place (inode_cells parent) base l))).
    { intros l F parent base. apply homed_place. intros a b Ha. rewrite Forall_forall in F. apply (F a Ha). }
    induction i using inode_all; intros parent base Hp; cbn [inode_cells] in *; unfold with_content in *; apply placed_cons in Hp as (E & _ & Hp); (apply homed_cons; [cbn [fst]; one_field | first [apply homed_nil | exact (Hin _ H _ _ Hp)]]).
    all: destruct (inodes_first _ _ _ _ Hp Hk) as (oc & Ec & Pc); exists oc; (split; [exact Ec |]); unfold right_parent; cbn [o_kind pointer all_parsed]; cbn [String.eqb Ascii.eqb Bool.eqb]; auto.
  Qed.
  Lemma inodes_homed l parent base : placed anywhere h base (snd (place (inode_cells parent) base l)) -> homed base (snd (place (inode_cells parent) base l)).
  Proof. apply homed_place. intros a b _. apply inode_homed. Qed.
  Lemma label_homed host base l : placed anywhere h base (label_cells host base l) -> homed base (label_cells host base l).
  Proof.
    unfold label_cells, with_content. intro Hp. apply placed_cons in Hp as (E & _ & Hp). apply homed_cons; [cbn [fst]; one_field | exact (inodes_homed _ _ _ Hp)].
    destruct (inodes_first _ _ _ _ Hp Hk) as (oc & Ec & Pc). exists oc. split; [exact Ec |]. unfold right_parent. cbn. auto.
  Qed.
  Lemma labels_first host base (l : labels) c : placed anywhere h base (snd (place (label_cells host) base l)) -> In c (fst (place (label_cells host) base l)) ->
    exists oc, nth_error h c = Some oc /\ o_kind oc = KLabel /\ o_parent oc = Some host.
  Proof. intro Hp. apply (first_place _ (fun o => o_kind o = KLabel /\ o_parent o = Some host)); [| exact Hp]. intros a b _. split; reflexivity. Qed.
  (* a node with content and labels *)
  Lemma with_labels_homed o num base l (p : list nat * list cell) : placed anywhere h base (with_labels o num base l p) ->
    homed (S base) (snd p) ->
    (forall ls lb name f k, In (name, f) (o_fields (o ls lb)) -> In k (refs f) -> name = "labels"%string /\ f = Named lb \/ (name <> "labels"%string /\ f = Nodes ls)) ->
    (forall ls lb, pointer (o_kind (o ls lb)) "labels" = false) ->
    (forall lb name k, nth_error h base = Some (o (fst p) lb) -> In (name, Nodes (fst p)) (o_fields (o (fst p) lb)) -> name <> "labels"%string -> In k (fst p) ->
       exists ok, nth_error h k = Some ok /\ right_parent all_parsed h base (o (fst p) lb) name k ok) ->
    homed base (with_labels o num base l p).
  Proof.
    intros Hp Hc Hf Hl Hn. apply with_labels_placed in Hp as (ls & E & _ & Hp1 & Hp2 & Els). unfold with_labels.
    destruct (place (label_cells base) (S base + length (snd p)) l) as [ls' cs] eqn:Epl. cbn [fst snd] in *. subst ls'.
    apply homed_cons; cbn [fst].
    - intros name f k Hin Hk. destruct (Hf _ _ _ _ _ Hin Hk) as [[-> ->] | [Hne ->]].
      + cbn [refs] in Hk. apply in_combine_snd in Hk. assert (Hk' : In k (fst (place (label_cells base) (S base + length (snd p)) l))) by (rewrite Epl; exact Hk).
        assert (Hp2' : placed anywhere h (S base + length (snd p)) (snd (place (label_cells base) (S base + length (snd p)) l))) by (rewrite Epl; exact Hp2).
        destruct (labels_first _ _ _ _ Hp2' Hk') as (oc & Ec & K & P). exists oc. split; [exact Ec |]. unfold right_parent. rewrite Hl. cbn. auto.
      + exact (Hn _ _ _ E Hin Hne Hk).
    - apply homed_app; [exact Hc |]. assert (Hp2' : placed anywhere h (S base + length (snd p)) (snd (place (label_cells base) (S base + length (snd p)) l))) by (rewrite Epl; exact Hp2).
      change cs with (snd (ls, cs)). rewrite <- Epl. revert Hp2'. apply homed_place. intros a b _. apply label_homed.
  Qed.
  Ltac here := unfold right_parent; cbn [o_kind o_parent o_fields pointer all_parsed]; cbn [String.eqb Ascii.eqb Bool.eqb].
  Ltac fields_ok := let Hi := fresh in let Hk := fresh in intros ? ? ? ? ? Hi Hk; in_fields Hi; injection Hi as <- <-; cbn [refs In] in Hk; try (destruct Hk; fail); first [left; split; reflexivity | right; split; [discriminate | reflexivity]].
  Ltac the_content Hin := in_fields Hin; try discriminate Hin.
  Lemma header_homed parent base hd : placed anywhere h base (header_cells parent base hd) -> homed base (header_cells parent base hd).
  Proof.
    unfold header_cells. intro Hp. pose proof (with_labels_placed _ _ _ _ _ _ _ Hp) as (ls & _ & _ & Hp1 & _). apply with_labels_homed; [exact Hp | exact (inodes_homed _ _ _ Hp1) | fields_ok | reflexivity |].
    intros lb name k _ Hin Hne Hk. destruct (inodes_first _ _ _ _ Hp1 Hk) as (oc & Ec & Pc). exists oc. split; [exact Ec |]. the_content Hin; injection Hin as <-; here; auto.
  Qed.
  Lemma line_homed p base l : placed anywhere h base (line_cells p base l) -> homed base (line_cells p base l).
  Proof.
    unfold line_cells, with_content. intro Hp. apply placed_cons in Hp as (E & _ & Hp). apply homed_cons; [cbn [fst]; one_field | exact (inodes_homed _ _ _ Hp)].
    destruct (inodes_first _ _ _ _ Hp Hk) as (oc & Ec & Pc). exists oc. split; [exact Ec |]. here. auto.
  Qed.
  Lemma raw_line_homed p base l : homed base (raw_line_cells p base l).
  Proof. unfold raw_line_cells. apply homed_cons; [cbn [fst]; one_field | apply homed_nil]. Qed.
  Lemma source_line_homed p base l : placed anywhere h base (source_line_cells p base l) -> homed base (source_line_cells p base l).
  Proof.
    unfold source_line_cells. intro Hp. apply placed_cons in Hp as (E & _ & Hp). destruct (sl_marker l) as [[v c] |]; (apply homed_cons; [cbn [fst]; one_field | first [apply homed_nil | apply homed_cons; [cbn [fst]; one_field | apply homed_nil]]]).
    destruct Hk as [<- | []]. apply placed_cons in Hp as (E1 & _ & _). eexists. split; [exact E1 |]. here. split; reflexivity.
  Qed.
  Definition dnode_root (p : option nat) (c : context) (o : obj) : Prop := o_parent o = p /\ o_ctx o = c.
  Lemma first_with_labels (Q : obj -> Prop) o num base l (p : list nat * list cell) : (forall ls lb, Q (o ls lb)) -> first_is Q (with_labels o num base l p).
  Proof. intro H. unfold with_labels. destruct (place _ _ l). apply H. Qed.
  Lemma dnode_first p base d : first_is (dnode_root p (dnode_ctx d)) (dnode_cells p base d).
  Proof. destruct d; cbn [dnode_cells]; try (apply first_with_labels; intros; split; reflexivity). split; reflexivity. Qed.
  Lemma dnodes_first p base l c : placed anywhere h base (snd (place (dnode_cells p) base l)) -> In c (fst (place (dnode_cells p) base l)) -> exists oc, nth_error h c = Some oc /\ o_parent oc = p.
  Proof. intro Hp. apply (first_place _ (of_parent p)); [| exact Hp]. intros a b _. pose proof (dnode_first p b a) as H. destruct (dnode_cells p b a); [exact H | exact (proj1 H)]. Qed.
  Lemma dnodes_span p base n l : placed anywhere h base (snd (place (dnode_cells p) base (n :: l))) ->
    from_to h (fst (place (dnode_cells p) base (n :: l))) (merge_contexts (dnode_ctx n) (dnode_ctx (last (n :: l) n))).
  Proof.
    intro Hp. assert (F : Forall2 (fun d c => exists oc, nth_error h c = Some oc /\ o_ctx oc = dnode_ctx d) (n :: l) (fst (place (dnode_cells p) base (n :: l)))).
    { revert Hp. apply placed_place. intros a b _ _ Hp. pose proof (dnode_first p b a) as H. destruct (dnode_cells p b a) as [| c cs]; [destruct H |]. apply placed_cons in Hp as (E & _ & _). exists (fst c). split; [exact E | exact (proj2 H)]. }
    revert F. generalize (fst (place (dnode_cells p) base (n :: l))). intros ls F. inversion F as [| ? a ? rest (oa & Ea & Ca) Fr]; subst.
    assert (G : exists z oz, (exists before, a :: rest = before ++ [z]) /\ nth_error h z = Some oz /\ o_ctx oz = dnode_ctx (last (n :: l) n)).
    { assert (L : forall (dl : list dnode) cl dflt, Forall2 (fun d c => exists oc, nth_error h c = Some oc /\ o_ctx oc = dnode_ctx d) dl cl -> dl <> [] ->
        exists z oz, (exists before, cl = before ++ [z]) /\ nth_error h z = Some oz /\ o_ctx oz = dnode_ctx (last dl dflt)).
      { clear. intros dl cl dflt F. induction F as [| d c l r (oc & Ec & Cc) F IH]; intro Hne; [congruence |]. destruct l as [| d' l].
        - inversion F; subst. exists c, oc. split; [exists []; reflexivity |]. split; [exact Ec | exact Cc].
        - destruct (IH ltac:(discriminate)) as (z & oz & (before & Eb) & Ez & Cz). exists z, oz. split; [exists (c :: before); rewrite Eb; reflexivity |]. split; [exact Ez | exact Cz]. }
      exact (L _ _ n F ltac:(discriminate)). }
    destruct G as (z & oz & Hb & Ez & Cz). exists a, z, oa, oz. split; [reflexivity |]. split; [exact Hb |]. split; [exact Ea |]. split; [exact Ez |]. rewrite Ca, Cz. reflexivity.
  Qed.
  Lemma dnode_homed d : forall parent base, placed anywhere h base (dnode_cells parent base d) -> homed base (dnode_cells parent base d).
  Proof.
    assert (Hin : forall l, Forall (fun i => forall parent base, placed anywhere h base (dnode_cells parent base i) -> homed base (dnode_cells parent base i)) l ->
      forall parent base, placed anywhere h base (snd (place (dnode_cells parent) base l)) -> homed base (snd (place (dnode_cells parent) base l))).
    { intros l F parent base. apply homed_place. intros a b Ha. rewrite Forall_forall in F. apply (F a Ha). }
    induction d using dnode_all; intros parent base Hp.
    - cbn [dnode_cells] in *. pose proof (with_labels_placed _ _ _ _ _ _ _ Hp) as (ls & _ & _ & Hp1 & _). apply with_labels_homed; [exact Hp | exact (Hin _ H _ _ Hp1) | fields_ok | reflexivity |].
      intros lb name kk _ Hi Hne Hk. destruct (dnodes_first _ _ _ _ Hp1 Hk) as (oc & Ec & Pc). exists oc. split; [exact Ec |]. the_content Hi; injection Hi as <-; here; auto.
    - cbn [dnode_cells] in *. pose proof (with_labels_placed _ _ _ _ _ _ _ Hp) as (ls & _ & _ & Hp1 & _). apply with_labels_homed; [exact Hp | exact (Hin _ H _ _ Hp1) | fields_ok | reflexivity |].
      intros lb name kk _ Hi Hne Hk. destruct (dnodes_first _ _ _ _ Hp1 Hk) as (oc & Ec & Pc). exists oc. split; [exact Ec |]. the_content Hi; injection Hi as <-; here; cbn [fget String.eqb Ascii.eqb Bool.eqb]; auto.
    - destruct l as [| n l]; cbn [dnode_cells] in *.
      + apply with_labels_homed; [exact Hp | apply homed_nil | fields_ok | reflexivity | intros ? ? ? _ _ _ []].
      + pose proof (Hin _ H (Some (S base)) (S (S base))) as Hh. pose proof (dnodes_first (Some (S base)) (S (S base)) (n :: l)) as Hd. pose proof (dnodes_span (Some (S base)) (S (S base)) n l) as Hs.
        destruct (place (dnode_cells (Some (S base))) (S (S base)) (n :: l)) as [ls cs]. cbn [fst snd] in Hh, Hd, Hs.
        pose proof (with_labels_placed _ _ _ _ _ _ _ Hp) as (ls' & _ & _ & Hp1 & _). cbn [snd] in Hp1. apply placed_cons in Hp1 as (E1 & _ & Hp1). cbn [fst] in E1.
        apply with_labels_homed; [exact Hp | | fields_ok | reflexivity |]; cbn [fst snd].
        * apply homed_cons; [cbn [fst]; one_field | exact (Hh Hp1)]. destruct (Hd _ Hp1 Hk) as (oc & Ec & Pc). exists oc. split; [exact Ec |]. here. auto.
        * intros lb name kk _ Hi Hne Hk. destruct (Hd _ Hp1 Hk) as (oc & Ec & Pc). exists oc. split; [exact Ec |]. the_content Hi; injection Hi as <-; here. split; [reflexivity |].
          exists (S base). eexists. exists ls. split; [exact Pc |]. split; [exact E1 |]. cbn [o_kind o_parent o_args o_fields o_ctx fget String.eqb Ascii.eqb Bool.eqb].
          repeat (split; [reflexivity |]). exact (Hs Hp1).
    - destruct d; try destruct H; cbn [dnode_cells] in *; try (apply header_homed; exact Hp);
        try (apply with_labels_homed; [exact Hp | apply homed_nil | fields_ok | reflexivity | intros ? ? ? _ _ _ []]; fail).
      + pose proof (with_labels_placed _ _ _ _ _ _ _ Hp) as (ls & _ & _ & Hp1 & _). apply with_labels_homed; [exact Hp | | fields_ok | reflexivity |].
        * revert Hp1. apply homed_place. intros x b _. apply line_homed.
        * intros lb name kk _ Hi Hne Hk. destruct (first_place (line_cells base) (of_parent (Some base)) lines (S base) (fun x b _ => eq_refl) Hp1 kk Hk) as (oc & Ec & Pc). exists oc. split; [exact Ec |]. the_content Hi; injection Hi as <-; here; auto.
      + pose proof (with_labels_placed _ _ _ _ _ _ _ Hp) as (ls & _ & _ & Hp1 & _). apply with_labels_homed; [exact Hp | | fields_ok | reflexivity |].
        * revert Hp1. apply homed_place. intros x b _ _. apply raw_line_homed.
        * intros lb name kk _ Hi Hne Hk. destruct (first_place (raw_line_cells base) (of_parent (Some base)) lines (S base) (fun x b _ => eq_refl) Hp1 kk Hk) as (oc & Ec & Pc). exists oc. split; [exact Ec |]. the_content Hi; injection Hi as <-; here; auto.
      + pose proof (with_labels_placed _ _ _ _ _ _ _ Hp) as (ls & _ & _ & Hp1 & _). apply with_labels_homed; [exact Hp | | fields_ok | reflexivity |].
        * revert Hp1. apply homed_place. intros x b _. apply source_line_homed.
        * intros lb name kk _ Hi Hne Hk. destruct (first_place (source_line_cells base) (of_parent (Some base)) lines (S base) (fun x b _ => eq_refl) Hp1 kk Hk) as (oc & Ec & Pc). exists oc. split; [exact Ec |]. the_content Hi; injection Hi as <-; here; auto.
      + unfold with_content in *. apply placed_cons in Hp as (E & _ & Hp). apply homed_cons; [cbn [fst]; one_field | exact (inodes_homed _ _ _ Hp)].
        destruct (inodes_first _ _ _ _ Hp Hk) as (oc & Ec & Pc). exists oc. split; [exact Ec |]. here. auto.
      + pose proof (with_labels_placed _ _ _ _ _ _ _ Hp) as (ls & _ & _ & Hp1 & _). apply with_labels_homed; [exact Hp | | fields_ok | reflexivity |].
        * revert Hp1. apply homed_place. intros x b _ _. apply raw_line_homed.
        * intros lb name kk _ Hi Hne Hk. destruct (first_place (raw_line_cells base) (of_parent (Some base)) lines (S base) (fun x b _ => eq_refl) Hp1 kk Hk) as (oc & Ec & Pc). exists oc. split; [exact Ec |]. the_content Hi; injection Hi as <-; here; auto.
  Qed.
  Lemma document_homed d : placed anywhere h 0 (document_cells d) -> homed 0 (document_cells d).
  Proof.
    unfold document_cells, with_content. intro Hp. apply placed_cons in Hp as (E & _ & Hp). apply homed_cons; [cbn [fst]; one_field |].
    - destruct (dnodes_first _ _ _ _ Hp Hk) as (oc & Ec & Pc). exists oc. split; [exact Ec |]. here. auto.
    - revert Hp. apply homed_place. intros a b _. apply dnode_homed.
  Qed.
End Homed.
