(* BuildFacts.v -- the heap of a parsed document is well formed *)
From Verif Require Import Build SpecVisitor PropertiesVisitor.
From Coq Require Import List Lia PeanoNat.
Import ListNotations.
#[local] Open Scope list_scope.
#[local] Notation length := List.length.

(* ------------------------------------------------------------- induction on nodes *)
Section InodeInd.
  Context (Q : inode -> Prop).
  Context (Hw : forall v c, Q (NWord v c)) (Ht : forall v c, Q (NText v c)) (Hv : forall v c, Q (NVerbatim v c))
    (Hs : forall s l c, Forall Q l -> Q (NStyle s l c)) (Hm : forall n a c, Q (NMacro n a c))
    (Hc : forall s l c, Forall Q l -> Q (NClass s l c)) (Hl : forall t l c, Forall Q l -> Q (NLink t l c))
    (Hi : forall u a w h c, Q (NImage u a w h c)) (Hh : forall i t l c, Forall Q l -> Q (NHeaderLink i t l c))
    (Hf : forall i n c, Q (NFootnote i n c)) (Hu : forall v c, Q (NUnicode v c)) (Hr : forall v c, Q (NRaw v c)).
  Fixpoint inode_all (i : inode) : Q i :=
    let fix each (l : list inode) : Forall Q l :=
      match l with [] => Forall_nil Q | a :: r => Forall_cons a (inode_all a) (each r) end in
    match i with
    | NWord v c => Hw v c | NText v c => Ht v c | NVerbatim v c => Hv v c
    | NStyle s l c => Hs s l c (each l) | NMacro n a c => Hm n a c
    | NClass s l c => Hc s l c (each l) | NLink t l c => Hl t l c (each l)
    | NImage u a w h c => Hi u a w h c | NHeaderLink i t l c => Hh i t l c (each l)
    | NFootnote i n c => Hf i n c | NUnicode v c => Hu v c | NRaw v c => Hr v c
    end.
End InodeInd.
Section DnodeInd.
  Context (Q : dnode -> Prop).
  Context (Hblock : forall k l a, Forall Q l -> Q (DBlock k l a)) (Hlist : forall o m s l a, Forall Q l -> Q (DList o m s l a))
    (Hmau : forall u l a, Forall Q l -> Q (DMau u l a))
    (Hother : forall d, match d with DBlock _ _ _ | DList _ _ _ _ _ | DMau _ _ _ => False | _ => True end -> Q d).
  Fixpoint dnode_all (d : dnode) : Q d :=
    let fix each (l : list dnode) : Forall Q l :=
      match l with [] => Forall_nil Q | a :: r => Forall_cons a (dnode_all a) (each r) end in
    match d as d return Q d with
    | DBlock k l a => Hblock k l a (each l) | DList o m s l a => Hlist o m s l a (each l) | DMau u l a => Hmau u l a (each l)
    | d => Hother d I
    end.
End DnodeInd.
Section TocInd.
  Context (Q : toc_item -> Prop) (Hq : forall h l, Forall Q l -> Q (TocItem h l)).
  Fixpoint toc_all (t : toc_item) : Q t :=
    match t with
    | TocItem h l => Hq h l ((fix each (l : list toc_item) : Forall Q l :=
        match l with [] => Forall_nil Q | a :: r => Forall_cons a (toc_all a) (each r) end) l)
    end.
End TocInd.

(* ------------------------------------------------------------- segments *)
(* the references of an object *)
Definition links (o : obj) (c : nat) : Prop := exists k f, In (k, f) (o_fields o) /\ In c (refs f).
(* Objects placed from a base: their parents are there or before, and what they refer
   to is there, after them; or it is in ok, from a pointer. *)
Definition fits (ok : nat -> Prop) (i top : nat) (o : obj) : Prop :=
  proper o /\ (forall p, o_parent o = Some p -> p < top) /\
  (forall k f c, In (k, f) (o_fields o) -> In c (refs f) ->
     if pointer (o_kind o) k then ok c else i < c < top).
Definition segment (ok : nat -> Prop) (base : nat) (cs : list cell) : Prop :=
  forall j c, nth_error cs j = Some c -> fits ok (base + j) (base + length cs) (fst c).

Lemma fits_top ok i t t' o : t <= t' -> fits ok i t o -> fits ok i t' o.
Proof.
  intros Ht (A & B & C). split; [exact A |]. split; [intros p Hp; specialize (B p Hp); lia |].
  intros k f c Hf Hc. specialize (C k f c Hf Hc). destruct (pointer (o_kind o) k); [exact C | lia].
Qed.
Lemma segment_nil ok base : segment ok base [].
Proof. intros [| j] c E; discriminate. Qed.
Lemma segment_app ok base cs ds : segment ok base cs -> segment ok (base + length cs) ds -> segment ok base (cs ++ ds).
Proof.
  intros H1 H2 j c E. rewrite app_length. destruct (Nat.lt_ge_cases j (length cs)) as [Hj | Hj].
  - rewrite nth_error_app1 in E by exact Hj. (refine (fits_top _ _ _ _ _ _ (H1 j c E)); lia).
  - rewrite nth_error_app2 in E by exact Hj. specialize (H2 _ _ E).
    replace (base + length cs + (j - length cs)) with (base + j) in H2 by lia.
    (refine (fits_top _ _ _ _ _ _ H2); lia).
Qed.
Lemma segment_cons ok base c cs : fits ok base (S base + length cs) (fst c) -> segment ok (S base) cs -> segment ok base (c :: cs).
Proof.
  intros H1 H2 [| j] d E; cbn [nth_error length] in E |- *.
  - assert (d = c) as -> by congruence. rewrite Nat.add_0_r. (refine (fits_top _ _ _ _ _ _ H1); lia).
  - specialize (H2 _ _ E). replace (base + S j) with (S base + j) by lia. (refine (fits_top _ _ _ _ _ _ H2); lia).
Qed.

(* a list of nodes *)
Lemma place_segment {A} ok (f : nat -> A -> list cell) (l : list A) : forall base,
  (forall b, base <= b -> Forall (fun a => segment ok b (f b a) /\ f b a <> []) l) ->
  segment ok base (snd (place f base l)) /\
  (forall c, In c (fst (place f base l)) -> base <= c < base + length (snd (place f base l))) /\
  length (fst (place f base l)) = length l.
Proof.
  induction l as [| a r IH]; intros base H; cbn [place]; [split; [apply segment_nil | split; [intros c [] | reflexivity]] |].
  pose proof (H base (le_n _)) as H1. inversion H1 as [| x y [Hs Hne] Hr]; subst.
  assert (L : 0 < length (f base a)) by (destruct (f base a); [congruence | cbn; lia]).
  assert (Hl : forall b, base + length (f base a) <= b -> Forall (fun a => segment ok b (f b a) /\ f b a <> []) r)
    by (intros b Hb; specialize (H b ltac:(lia)); inversion H; assumption).
  specialize (IH (base + length (f base a)) Hl). destruct (place f (base + length (f base a)) r) as [ls cs]. cbn [fst snd] in IH |- *.
  destruct IH as (I1 & I2 & I3). split; [exact (segment_app _ _ _ _ Hs I1) |]. rewrite app_length. split.
  - intros c [<- | Hc]; [lia |]. specialize (I2 c Hc). lia.
  - cbn [length]. rewrite I3. reflexivity.
Qed.

Definition below_of (parent : option nat) (base : nat) : Prop := forall p, parent = Some p -> p < base.
Lemma below_some p base : p < base -> below_of (Some p) base.
Proof. intros H q E. congruence. Qed.
Lemma below_none base : below_of None base.
Proof. intros q E. congruence. Qed.
Lemma below_le parent base b : below_of parent base -> base <= b -> below_of parent b.
Proof. intros H Hb p E. specialize (H p E). lia. Qed.
#[local] Hint Resolve below_some below_none : core.

(* proper and the fields of a literal object *)
Ltac proper_obj := unfold proper; cbn [o_fields o_kind attributes map app]; repeat (apply Forall2_cons; [split; [reflexivity | exact I] |]); apply Forall2_nil.
Ltac in_fields H := cbn [o_fields] in H; repeat (destruct H as [H | H]); try (destruct H; fail).

Lemma fits_leaf ok i top o :
  proper o -> below_of (o_parent o) top -> (forall k f c, In (k, f) (o_fields o) -> ~ In c (refs f)) -> fits ok i top o.
Proof. intros A B C. split; [exact A |]. split; [exact B |]. intros k f c Hf Hc. destruct (C k f c Hf Hc). Qed.

Ltac no_refs := let k := fresh in let f := fresh in let c := fresh in let H := fresh in
  intros k f c H; in_fields H; injection H as <- <-; cbn [refs]; intuition.
Ltac leaf := apply segment_cons; [apply fits_leaf; [proper_obj | assumption || (eapply below_le; [eassumption | cbn; lia]) | no_refs] | apply segment_nil].

Lemma with_content_segment ok o num base (p : list nat * list cell) :
  segment ok (S base) (snd p) -> (forall c, In c (fst p) -> S base <= c < S base + length (snd p)) ->
  proper (o (fst p)) -> below_of (o_parent (o (fst p))) (S base) ->
  (forall k f c, In (k, f) (o_fields (o (fst p))) -> In c (refs f) -> if pointer (o_kind (o (fst p))) k then ok c else In c (fst p)) ->
  segment ok base (with_content o num p).
Proof.
  intros S1 R1 Hp Hb Hr. unfold with_content. apply segment_cons; [| exact S1]. cbn [fst]. split; [exact Hp |].
  split; [intros q Hq; specialize (Hb q Hq); lia |]. intros k f c Hf Hc. specialize (Hr k f c Hf Hc).
  destruct (pointer _ k); [exact Hr |]. specialize (R1 c Hr). lia.
Qed.

Ltac contents := let k := fresh in let f := fresh in let c := fresh in let H := fresh in let Hc := fresh in
  intros k f c H Hc; in_fields H; injection H as <- <-; cbn [refs In] in Hc; cbn [o_kind pointer]; try (destruct Hc; fail); exact Hc.

Lemma inode_segment ok i : forall parent base, below_of parent base -> segment ok base (inode_cells parent base i) /\ inode_cells parent base i <> [].
Proof.
  assert (Hin : forall l, Forall (fun i => forall parent base, below_of parent base -> segment ok base (inode_cells parent base i) /\ inode_cells parent base i <> []) l ->
    forall parent base, below_of parent base -> forall b, base <= b -> Forall (fun a => segment ok b (inode_cells parent b a) /\ inode_cells parent b a <> []) l).
  { intros l F parent base Hb b Hle. refine (Forall_impl _ _ F). intros a Ha. apply Ha. exact (below_le _ _ _ Hb Hle). }
  induction i using inode_all; intros parent base Hb; (split; [| discriminate]); cbn [inode_cells]; try leaf.
  - destruct (place_segment ok (inode_cells (Some base)) l (S base) (Hin l H (Some base) (S base) (below_some _ _ (Nat.lt_succ_diag_r base)))) as (S1 & R1 & _).
    apply with_content_segment; [exact S1 | exact R1 | proper_obj | exact (below_le _ _ _ Hb (Nat.le_succ_diag_r _)) | contents].
  - destruct (place_segment ok (inode_cells None) l (S base) (Hin l H None (S base) (below_none _))) as (S1 & R1 & _).
    apply with_content_segment; [exact S1 | exact R1 | proper_obj | exact (below_le _ _ _ Hb (Nat.le_succ_diag_r _)) | contents].
  - destruct (place_segment ok (inode_cells None) l (S base) (Hin l H None (S base) (below_none _))) as (S1 & R1 & _).
    apply with_content_segment; [exact S1 | exact R1 | proper_obj | exact (below_le _ _ _ Hb (Nat.le_succ_diag_r _)) | contents].
  - destruct (place_segment ok (inode_cells None) l (S base) (Hin l H None (S base) (below_none _))) as (S1 & R1 & _).
    apply with_content_segment; [exact S1 | exact R1 | proper_obj | exact (below_le _ _ _ Hb (Nat.le_succ_diag_r _)) | contents].
Qed.
Lemma inodes_segment ok parent base l : below_of parent base ->
  segment ok base (snd (place (inode_cells parent) base l)) /\
  (forall c, In c (fst (place (inode_cells parent) base l)) -> base <= c < base + length (snd (place (inode_cells parent) base l))) /\
  length (fst (place (inode_cells parent) base l)) = length l.
Proof.
  intro Hb. apply place_segment. intros b Hle. apply Forall_forall. intros a _. apply inode_segment. exact (below_le _ _ _ Hb Hle).
Qed.

Lemma label_segment ok host base l : host < base -> segment ok base (label_cells host base l) /\ label_cells host base l <> [].
Proof.
  intro Hh. split; [| discriminate]. unfold label_cells.
  destruct (inodes_segment ok (Some base) (S base) (snd l) (below_some _ _ (Nat.lt_succ_diag_r base))) as (S1 & R1 & _).
  apply with_content_segment; [exact S1 | exact R1 | proper_obj | apply below_some; lia | contents].
Qed.
Lemma labels_segment ok host base (l : labels) : host < base ->
  segment ok base (snd (place (label_cells host) base l)) /\
  (forall c, In c (fst (place (label_cells host) base l)) -> base <= c < base + length (snd (place (label_cells host) base l))) /\
  length (fst (place (label_cells host) base l)) = length l.
Proof. intro Hb. apply place_segment. intros b Hle. apply Forall_forall. intros a _. apply label_segment. lia. Qed.

Lemma in_combine_snd {A B} (l : list A) (r : list B) x : In x (map snd (combine l r)) -> In x r.
Proof. intro H. apply in_map_iff in H. destruct H as ([a b] & <- & H). exact (in_combine_r _ _ _ _ H). Qed.

Lemma with_labels_segment ok o num base l (p : list nat * list cell) :
  segment ok (S base) (snd p) -> (forall c, In c (fst p) -> S base <= c < S base + length (snd p)) ->
  (forall ls lb, proper (o ls lb)) -> (forall ls lb, below_of (o_parent (o ls lb)) (S base)) ->
  (forall ls lb k f c, In (k, f) (o_fields (o ls lb)) -> In c (refs f) -> if pointer (o_kind (o ls lb)) k then ok c else In c ls \/ In c (map snd lb)) ->
  segment ok base (with_labels o num base l p) /\ with_labels o num base l p <> [].
Proof.
  intros S1 R1 Hp Hb Hr. unfold with_labels.
  destruct (labels_segment ok base (S base + length (snd p)) l ltac:(lia)) as (S2 & R2 & _).
  destruct (place (label_cells base) (S base + length (snd p)) l) as [ls cs]. cbn [fst snd] in S2, R2. split; [| discriminate].
  apply segment_cons; [| exact (segment_app _ _ _ _ S1 S2)]. cbn [fst]. split; [apply Hp |]. rewrite app_length.
  split; [intros q Hq; specialize (Hb _ _ q Hq); lia |]. intros k f c Hf Hc. specialize (Hr _ _ k f c Hf Hc).
  destruct (pointer _ k); [exact Hr |]. destruct Hr as [Hr | Hr]; [specialize (R1 c Hr); lia |].
  apply in_combine_snd in Hr. specialize (R2 c Hr). lia.
Qed.
Ltac lcontents := let k := fresh in let f := fresh in let c := fresh in let H := fresh in let Hc := fresh in
  intros ? ? k f c H Hc; in_fields H; injection H as <- <-; cbn [refs In] in Hc; cbn [o_kind pointer]; try (destruct Hc; fail); auto.
Ltac labelled := apply with_labels_segment; cbn [fst snd];
  [ try assumption; try apply segment_nil | try assumption; try (intros ? []) | intros; proper_obj | intros; cbn [o_parent]; eapply below_le; [eassumption | lia] | lcontents].

Lemma header_segment ok parent base h : below_of parent base -> segment ok base (header_cells parent base h) /\ header_cells parent base h <> [].
Proof.
  intro Hb. unfold header_cells.
  destruct (inodes_segment ok (Some base) (S base) (h_content h) (below_some _ _ (Nat.lt_succ_diag_r base))) as (S1 & R1 & _). labelled.
Qed.
Lemma line_segment ok paragraph base l : paragraph < base -> segment ok base (line_cells paragraph base l) /\ line_cells paragraph base l <> [].
Proof.
  intro Hp. split; [| discriminate]. unfold line_cells.
  destruct (inodes_segment ok (Some paragraph) (S base) (fst l) (below_some paragraph (S base) ltac:(lia))) as (S1 & R1 & _).
  apply with_content_segment; [exact S1 | exact R1 | proper_obj | apply below_some; lia | contents].
Qed.
Lemma raw_line_segment ok parent base l : parent < base -> segment ok base (raw_line_cells parent base l) /\ raw_line_cells parent base l <> [].
Proof. intro Hp. split; [| discriminate]. assert (below_of (Some parent) base) by auto. unfold raw_line_cells. leaf. Qed.
Lemma source_line_segment ok parent base l : parent < base -> segment ok base (source_line_cells parent base l) /\ source_line_cells parent base l <> [].
Proof.
  intro Hp. split; [| discriminate]. unfold source_line_cells. destruct (sl_marker l) as [[v c] |]; apply segment_cons.
  - cbn [length fst]. split; [proper_obj |]. split; [intros p E; cbn in E; injection E as <-; lia |].
    intros k f x H Hc. in_fields H; injection H as <- <-; cbn [refs In] in Hc; cbn [o_kind pointer]; try (destruct Hc; fail).
    destruct Hc as [<- | []]. lia.
  - assert (below_of None (S base)) by auto. leaf.
  - cbn [length fst]. apply fits_leaf; [proper_obj | apply below_some; lia | no_refs].
  - apply segment_nil.
Qed.

Lemma dnode_segment ok d : forall parent base, below_of parent base -> segment ok base (dnode_cells parent base d) /\ dnode_cells parent base d <> [].
Proof.
  assert (Hin : forall l, Forall (fun i => forall parent base, below_of parent base -> segment ok base (dnode_cells parent base i) /\ dnode_cells parent base i <> []) l ->
    forall parent base, below_of parent base ->
    segment ok base (snd (place (dnode_cells parent) base l)) /\
    (forall c, In c (fst (place (dnode_cells parent) base l)) -> base <= c < base + length (snd (place (dnode_cells parent) base l)))).
  { intros l F parent base Hb. destruct (place_segment ok (dnode_cells parent) l base) as (A & B & _); [| split; assumption].
    intros b Hle. refine (Forall_impl _ _ F). intros a Ha. apply Ha. exact (below_le _ _ _ Hb Hle). }
  induction d using dnode_all; intros parent base Hb.
  - cbn [dnode_cells]. destruct (Hin l H (Some base) (S base) (below_some _ _ (Nat.lt_succ_diag_r base))) as (S1 & R1). labelled.
  - cbn [dnode_cells].
    assert (Hp : below_of (if m then Some base else parent) (S base)) by (destruct m; [apply below_some; lia | eapply below_le; [eassumption | lia]]).
    destruct (Hin l H _ (S base) Hp) as (S1 & R1). labelled.
  - destruct l as [| n l]; cbn [dnode_cells]; [labelled |].
    destruct (Hin _ H (Some (S base)) (S (S base)) (below_some _ _ (Nat.lt_succ_diag_r (S base)))) as (S1 & R1).
    destruct (place (dnode_cells (Some (S base))) (S (S base)) (n :: l)) as [ls cs]. cbn [fst snd] in S1, R1.
    apply with_labels_segment; cbn [fst snd]; [| | intros; proper_obj | intros; cbn [o_parent]; eapply below_le; [eassumption | lia] | lcontents].
    + apply segment_cons; [| exact S1]. cbn [fst]. split; [proper_obj |]. split; [intros p E; discriminate E |].
      intros k f x Hf Hc. in_fields Hf; injection Hf as <- <-; cbn [refs In] in Hc; cbn [o_kind pointer]. specialize (R1 x Hc). lia.
    + intros c Hc. specialize (R1 c Hc). cbn [length]. lia.
  - destruct d; try destruct H; cbn [dnode_cells].
    + labelled.
    + apply header_segment. exact Hb.
    + destruct (place_segment ok (line_cells base) lines (S base)) as (S1 & R1 & _);
        [intros b Hle; apply Forall_forall; intros x _; apply line_segment; lia |]. labelled.
    + destruct (place_segment ok (raw_line_cells base) lines (S base)) as (S1 & R1 & _);
        [intros b Hle; apply Forall_forall; intros x _; apply raw_line_segment; lia |]. labelled.
    + destruct (place_segment ok (source_line_cells base) lines (S base)) as (S1 & R1 & _);
        [intros b Hle; apply Forall_forall; intros x _; apply source_line_segment; lia |]. labelled.
    + split; [| discriminate]. destruct (inodes_segment ok parent (S base) content (below_le _ _ _ Hb (Nat.le_succ_diag_r _))) as (S1 & R1 & _).
      apply with_content_segment; [exact S1 | exact R1 | proper_obj | exact (below_le _ _ _ Hb (Nat.le_succ_diag_r _)) | contents].
    + labelled.
    + destruct (place_segment ok (raw_line_cells base) lines (S base)) as (S1 & R1 & _);
        [intros b Hle; apply Forall_forall; intros x _; apply raw_line_segment; lia |]. labelled.
    + labelled.
    + labelled.
    + labelled.
    + labelled.
Qed.

(* ------------------------------------------------------------- copies *)
Definition same_shape (f f' : field) : Prop :=
  match f, f' with
  | Plain _, Plain _ | Nodes _, Nodes _ | Named _, Named _ | One (Some _), One (Some _) | One None, One None => True
  | _, _ => False
  end.
(* the object has the parent *)
Definition has_parent (H : heap) (c : nat) (p : option nat) : Prop := exists o, nth_error H c = Some o /\ o_parent o = p.
Definition new_field (i : nat) (H : heap) (m : copy_mode) (f f' : field) : Prop :=
  match m with Same => f' = f | _ => same_shape f f' /\ forall c, In c (refs f') -> i < c < length H /\ has_parent H c (Some i) end.
Definition same_parents (H H' : heap) : Prop := forall c p, has_parent H c p -> has_parent H' c p.
Lemma same_parents_extends H H' : extends H H' -> same_parents H H'.
Proof. intros X c p (o & E & P). exists o. split; [exact (extends_some _ _ _ _ X E) | exact P]. Qed.
(* an object made by deepcopy from an object below a *)
Definition made_from (a : nat) (H : heap) (i : nat) (o' : obj) : Prop :=
  below_of (o_parent o') (length H) /\
  exists j o, j < a /\ nth_error H j = Some o /\ o_kind o' = o_kind o /\
    Forall2 (fun (row : string * copy_mode) (kf : string * field) => fst kf = fst row /\
      exists f, fget (fst row) (o_fields o) = Some f /\ new_field i H (snd row) f (snd kf)) (copied (o_kind o)) (o_fields o').

Lemma made_from_mono a H H' i o : length H <= length H' -> same_parents H H' -> (forall j, j < a -> nth_error H' j = nth_error H j) -> made_from a H i o -> made_from a H' i o.
Proof.
  intros L Sp N (P & j & q & Hj & Eq & K & F). split; [exact (below_le _ _ _ P L) |]. exists j, q. split; [exact Hj |]. split; [rewrite N by exact Hj; exact Eq |].
  split; [exact K |]. clear -F L Sp. induction F as [| row kf rows fs (E & f & Ef & Hf) F IH]; constructor; [| exact IH].
  split; [exact E |]. exists f. split; [exact Ef |]. destruct (snd row); cbn [new_field] in *; try exact Hf; destruct Hf as [A B]; (split; [exact A |]); intros c Hc; destruct (B c Hc) as [B1 B2]; (split; [lia | exact (Sp _ _ B2)]).
Qed.

Section Fresh.
  Context (a : nat).
  Definition fresh (H H' : heap) : Prop :=
    extends H H' /\ forall i o, length H <= i -> nth_error H' i = Some o -> made_from a H' i o.
  Lemma fresh_refl H : fresh H H.
  Proof. split; [apply extends_refl |]. intros i o Hi E. apply nth_length in E. lia. Qed.
  Lemma fresh_trans H1 H2 H3 : a <= length H1 -> fresh H1 H2 -> fresh H2 H3 -> fresh H1 H3.
  Proof.
    intros La [X1 F1] [X2 F2]. split; [exact (extends_trans _ _ _ X1 X2) |]. intros i o Hi E.
    destruct (Nat.lt_ge_cases i (length H2)) as [Hl | Hl]; [| exact (F2 i o Hl E)].
    rewrite (proj2 X2 i Hl) in E. refine (made_from_mono _ _ _ _ _ (proj1 X2) (same_parents_extends _ _ X2) _ (F1 i o Hi E)).
    intros j Hj. apply (proj2 X2). destruct X1. lia.
  Qed.

  Context (cp : heap -> nat -> option nat -> res (heap * nat)).
  Definition makes := forall H l p H' l', own a H -> l < a -> below_of p (length H) -> cp H l p = Ok (H', l') ->
    fresh H H' /\ l' = length H /\ length H < length H' /\ has_parent H' l' p.
  Context (Hcp : makes).

  Lemma fresh_list new l : forall H H' l', own a H -> new < length H -> Forall (fun c => c < a) l -> copy_list cp new l H = Ok (H', l') ->
    fresh H H' /\ length l' = length l /\ forall c, In c l' -> length H <= c < length H' /\ has_parent H' c (Some new).
  Proof.
    induction l as [| c r IH]; intros H H' l' O Hn Hl E; cbn [copy_list] in E.
    - assert (H' = H /\ l' = []) as [-> ->] by (split; congruence). split; [apply fresh_refl |]. split; [reflexivity | intros c []].
    - destruct (cp H c (Some new)) as [[H1 c'] |] eqn:E1; cbn [rbind] in E; [| discriminate].
      destruct (copy_list cp new r H1) as [[H2 r'] |] eqn:E2; cbn [rbind] in E; [| discriminate].
      assert (H' = H2 /\ l' = c' :: r') as [-> ->] by (split; congruence). inversion Hl as [| ? ? Hc Hr]; subst.
      destruct (Hcp _ _ _ _ _ O Hc (below_some _ _ Hn) E1) as (F1 & -> & L1 & P1).
      destruct (IH H1 H2 r' (own_extends _ _ _ O (proj1 F1)) ltac:(destruct F1 as [[]]; lia) Hr E2) as (F2 & N2 & R2).
      split; [exact (fresh_trans _ _ _ (proj1 O) F1 F2) |]. split; [cbn; congruence |].
      pose proof (proj1 (proj1 F2)). intros x [<- | Hx]; [split; [lia | exact (same_parents_extends _ _ (proj1 F2) _ _ P1)] |]. destruct (R2 x Hx). split; [lia | assumption].
  Qed.
  Lemma fresh_dict new (l : list (str * nat)) : forall H H' l', own a H -> new < length H -> Forall (fun c => c < a) (map snd l) -> copy_dict cp new l H = Ok (H', l') ->
    fresh H H' /\ forall c, In c (map snd l') -> length H <= c < length H' /\ has_parent H' c (Some new).
  Proof.
    induction l as [| [k c] r IH]; intros H H' l' O Hn Hl E; cbn [copy_dict] in E.
    - assert (H' = H /\ l' = []) as [-> ->] by (split; congruence). split; [apply fresh_refl |]. intros c [].
    - destruct (cp H c (Some new)) as [[H1 c'] |] eqn:E1; cbn [rbind] in E; [| discriminate].
      destruct (copy_dict cp new r H1) as [[H2 r'] |] eqn:E2; cbn [rbind] in E; [| discriminate].
      assert (H' = H2 /\ l' = (k, c') :: r') as [-> ->] by (split; congruence). inversion Hl as [| ? ? Hc Hr]; subst.
      destruct (Hcp _ _ _ _ _ O Hc (below_some _ _ Hn) E1) as (F1 & -> & L1 & P1).
      destruct (IH H1 H2 r' (own_extends _ _ _ O (proj1 F1)) ltac:(destruct F1 as [[]]; lia) Hr E2) as (F2 & R2).
      split; [exact (fresh_trans _ _ _ (proj1 O) F1 F2) |].
      pose proof (proj1 (proj1 F2)). intros x [<- | Hx]; [cbn [snd]; split; [lia | exact (same_parents_extends _ _ (proj1 F2) _ _ P1)] |]. destruct (R2 x Hx). split; [lia | assumption].
  Qed.
  Lemma fresh_field new m f H H' f' : own a H -> new < length H -> Forall (fun c => c < a) (refs f) -> copy_field cp new m f H = Ok (H', f') ->
    fresh H H' /\ new_field new H' m f f'.
  Proof.
    intros O Hn Hl E.
    assert (Hone : forall c, c < a -> (let? (h1, c') := cp H c (Some new) in Ok (h1, One (Some c'))) = Ok (H', f') ->
      fresh H H' /\ exists c', f' = One (Some c') /\ new < c' < length H' /\ has_parent H' c' (Some new)).
    { clear E. intros c Hc E. destruct (cp H c (Some new)) as [[H1 c'] |] eqn:E1; cbn [rbind] in E; [| discriminate].
      assert (H' = H1 /\ f' = One (Some c')) as [-> ->] by (split; congruence).
      destruct (Hcp _ _ _ _ _ O Hc (below_some _ _ Hn) E1) as (F1 & -> & L1 & P1). split; [exact F1 |]. eexists. split; [reflexivity |]. split; [lia | exact P1]. }
    destruct m, f as [v | l | d | [c |]]; cbn [copy_field] in E; try discriminate;
      try (assert (H' = H) as -> by congruence; split; [apply fresh_refl | cbn [new_field]; congruence]).
    - destruct (copy_list cp new l H) as [[H1 l'] |] eqn:E1; cbn [rbind] in E; [| discriminate].
      assert (H' = H1 /\ f' = Nodes l') as [-> ->] by (split; congruence). destruct (fresh_list new l _ _ _ O Hn Hl E1) as (F & _ & R).
      split; [exact F |]. split; [exact I |]. intros c Hc. destruct (R c Hc). split; [lia | assumption].
    - destruct (copy_dict cp new d H) as [[H1 l'] |] eqn:E1; cbn [rbind] in E; [| discriminate].
      assert (H' = H1 /\ f' = Named l') as [-> ->] by (split; congruence). destruct (fresh_dict new d _ _ _ O Hn Hl E1) as (F & R).
      split; [exact F |]. split; [exact I |]. intros c Hc. destruct (R c Hc). split; [lia | assumption].
    - inversion Hl; subst. destruct (Hone c ltac:(assumption) E) as (F & c' & -> & C). split; [exact F |]. split; [exact I |]. intros x [<- | []]. exact C.
    - inversion Hl; subst. destruct (Hone c ltac:(assumption) E) as (F & c' & -> & C). split; [exact F |]. split; [exact I |]. intros x [<- | []]. exact C.
    - assert (H' = H /\ f' = One None) as [-> ->] by (split; congruence). split; [apply fresh_refl |]. split; [exact I | intros x []].
  Qed.
  Lemma fresh_fields new o i rows : forall H H' fs, own a H -> new < length H -> i < a -> nth_error H i = Some o -> copy_fields cp new o rows H = Ok (H', fs) ->
    fresh H H' /\ Forall2 (fun (row : string * copy_mode) (kf : string * field) => fst kf = fst row /\
      exists f, fget (fst row) (o_fields o) = Some f /\ new_field new H' (snd row) f (snd kf)) rows fs.
  Proof.
    induction rows as [| [k m] rows IH]; intros H H' fs O Hn Hi Ho E; cbn [copy_fields] in E.
    - assert (H' = H /\ fs = []) as [-> ->] by (split; congruence). split; [apply fresh_refl | constructor].
    - destruct (fget k (o_fields o)) as [f |] eqn:Ef; [| discriminate].
      destruct (copy_field cp new m f H) as [[H1 f'] |] eqn:E1; cbn [rbind] in E; [| discriminate].
      destruct (copy_fields cp new o rows H1) as [[H2 fs2] |] eqn:E2; cbn [rbind] in E; [| discriminate].
      assert (H' = H2 /\ fs = (k, f') :: fs2) as [-> ->] by (split; congruence).
      assert (Hl : Forall (fun c => c < a) (refs f)).
      { apply Forall_forall. intros c Hc. exact (proj2 O i o k f c Hi Ho (fget_in _ _ _ Ef) Hc). }
      destruct (fresh_field new m f H H1 f' O Hn Hl E1) as (F1 & C1).
      destruct (IH H1 H2 fs2 (own_extends _ _ _ O (proj1 F1)) ltac:(destruct F1 as [[]]; lia) Hi (extends_some _ _ _ _ (proj1 F1) Ho) E2) as (F2 & G2).
      split; [exact (fresh_trans _ _ _ (proj1 O) F1 F2) |]. constructor; [| exact G2]. split; [reflexivity |]. exists f. split; [exact Ef |]. cbn [snd].
      pose proof (proj1 (proj1 F2)) as L2.
      destruct m; cbn [new_field] in *; try exact C1; destruct C1 as [A B]; (split; [exact A |]); intros c Hc; destruct (B c Hc) as [B1 B2]; (split; [lia | exact (same_parents_extends _ _ (proj1 F2) _ _ B2)]).
  Qed.
End Fresh.

Lemma Forall2_impl' {A B} (P Q : A -> B -> Prop) l r : (forall a b, P a b -> Q a b) -> Forall2 P l r -> Forall2 Q l r.
Proof. intros H F. induction F; constructor; auto. Qed.
Lemma deepcopy_makes a n : makes a (deepcopy n).
Proof.
  induction n as [| n IH]; intros H l p H' l' O Hl Hp E; cbn [deepcopy] in E; [discriminate |].
  destruct (nth_error H l) as [o |] eqn:Eo; [| discriminate].
  set (H0 := H ++ [mkObj (o_kind o) p (o_args o) (o_ctx o) []]) in *.
  destruct (copy_fields (deepcopy n) (length H) o (copied (o_kind o)) H0) as [[H1 fs] |] eqn:E1; cbn [rbind] in E; [| discriminate].
  set (o' := mkObj (o_kind o) p (o_args o) (o_ctx o) fs) in *.
  assert (H' = update (length H) o' H1 /\ l' = length H) as [-> ->] by (split; congruence). clear E.
  assert (L0 : length H0 = S (length H)) by (unfold H0; rewrite app_length; cbn; lia).
  assert (X0 : extends H H0) by (split; [lia |]; intros i Hi; unfold H0; rewrite nth_error_app1 by exact Hi; reflexivity).
  assert (Ho : nth_error H0 l = Some o) by exact (extends_some _ _ _ _ X0 Eo).
  destruct (fresh_fields a (deepcopy n) IH (length H) o l _ H0 H1 fs (own_extends a H H0 O X0) ltac:(lia) Hl Ho E1) as (((L1 & N1) & F1) & G1).
  assert (La : a <= length H) by exact (proj1 O).
  assert (N2 : forall j, j < a -> nth_error (update (length H) o' H1) j = nth_error H1 j) by (intros j Hj; apply nth_update_other; lia).
  assert (L2 : length (update (length H) o' H1) = length H1) by apply length_update.
  assert (En : nth_error H0 (length H) = Some (mkObj (o_kind o) p (o_args o) (o_ctx o) [])) by (unfold H0; rewrite nth_error_app2, Nat.sub_diag by lia; reflexivity).
  assert (Sp : same_parents H1 (update (length H) o' H1)).
  { intros c q (oc & Ec & Pc). destruct (Nat.eq_dec c (length H)) as [-> | Hne].
    - exists o'. split; [apply nth_update_same; lia |]. rewrite N1, En in Ec by lia. assert (oc = mkObj (o_kind o) p (o_args o) (o_ctx o) []) as -> by congruence. exact Pc.
    - exists oc. split; [rewrite nth_update_other by auto; exact Ec | exact Pc]. }
  split; [| split; [reflexivity | split; [lia | exists o'; split; [apply nth_update_same; lia | reflexivity]]]]. split.
  - split; [lia |]. intros i Hi. rewrite nth_update_other by lia. rewrite N1 by lia. exact (proj2 X0 i Hi).
  - intros i oi Hi Ei. destruct (Nat.eq_dec i (length H)) as [-> | Hne].
    + rewrite nth_update_same in Ei by lia. assert (oi = o') as -> by congruence. split; [eapply below_le; [exact Hp | lia] |].
      exists l, o. split; [exact Hl |]. split; [rewrite N2, N1 by lia; exact Ho |]. split; [reflexivity |]. refine (Forall2_impl' _ _ _ _ _ G1). intros row kf (R1 & f & R2 & R3). split; [exact R1 |]. exists f. split; [exact R2 |].
      destruct (snd row); cbn [new_field] in *; try exact R3; destruct R3 as [A B]; (split; [exact A |]); intros c Hc; destruct (B c Hc) as [B1 B2]; (split; [lia | exact (Sp _ _ B2)]).
    + rewrite nth_update_other in Ei by lia. refine (made_from_mono _ H1 _ _ _ _ Sp N2 (F1 i oi _ Ei)); lia.
Qed.

(* ------------------------------------------------------------- well formed heaps *)
Definition wf_heap (h : heap) : Prop := closed h /\ proper_heap h.
Lemma wf_proper h i o : wf_heap h -> nth_error h i = Some o -> proper o.
Proof. intros [_ P] E. exact (proj1 (Forall_forall _ _) P o (nth_error_In _ _ E)). Qed.
Lemma wf_nth h : wf_heap h <-> forall i o, nth_error h i = Some o ->
  proper o /\ below_of (o_parent o) (length h) /\ forall k f c, In (k, f) (o_fields o) -> In c (refs f) -> c < length h.
Proof.
  split.
  - intros H i o E. split; [exact (wf_proper _ _ _ H E) |]. exact (proj1 H i o E).
  - intro H. split; [intros i o E; destruct (H i o E) as (_ & A & B); split; assumption |].
    apply Forall_forall. intros o Hin. apply In_nth_error in Hin. destruct Hin as (i & E). exact (proj1 (H i o E)).
Qed.

Lemma wf_segment ok h cs : wf_heap h -> segment ok (length h) cs -> (forall c, ok c -> c < length h + length cs) -> wf_heap (h ++ map fst cs).
Proof.
  rewrite !wf_nth. intros Hh Hs Hok i o E. rewrite app_length, map_length. change (obj * option nat)%type with cell.
  destruct (Nat.lt_ge_cases i (length h)) as [Hi | Hi].
  - rewrite nth_error_app1 in E by exact Hi. destruct (Hh i o E) as (A & B & C). split; [exact A |].
    split; [eapply below_le; [exact B | lia] |]. intros k f c Hf Hc. specialize (C k f c Hf Hc). lia.
  - rewrite nth_error_app2 in E by exact Hi. rewrite nth_error_map in E. change (obj * option nat)%type with cell in E.
    destruct (nth_error cs (i - length h)) as [c |] eqn:Ec; [| discriminate E]. cbn in E. assert (o = fst c) as -> by congruence.
    destruct (Hs _ _ Ec) as (A & B & C). split; [exact A |]. split; [exact B |]. intros k f x Hf Hx. specialize (C k f x Hf Hx).
    destruct (pointer _ k); [exact (Hok x C) | lia].
Qed.

Lemma set_field_in k v l k' f : In (k', f) (set_field k v l) -> (k' = k /\ f = v) \/ In (k', f) l.
Proof.
  induction l as [| [a w] l IH]; cbn [set_field]; [intros [] |]. destruct (String.eqb_spec k a) as [<- | _].
  - intros [E | H]; [left; injection E; auto | right; right; exact H].
  - intros [E | H]; [right; left; exact E | destruct (IH H) as [H1 | H1]; [left; exact H1 | right; right; exact H1]].
Qed.
Lemma set_field_proper (k : string) (s : shape) (v : field) fs (at_ : list (string * shape)) : NoDup (map fst at_) -> In (k, s) at_ -> of_shape s v ->
  Forall2 (fun (kf : string * field) (ks : string * shape) => fst kf = fst ks /\ of_shape (snd ks) (snd kf)) fs at_ ->
  Forall2 (fun (kf : string * field) (ks : string * shape) => fst kf = fst ks /\ of_shape (snd ks) (snd kf)) (set_field k v fs) at_.
Proof.
  intros Hn Hin Hs F. induction F as [| [a w] [b t] fs at_ [E Hw] F IH]; [constructor |]. cbn [fst snd map] in *. subst b.
  inversion Hn as [| ? ? Hn1 Hn2]; subst. cbn [set_field]. destruct (String.eqb_spec k a) as [<- | Hne].
  - constructor; [| exact F]. split; [reflexivity |]. destruct Hin as [E | Hin]; [assert (t = s) as -> by congruence; exact Hs |].
    destruct Hn1. exact (in_map fst _ _ Hin).
  - constructor; [split; [reflexivity | exact Hw] |]. apply IH; [exact Hn2 |]. destruct Hin as [E | Hin]; [congruence | exact Hin].
Qed.
Lemma attributes_nodup k : NoDup (map fst (attributes k)).
Proof. destruct k; cbn; repeat (apply NoDup_cons; [cbn; intuition discriminate |]); apply NoDup_nil. Qed.

Definition new_obj (o : obj) (k : string) (v : field) : obj := mkObj (o_kind o) (o_parent o) (o_args o) (o_ctx o) (set_field k v (o_fields o)).
Lemma put_length h l k v : length (put h l k v) = length h.
Proof. unfold put. destruct (nth_error h l); [apply length_update | reflexivity]. Qed.
Lemma put_nth h l k v i o : nth_error h i = Some o -> nth_error (put h l k v) i = Some (if Nat.eq_dec i l then new_obj o k v else o).
Proof.
  intro E. unfold put. destruct (Nat.eq_dec i l) as [-> | Hne].
  - rewrite E. apply nth_update_same. exact (nth_length _ _ _ E).
  - destruct (nth_error h l); [rewrite nth_update_other by auto |]; exact E.
Qed.
Lemma nth_some {A} (l : list A) i : i < length l -> exists a, nth_error l i = Some a.
Proof. intro H. destruct (nth_error l i) eqn:E; [eauto |]. apply nth_error_None in E. lia. Qed.
Lemma wf_put h l o k s v : wf_heap h -> nth_error h l = Some o -> In (k, s) (attributes (o_kind o)) -> of_shape s v ->
  (forall c, In c (refs v) -> c < length h) -> wf_heap (put h l k v).
Proof.
  rewrite !wf_nth. intros Hh El Hs Hv Hr i o' E. rewrite put_length.
  destruct (nth_some h i) as (oi & Ei); [apply nth_length in E; rewrite put_length in E; exact E |].
  rewrite (put_nth _ _ _ _ _ _ Ei) in E. destruct (Hh i oi Ei) as (A & B & C). destruct (Nat.eq_dec i l) as [-> | Hne].
  - assert (oi = o) by congruence. subst oi. assert (o' = new_obj o k v) as -> by congruence. unfold new_obj. cbn.
    split; [| split; [exact B |]].
    + unfold proper. cbn. exact (set_field_proper _ _ _ _ _ (attributes_nodup _) Hs Hv A).
    + intros k' f c Hf Hc. destruct (set_field_in _ _ _ _ _ Hf) as [[-> ->] | Hf']; eauto.
  - assert (o' = oi) as -> by congruence. auto.
Qed.
Lemma put_parent_length h l p : length (put_parent h l p) = length h.
Proof. unfold put_parent. destruct (nth_error h l); [apply length_update | reflexivity]. Qed.
Lemma put_parent_nth h l p i o : nth_error h i = Some o ->
  nth_error (put_parent h l p) i = Some (if Nat.eq_dec i l then mkObj (o_kind o) (Some p) (o_args o) (o_ctx o) (o_fields o) else o).
Proof.
  intro E. unfold put_parent. destruct (Nat.eq_dec i l) as [-> | Hne].
  - rewrite E. apply nth_update_same. exact (nth_length _ _ _ E).
  - destruct (nth_error h l); [rewrite nth_update_other by auto |]; exact E.
Qed.

(* the parents may be in the objects that are added afterwards *)
Definition wf_but (top : nat) (h : heap) : Prop := forall i o, nth_error h i = Some o ->
  proper o /\ below_of (o_parent o) top /\ forall k f c, In (k, f) (o_fields o) -> In c (refs f) -> c < length h.
Lemma wf_put_parent h l p top : wf_heap h -> p < top -> length h <= top -> wf_but top (put_parent h l p).
Proof.
  rewrite wf_nth. intros Hh Hp Hl i o' E. rewrite put_parent_length.
  destruct (nth_some h i) as (oi & Ei); [apply nth_length in E; rewrite put_parent_length in E; exact E |].
  rewrite (put_parent_nth _ _ _ _ _ Ei) in E. destruct (Hh i oi Ei) as (A & B & C). destruct (Nat.eq_dec i l) as [-> | Hne].
  - assert (o' = mkObj (o_kind oi) (Some p) (o_args oi) (o_ctx oi) (o_fields oi)) as -> by congruence. cbn. split; [exact A |]. split; [apply below_some; exact Hp | exact C].
  - assert (o' = oi) as -> by congruence. split; [exact A |]. split; [exact (below_le _ _ _ B Hl) | exact C].
Qed.

Lemma copied_rows k : Forall2 (fun (row : string * copy_mode) (a : string * shape) => fst row = fst a) (copied k) (attributes k).
Proof. destruct k; cbn; repeat (apply Forall2_cons; [reflexivity |]); apply Forall2_nil. Qed.

Lemma same_shape_of s f f' : same_shape f f' -> of_shape s f -> of_shape s f'.
Proof. destruct s, f as [? | ? | ? | [? |]], f' as [? | ? | ? | [? |]]; cbn; auto; contradiction. Qed.

Lemma proper_shape o name f s : proper o -> fget name (o_fields o) = Some f -> In (name, s) (attributes (o_kind o)) -> of_shape s f.
Proof.
  intros Hp Ef Hs. destruct (proper_get _ _ _ Hp Ef) as (s' & Hs' & Hof). replace s with s'; [exact Hof |].
  pose proof (attributes_nodup (o_kind o)) as N. revert N Hs Hs'. generalize (attributes (o_kind o)). induction l as [| [a t] l IH]; cbn; [tauto |].
  intros N H1 H2. inversion N as [| ? ? N1 N2]; subst. destruct H1 as [H1 | H1], H2 as [H2 | H2].
  - congruence.
  - injection H1 as -> ->. destruct N1. exact (in_map fst _ _ H2).
  - injection H2 as -> ->. destruct N1. exact (in_map fst _ _ H1).
  - exact (IH N2 H1 H2).
Qed.
(* the objects of a copy are well formed *)
Lemma made_from_proper a H i o' : (forall j o, j < a -> nth_error H j = Some o -> proper o) -> made_from a H i o' -> proper o'.
Proof.
  intros Hp (_ & j & o & Hj & Eo & K & F). unfold proper. rewrite K. specialize (Hp j o Hj Eo).
  assert (Hin : incl (attributes (o_kind o)) (attributes (o_kind o))) by apply incl_refl. revert F Hin.
  pose proof (copied_rows (o_kind o)) as R. revert R. generalize (attributes (o_kind o)) at 1 2 4. intros at_ R. generalize (o_fields o').
  induction R as [| row [name s] rows at_ E R IH]; intros fs F Hin; inversion F as [| ? kf ? fs' (E1 & f & Ef & Hf) F']; subst; [constructor |].
  cbn [fst] in E. constructor; [| apply IH; [exact F' | intros x Hx; apply Hin; right; exact Hx]]. cbn [fst snd]. split; [congruence |].
  rewrite E in Ef. pose proof (proper_shape _ _ _ _ Hp Ef (Hin _ (or_introl eq_refl))) as Hs.
  destruct (snd row); cbn [new_field] in Hf; try (rewrite Hf; exact Hs); exact (same_shape_of _ _ _ (proj1 Hf) Hs).
Qed.
(* what the objects of a copy refer to *)
Lemma made_from_refs a H i o' k f c : (forall j o, j < a -> nth_error H j = Some o -> proper o) -> made_from a H i o' -> In (k, f) (o_fields o') -> In c (refs f) ->
  (pointer (o_kind o') k = false /\ i < c < length H /\ has_parent H c (Some i)) \/ (pointer (o_kind o') k = true /\ exists j o, j < a /\ nth_error H j = Some o /\ o_kind o = o_kind o' /\ In (k, f) (o_fields o)).
Proof.
  intros Hp (_ & j & o & Hj & Eo & K & F) Hf Hc. specialize (Hp j o Hj Eo).
  assert (Hrow : exists m g, In (k, m) (copied (o_kind o)) /\ fget k (o_fields o) = Some g /\ new_field i H m g f).
  { clear -F Hf. induction F as [| row kf rows fs (E & g & Eg & Hg) F IH]; [destruct Hf |]. destruct Hf as [-> | Hf].
    - destruct row as [nm m]. cbn in E, Eg, Hg. subst nm. exists m, g. split; [left; reflexivity | split; assumption].
    - destruct (IH Hf) as (m & g' & A & B). exists m, g'. split; [right; exact A | exact B]. }
  destruct Hrow as (m & g & Hrow & Hget & Hnew). destruct (proper_get _ _ _ Hp Hget) as (s & Hs & Hof). pose proof (copied_shape _ _ _ _ Hrow Hs) as He.
  destruct m; cbn [new_field] in Hnew; try (left; split; [rewrite K; destruct (copied_pointer _ _ _ Hrow) as [Hx | Hx]; [discriminate Hx | exact Hx] | exact (proj2 Hnew c Hc)]). subst g. right. rewrite K.
  split; [destruct s; cbn in He; try discriminate He; try exact He; destruct f as [? | ? | ? | [? |]]; cbn in Hof; try contradiction; destruct Hc |].
  exists j, o. split; [exact Hj |]. split; [exact Eo |]. split; [reflexivity | exact (fget_in _ _ _ Hget)].
Qed.

Lemma wf_fresh h h' : wf_heap h -> fresh (length h) h h' -> wf_heap h'.
Proof.
  intros Hh [X F]. pose proof Hh as Hh'. rewrite wf_nth in Hh' |- *. intros i o E. destruct (Nat.lt_ge_cases i (length h)) as [Hi | Hi].
  - rewrite (proj2 X i Hi) in E. destruct (Hh' i o E) as (A & B & C). split; [exact A |]. pose proof (proj1 X).
    split; [eapply below_le; [exact B | assumption] |]. intros k f c Hf Hc. specialize (C k f c Hf Hc). lia.
  - specialize (F i o Hi E).
    assert (Hp : forall j o, j < length h -> nth_error h' j = Some o -> proper o).
    { intros j oj Hj Ej. rewrite (proj2 X j Hj) in Ej. exact (wf_proper _ _ _ Hh Ej). }
    split; [exact (made_from_proper _ _ _ _ Hp F) |]. split; [exact (proj1 F) |]. intros k f c Hf Hc.
    destruct (made_from_refs _ _ _ _ _ _ _ Hp F Hf Hc) as [Hr | (_ & j & oj & Hj & Ej & _ & Hin)]; [lia |].
    rewrite (proj2 X j Hj) in Ej. destruct (Hh' j oj Ej) as (_ & _ & C). specialize (C k f c Hin Hc). destruct X. lia.
Qed.
Lemma wf_copies n h new l h' l' : wf_heap h -> new < length h -> Forall (fun c => c < length h) l -> copy_list (deepcopy n) new l h = Ok (h', l') ->
  wf_heap h' /\ fresh (length h) h h' /\ length l' = length l /\ forall c, In c l' -> length h <= c < length h' /\ has_parent h' c (Some new).
Proof.
  intros Hh Hn Hl E. destruct (fresh_list (length h) (deepcopy n) (deepcopy_makes _ n) new l h h' l' (closed_own h (proj1 Hh)) Hn Hl E) as (F & L & R).
  split; [exact (wf_fresh _ _ Hh F) |]. auto.
Qed.

(* ------------------------------------------------------------- the build *)
(* the objects stay, with their class *)
Definition keeps (h h' : heap) : Prop :=
  length h <= length h' /\ forall i o, nth_error h i = Some o -> exists o', nth_error h' i = Some o' /\ o_kind o' = o_kind o.
Lemma keeps_refl h : keeps h h.
Proof. split; eauto. Qed.
Lemma keeps_trans h1 h2 h3 : keeps h1 h2 -> keeps h2 h3 -> keeps h1 h3.
Proof.
  intros [L1 K1] [L2 K2]. split; [lia |]. intros i o E. destruct (K1 i o E) as (o1 & E1 & k1). destruct (K2 i o1 E1) as (o2 & E2 & k2).
  exists o2. split; [exact E2 | congruence].
Qed.
Lemma keeps_extends h h' : extends h h' -> keeps h h'.
Proof. intros X. split; [exact (proj1 X) |]. intros i o E. exists o. split; [exact (extends_some _ _ _ _ X E) | reflexivity]. Qed.
Lemma extends_app h l : extends h (h ++ l).
Proof. split; [rewrite app_length; lia |]. intros i Hi. apply nth_error_app1. exact Hi. Qed.
Lemma keeps_put h l k v : keeps h (put h l k v).
Proof.
  split; [rewrite put_length; lia |]. intros i o E. eexists. split; [apply put_nth; exact E |]. destruct (Nat.eq_dec i l); reflexivity.
Qed.
Lemma keeps_put_parent h l p : keeps h (put_parent h l p).
Proof.
  split; [rewrite put_parent_length; lia |]. intros i o E. eexists. split; [apply put_parent_nth; exact E |]. destruct (Nat.eq_dec i l); reflexivity.
Qed.

Definition tags_ok (h : heap) (nums : list tag) : Prop :=
  length nums <= length h /\
  forall i k j, nth_error nums i = Some (Some (k, j)) -> exists o, nth_error h i = Some o /\ o_kind o = k.
Definition wf (b : build) : Prop :=
  wf_heap (b_heap b) /\ 0 < length (b_heap b) /\ tags_ok (b_heap b) (b_nums b) /\
  Forall (fun e => snd e < length (b_heap b)) (b_parts b) /\
  Forall (fun e => snd e < length (b_heap b)) (b_foots b) /\
  Forall (fun e => snd e < length (b_heap b)) (b_items b).

Lemma tags_keeps h h' nums : tags_ok h nums -> keeps h h' -> tags_ok h' nums.
Proof.
  intros [L T] [L' K]. split; [lia |]. intros i k j E. destruct (T i k j E) as (o & Eo & Ko). destruct (K i o Eo) as (o' & Eo' & Ko'). exists o'. split; [exact Eo' | congruence].
Qed.
Lemma Forall_lt {A} (f : A -> nat) n m l : n <= m -> Forall (fun e => f e < n) l -> Forall (fun e => f e < m) l.
Proof. intros H F. refine (Forall_impl _ _ F). intros e He. cbn in He. lia. Qed.
Lemma wf_set b h : wf b -> wf_heap h -> keeps (b_heap b) h -> wf (set_heap b h).
Proof.
  intros (A & Z & T & P & F & I) Hh K. unfold set_heap. split; [exact Hh |]. cbn. pose proof (proj1 K) as L.
  split; [lia |]. split; [exact (tags_keeps _ _ _ T K) |]. repeat split; eapply Forall_lt; eassumption.
Qed.
Lemma locate_nth k i nums l : locate k i nums = Some l -> nth_error nums l = Some (Some (k, i)).
Proof.
  revert l. induction nums as [| t r IH]; intros l E; cbn [locate] in E; [discriminate |].
  destruct (tagged k i t) eqn:Et.
  - assert (l = 0) as -> by congruence. cbn. destruct t as [[k' j] |]; cbn in Et; [| discriminate]. destruct (kind_dec k k') as [<- |]; [| discriminate].
    apply Nat.eqb_eq in Et. subst j. reflexivity.
  - destruct (locate k i r) as [m |]; cbn in E; [| discriminate]. assert (l = S m) as -> by congruence. cbn. apply IH. reflexivity.
Qed.
Lemma located b k i l : wf b -> locate k i (b_nums b) = Some l -> exists o, nth_error (b_heap b) l = Some o /\ o_kind o = k.
Proof. intros (_ & _ & (_ & T) & _) E. exact (T _ _ _ (locate_nth _ _ _ _ E)). Qed.
Lemma located_lt b k i l : wf b -> locate k i (b_nums b) = Some l -> l < length (b_heap b).
Proof. intros H E. destruct (located _ _ _ _ H E) as (o & Eo & _). exact (nth_length _ _ _ Eo). Qed.

Lemma tags_app h nums cs : length nums = length h -> tags_ok h nums -> tags_ok (h ++ map fst cs) (nums ++ map tag_of cs).
Proof.
  intros L [_ T]. split; [rewrite !app_length, !map_length; change (obj * option nat)%type with cell; lia |]. intros i k j E.
  destruct (Nat.lt_ge_cases i (length nums)) as [Hi | Hi].
  - rewrite nth_error_app1 in E by exact Hi. destruct (T i k j E) as (o & Eo & K). exists o. split; [rewrite nth_error_app1 by (rewrite <- L; exact Hi); exact Eo | exact K].
  - rewrite nth_error_app2 in E by exact Hi. rewrite nth_error_map in E.
    destruct (@nth_error cell cs (i - length nums)) as [[o t] |] eqn:Ec; cbn [option_map] in E; [| congruence]. cbn in E. destruct t as [t |]; [| discriminate E]. cbn in E. exists o. split; [| congruence]. rewrite nth_error_app2 by lia. rewrite <- L, nth_error_map.
    change (obj * option nat)%type with cell. rewrite Ec. reflexivity.
Qed.
(* the first objects: all have a place for their number *)
Definition tree (b : build) : Prop := wf b /\ length (b_nums b) = length (b_heap b) /\ b_foots b = [] /\ b_items b = [].
Lemma tree_add b cs ok : tree b -> segment ok (length (b_heap b)) cs -> (forall c, ~ ok c) -> tree (add_cells b cs).
Proof.
  intros ((A & Z & T & P & F & I) & L & Hf & Hi) Hs Hok. unfold add_cells. split; [| split; [| split; assumption]].
  - split; [cbn; apply (wf_segment ok); [exact A | exact Hs | intros c Hc; destruct (Hok c Hc)] |]. cbn. rewrite app_length.
    split; [lia |]. split; [exact (tags_app _ _ _ L T) |]. repeat split; (eapply Forall_lt; [| eassumption]); lia.
  - cbn. rewrite !app_length, !map_length. change (obj * option nat)%type with cell. lia.
Qed.
Lemma find_snd {A} (g : A -> bool) l a : find g l = Some a -> In a l.
Proof. intro H. exact (proj1 (find_some _ _ H)). Qed.
Lemma tree_parts b p l : tree b -> l < length (b_heap b) -> tree (mkBuild (b_heap b) (b_nums b) (b_parts b ++ [(p, l)]) (b_foots b) (b_items b)).
Proof.
  intros ((A & Z & T & P & F & I) & L & Hf & Hi) Hl. split; [| split; [exact L | split; assumption]]. split; [exact A |]. cbn.
  split; [exact Z |]. split; [exact T |]. split; [| split; assumption]. apply Forall_app. split; [exact P |]. constructor; [exact Hl | constructor].
Qed.
Lemma tree_add_part b p : tree b -> tree (join_part b p).
Proof.
  intro Hb. unfold join_part. destruct (find (same_part _) (b_parts b)) as [[[q i] l] |] eqn:Ef.
  - apply tree_parts; [exact Hb |]. destruct Hb as ((_ & _ & _ & P & _) & _). rewrite Forall_forall in P. exact (P _ (find_snd _ _ _ Ef)).
  - destruct (dnode_segment (fun _ => False) (snd p) None (length (b_heap b)) (below_none _)) as (S1 & Hne).
    pose proof (tree_add b _ _ Hb S1 (fun _ H => H)) as Hb'. apply (tree_parts (add_cells b _)); [exact Hb' |].
    unfold add_cells. cbn. rewrite app_length, map_length. destruct (dnode_cells None (length (b_heap b)) (snd p)); [congruence | cbn; lia].
Qed.
Lemma tree_add_header b h : tree b -> tree (add_header b h).
Proof.
  intro Hb. unfold add_header. destruct (locate KHeader (h_id h) (b_nums b)); [exact Hb |].
  destruct (header_segment (fun _ => False) None (length (b_heap b)) h (below_none _)) as (S1 & _). exact (tree_add b _ _ Hb S1 (fun _ H => H)).
Qed.
Lemma fold_tree {A} (f : build -> A -> build) (Hf : forall b a, tree b -> tree (f b a)) l : forall b, tree b -> tree (fold_left f l b).
Proof. induction l as [| a l IH]; intros b Hb; cbn; auto. Qed.
Lemma document_segment doc : segment (fun _ => False) 0 (document_cells doc) /\ document_cells doc <> [].
Proof.
  split; [| discriminate]. unfold document_cells.
  destruct (place_segment (fun _ => False) (dnode_cells (Some 0)) (fst doc) 1) as (S1 & R1 & _).
  { intros b Hb. apply Forall_forall. intros d _. apply dnode_segment. apply below_some. lia. }
  apply with_content_segment; [exact S1 | exact R1 | proper_obj | apply below_none | contents].
Qed.
Lemma build_tree_ok doc done : tree (build_tree doc done).
Proof.
  unfold build_tree. apply fold_tree; [exact tree_add_header |]. apply fold_tree; [exact tree_add_part |].
  destruct (document_segment doc) as (S1 & Hne).
  assert (L : 0 < length (document_cells doc)) by (destruct (document_cells doc); [congruence | cbn; lia]).
  split; [| split; [cbn; rewrite !map_length; reflexivity | split; reflexivity]].
  split; [exact (wf_segment (fun _ => False) [] _ ltac:(split; [intros [|] ? ?; discriminate | constructor]) S1 (fun c (H : False) => match H with end)) |].
  cbn [b_heap b_nums b_parts b_foots b_items]. split; [rewrite map_length; exact L |].
  assert (T0 : tags_ok [] []) by (split; [auto | intros [|] ? ? ?; discriminate]).
  split; [exact (tags_app [] [] (document_cells doc) eq_refl T0) |]. repeat split; constructor.
Qed.

(* assignments *)
Ltac has_attribute := cbn; repeat (first [left; reflexivity | right]).
Lemma wf_keeps_put b l o k s v : wf b -> nth_error (b_heap b) l = Some o -> In (k, s) (attributes (o_kind o)) -> of_shape s v ->
  (forall c, In c (refs v) -> c < length (b_heap b)) -> wf (set_heap b (put (b_heap b) l k v)).
Proof. intros Hb Eo Hs Hv Hr. apply wf_set; [exact Hb | exact (wf_put _ _ _ _ _ _ (proj1 Hb) Eo Hs Hv Hr) | apply keeps_put]. Qed.

Lemma nodes_in_lt h l k : wf_heap h -> Forall (fun c => c < length h) (nodes_in h l k).
Proof.
  intro Hh. unfold nodes_in. destruct (nth_error h l) as [o |] eqn:Eo; [| constructor]. destruct (fget k (o_fields o)) as [[v | ls | d | c] |] eqn:Ef; try constructor.
  apply Forall_forall. intros c Hc. exact (proj2 (proj1 Hh l o Eo) k (Nodes ls) c (fget_in _ _ _ Ef) Hc).
Qed.
Lemma extends_update h h' l o : extends h h' -> length h <= l -> extends h (update l o h').
Proof. intros [L N] Hl. split; [rewrite length_update; exact L |]. intros i Hi. rewrite nth_update_other by lia. auto. Qed.

Definition footnote_obj (f : footnote copy) (content : list nat) : obj := mkObj KFootnote None empty_args empty_context
  [("name", Plain (VStr (fn_name f))); ("public_id", Plain (VStr (fn_public_id f))); ("internal_id", Plain (VStr (fn_internal_id f))); ("content", Nodes content)]%string.
Lemma update_put h new f ls : nth_error h new = Some (footnote_obj f []) -> update new (footnote_obj f ls) h = put h new "content" (Nodes ls).
Proof. intro E. unfold put. rewrite E. reflexivity. Qed.
Lemma footnote_seg ok base f : segment ok base [(footnote_obj f [], None)].
Proof. assert (below_of None base) by auto. unfold footnote_obj. leaf. Qed.

Lemma make_footnote_wf n b f b' : wf b -> make_footnote n b f = Ok b' -> wf b' /\ keeps (b_heap b) (b_heap b') /\ b_nums b' = b_nums b /\ b_parts b' = b_parts b.
Proof.
  intros Hb E. unfold make_footnote in E.
  destruct (find (same_foot f) (b_foots b)) as [e |]; [assert (b' = b) as -> by congruence; auto using keeps_refl |].
  destruct (find (same_body f) (b_parts b)) as [[[q i] body] |] eqn:Ef; [| assert (b' = b) as -> by congruence; auto using keeps_refl].
  fold (footnote_obj f []) in E. set (new := length (b_heap b)) in *.
  assert (W0 : wf_heap (b_heap b ++ [footnote_obj f []])).
  { exact (wf_segment (fun _ => False) (b_heap b) [(footnote_obj f [], None)] (proj1 Hb) (footnote_seg _ _ f) (fun c (H : False) => match H with end)). }
  assert (L0 : length (b_heap b ++ [footnote_obj f []]) = S new) by (rewrite app_length; cbn; lia).
  destruct (copy_list (deepcopy n) new (nodes_in (b_heap b) body "content") (b_heap b ++ [footnote_obj f []])) as [[h ls] |] eqn:Ec; cbn [rbind] in E; [| discriminate].
  assert (Hl : Forall (fun c => c < length (b_heap b ++ [footnote_obj f []])) (nodes_in (b_heap b) body "content")).
  { apply (Forall_lt (fun c => c) (length (b_heap b))); [lia | exact (nodes_in_lt _ _ _ (proj1 Hb))]. }
  destruct (wf_copies n _ new _ h ls W0 ltac:(lia) Hl Ec) as (W1 & (X1 & _) & _ & R1).
  assert (En : nth_error h new = Some (footnote_obj f [])).
  { apply (extends_some _ _ _ _ X1). rewrite nth_error_app2 by (unfold new; lia). unfold new. rewrite Nat.sub_diag. reflexivity. }
  fold (footnote_obj f ls) in E. rewrite (update_put h new f ls En) in E.
  assert (W2 : wf_heap (put h new "content" (Nodes ls))).
  { apply (wf_put h new (footnote_obj f []) "content" SNodes); [exact W1 | exact En | has_attribute | exact I |]. intros c Hc. specialize (R1 c Hc). lia. }
  assert (K : keeps (b_heap b) (put h new "content" (Nodes ls))).
  { eapply keeps_trans; [apply keeps_extends, (extends_app _ [footnote_obj f []]) |]. eapply keeps_trans; [apply keeps_extends; exact X1 | apply keeps_put]. }
  pose proof (wf_set b _ Hb W2 K) as (A & Z & T & P & F & I). cbn [set_heap b_heap b_nums b_parts b_foots b_items] in A, Z, T, P, F, I.
  injection E as <-. cbn [b_heap b_nums b_parts]. split; [| split; [exact K | split; reflexivity]].
  split; [exact A |]. cbn [b_heap b_nums b_parts b_foots b_items]. split; [exact Z |]. split; [exact T |]. split; [exact P |]. split; [| exact I].
  apply Forall_app. split; [exact F |]. constructor; [| constructor]. cbn. exact (nth_length _ _ _ (put_nth _ _ _ _ _ _ En)).
Qed.
Lemma make_footnotes_wf n l : forall b b', wf b -> make_footnotes n b l = Ok b' -> wf b' /\ keeps (b_heap b) (b_heap b') /\ b_nums b' = b_nums b /\ b_parts b' = b_parts b.
Proof.
  induction l as [| f l IH]; intros b b' Hb E; cbn [make_footnotes] in E.
  - assert (b' = b) as -> by congruence. auto using keeps_refl.
  - destruct (make_footnote n b f) as [b1 |] eqn:E1; cbn [rbind] in E; [| discriminate].
    destruct (make_footnote_wf _ _ _ _ Hb E1) as (W1 & K1 & N1 & P1). destruct (IH b1 b' W1 E) as (W2 & K2 & N2 & P2).
    split; [exact W2 |]. split; [exact (keeps_trans _ _ _ K1 K2) |]. split; congruence.
Qed.
Lemma foot_loc_lt b f l : wf b -> foot_loc b f = Ok l -> l < length (b_heap b).
Proof.
  intros (_ & _ & _ & _ & F & _) E. unfold foot_loc in E. destruct (find (same_foot f) (b_foots b)) as [[q k] |] eqn:Ef; [| discriminate].
  assert (k = l) as -> by congruence. rewrite Forall_forall in F. exact (F _ (find_snd _ _ _ Ef)).
Qed.
Lemma foot_locs_lt b l ls : wf b -> for_each (foot_loc b) l = Ok ls -> Forall (fun c => c < length (b_heap b)) ls.
Proof.
  intro Hb. revert ls. induction l as [| f l IH]; intros ls E; cbn [for_each] in E; [assert (ls = []) as -> by congruence; constructor |].
  destruct (foot_loc b f) as [k |] eqn:Ek; cbn [rbind] in E; [| discriminate]. destruct (for_each (foot_loc b) l) as [ks |]; cbn [rbind] in E; [| discriminate].
  assert (ls = k :: ks) as -> by congruence. constructor; [exact (foot_loc_lt _ _ _ Hb Ek) | exact (IH ks eq_refl)].
Qed.

Definition footnote_cells (m : nat) (_ : nat) (f : nat) : list cell :=
  [(mkObj KFootnotesItem (Some m) empty_args empty_context [("footnote", One (Some f))]%string, None : option nat)].
Lemma footnote_cells_segment m base l (ok : nat -> Prop) : m < base -> Forall ok l ->
  segment ok base (snd (place (footnote_cells m) base l)) /\
  (forall c, In c (fst (place (footnote_cells m) base l)) -> base <= c < base + length (snd (place (footnote_cells m) base l))) /\
  length (fst (place (footnote_cells m) base l)) = length l.
Proof.
  intros Hm Hl. apply place_segment. intros b Hb. refine (Forall_impl _ _ Hl). intros f Hf. split; [| discriminate].
  apply segment_cons; [| apply segment_nil]. cbn [fst length]. split; [proper_obj |]. split; [intros p E; cbn in E; injection E as <-; lia |].
  intros k g c H Hc. in_fields H. injection H as <- <-. cbn [refs In] in Hc. destruct Hc as [<- | []]. exact Hf.
Qed.
Lemma toc_segment loc toc (ok : nat -> Prop) t : Forall (fun h => ok (loc h)) (toc_headers t) -> forall base, toc < base ->
  segment ok base (toc_cells loc toc base t) /\ toc_cells loc toc base t <> [].
Proof.
  induction t as [h l IH] using toc_all. intros Hh base Hb. split; [| discriminate]. cbn [toc_headers] in Hh. inversion Hh as [| ? ? H1 H2]; subst.
  cbn [toc_cells]. destruct (place_segment ok (toc_cells loc toc) l (S base)) as (S1 & R1 & _).
  { intros b Hle. apply Forall_forall. intros x Hx. rewrite Forall_forall in IH. apply (IH x Hx); [| lia].
    apply Forall_forall. intros y Hy. rewrite Forall_forall in H2. apply H2. apply in_flat_map. eauto. }
  apply with_content_segment; [exact S1 | exact R1 | proper_obj | apply below_some; lia |].
  intros k f c H Hc. in_fields H; injection H as <- <-; cbn [refs In] in Hc; cbn [o_kind pointer]; [destruct Hc as [<- | []]; exact H1 | exact Hc].
Qed.
Lemma tocs_segment loc toc (ok : nat -> Prop) l base : Forall (fun h => ok (loc h)) (flat_map toc_headers l) -> toc < base ->
  segment ok base (snd (place (toc_cells loc toc) base l)) /\
  (forall c, In c (fst (place (toc_cells loc toc) base l)) -> base <= c < base + length (snd (place (toc_cells loc toc) base l))) /\
  length (fst (place (toc_cells loc toc) base l)) = length l.
Proof.
  intros Hh Ht. apply place_segment. intros b Hb. apply Forall_forall. intros t Hin. apply toc_segment; [| lia].
  apply Forall_forall. intros y Hy. rewrite Forall_forall in Hh. apply Hh. apply in_flat_map. eauto.
Qed.

Lemma header_loc_lt b h : wf b -> header_loc b h < length (b_heap b).
Proof.
  intro Hb. unfold header_loc. destruct (locate KHeader (h_id h) (b_nums b)) eqn:E; [exact (located_lt _ _ _ _ Hb E) | exact (proj1 (proj2 Hb))].
Qed.

Lemma place_item_wf group made name node b pos b' l : wf b -> node < length (b_heap b) -> place_item group made name node b pos = (b', l) ->
  wf b' /\ keeps (b_heap b) (b_heap b') /\ b_nums b' = b_nums b /\ l < length (b_heap b').
Proof.
  intros Hb Hn E. unfold place_item in E. pose proof Hb as (A & Z & T & P & F & I).
  destruct (find (same_item made name pos) (b_items b)) as [[q k] |] eqn:Ef.
  - assert (b' = set_heap b (put_parent (b_heap b) k node) /\ l = k) as [-> ->] by (split; congruence).
    assert (Hk : k < length (b_heap b)) by (rewrite Forall_forall in I; exact (I _ (find_snd _ _ _ Ef))).
    split; [| split; [apply keeps_put_parent | split; [reflexivity | cbn; rewrite put_parent_length; exact Hk]]].
    apply wf_set; [exact Hb | | apply keeps_put_parent]. pose proof (wf_put_parent _ k node _ A Hn (le_n _)) as W.
    apply wf_nth. rewrite put_parent_length. intros i o Ei. destruct (W i o Ei) as (W1 & W2 & W3). rewrite put_parent_length in W3. auto.
  - clear Ef. set (block := match find (fun e => part_eqb (PBlock group made pos) (fst (fst e))) (b_parts b) with Some (_, _, k) => k | None => 0 end) in *.
    assert (Hk : block < length (b_heap b)).
    { unfold block. destruct (find _ (b_parts b)) as [[[q i] k] |] eqn:Ef; [| exact Z]. rewrite Forall_forall in P. exact (P _ (find_snd _ _ _ Ef)). }
    injection E as <- <-. cbn [b_heap b_nums b_parts b_foots b_items]. set (o := mkObj _ (Some node) _ _ _).
    set (h := put_parent (b_heap b) block (length (b_heap b))).
    assert (L : length (h ++ [o]) = S (length (b_heap b))) by (rewrite app_length; unfold h; rewrite put_parent_length; cbn; lia).
    assert (Lh : length h = length (b_heap b)) by apply put_parent_length.
    assert (W : wf_heap (h ++ [o])).
    { apply wf_nth. rewrite L. intros i oi Ei. destruct (Nat.lt_ge_cases i (length h)) as [Hi | Hi].
      - rewrite nth_error_app1 in Ei by exact Hi.
        destruct (wf_put_parent (b_heap b) block (length (b_heap b)) (S (length (b_heap b))) A ltac:(lia) ltac:(lia) i oi Ei) as (W1 & W2 & W3).
        split; [exact W1 |]. split; [exact W2 |]. intros k f c Hf Hc. specialize (W3 k f c Hf Hc). fold h in W3. lia.
      - rewrite nth_error_app2 in Ei by exact Hi. destruct (i - length h) as [| m]; [| destruct m; discriminate Ei]. cbn [nth_error] in Ei.
        assert (oi = o) as -> by congruence. split; [unfold o; proper_obj |]. split; [apply below_some; lia |]. intros k f c Hf Hc. unfold o in Hf.
        in_fields Hf; injection Hf as <- <-; cbn [refs In] in Hc; try (destruct Hc; fail). destruct Hc as [<- | []]. lia. }
    assert (K : keeps (b_heap b) (h ++ [o])) by (eapply keeps_trans; [apply keeps_put_parent | apply keeps_extends, extends_app]).
    pose proof (wf_set b _ Hb W K) as (A' & Z' & T' & P' & F' & I'). cbn [set_heap b_heap b_nums b_parts b_foots b_items] in *.
    split; [| split; [exact K | split; [reflexivity | lia]]]. split; [exact A' |]. cbn [b_heap b_nums b_parts b_foots b_items].
    split; [exact Z' |]. split; [exact T' |]. split; [exact P' |]. split; [exact F' |]. apply Forall_app. split; [exact I' |].
    constructor; [cbn; lia | constructor].
Qed.
Lemma place_items_wf group made name node l : forall b b' d, wf b -> node < length (b_heap b) -> place_items group made name node b l = (b', d) ->
  wf b' /\ keeps (b_heap b) (b_heap b') /\ b_nums b' = b_nums b /\ forall c, In c (map snd d) -> c < length (b_heap b').
Proof.
  induction l as [| pos r IH]; intros b b' d Hb Hn E; cbn [place_items] in E.
  - assert (b' = b /\ d = []) as [-> ->] by (split; congruence). split; [exact Hb |]. split; [apply keeps_refl |]. split; [reflexivity | intros c []].
  - destruct (place_item group made name node b pos) as [b1 i] eqn:E1. destruct (place_items group made name node b1 r) as [b2 rest] eqn:E2.
    assert (b' = b2 /\ d = (pos, i) :: rest) as [-> ->] by (split; congruence).
    destruct (place_item_wf _ _ _ _ _ _ _ _ Hb Hn E1) as (W1 & K1 & N1 & L1). pose proof (proj1 K1).
    destruct (IH b1 b2 rest W1 ltac:(lia) E2) as (W2 & K2 & N2 & L2). pose proof (proj1 K2).
    split; [exact W2 |]. split; [exact (keeps_trans _ _ _ K1 K2) |]. split; [congruence |]. intros c [<- | Hc]; [cbn; lia | auto].
Qed.

(* a heap with objects added, an attribute changed and more objects added *)
Lemma do_assign_wf n done b a b' : wf b -> do_assign n done b a = Ok b' -> wf b' /\ b_nums b' = b_nums b.
Proof.
  intros Hb E. destruct a as [id f | id l | id s | id nested plain | id t cc | id made items]; cbn [do_assign] in E.
  - destruct (make_footnotes n b (made_with done f)) as [b1 |] eqn:E1; cbn [rbind] in E; [| discriminate].
    destruct (make_footnotes_wf _ _ _ _ Hb E1) as (W1 & _ & N1 & _).
    destruct (foot_loc b1 f) as [l |] eqn:El; cbn [rbind] in E; [| discriminate]. pose proof (foot_loc_lt _ _ _ W1 El) as Hl.
    destruct (locate KMacroFootnote id (b_nums b1)) as [m |] eqn:Em; [| injection E as <-; split; assumption].
    injection E as <-. split; [| exact N1]. destruct (located _ _ _ _ W1 Em) as (o & Eo & K).
    apply (wf_keeps_put b1 m o "footnote" SOpt); [exact W1 | exact Eo | rewrite K; has_attribute | exact I |]. intros x [<- | []]. exact Hl.
  - destruct (make_footnotes n b (flat_map (made_with done) l)) as [b1 |] eqn:E1; cbn [rbind] in E; [| discriminate].
    destruct (make_footnotes_wf _ _ _ _ Hb E1) as (W1 & _ & N1 & _).
    destruct (for_each (foot_loc b1) l) as [ls |] eqn:El; cbn [rbind] in E; [| discriminate]. pose proof (foot_locs_lt _ _ _ W1 El) as Hl.
    destruct (locate KFootnotes id (b_nums b1)) as [m |] eqn:Em; [| injection E as <-; split; assumption].
    destruct (located _ _ _ _ W1 Em) as (o & Eo & K). pose proof (nth_length _ _ _ Eo) as Lm. fold (footnote_cells m) in E.
    destruct (footnote_cells_segment m (length (b_heap b1)) ls (fun c => c < length (b_heap b1)) Lm Hl) as (S1 & R1 & _).
    destruct (place (footnote_cells m) (length (b_heap b1)) ls) as [its cs]. cbn [fst snd] in S1, R1. injection E as <-. split; [| exact N1].
    assert (X : extends (b_heap b1) (b_heap b1 ++ map fst cs)) by apply extends_app.
    assert (W2 : wf_heap (b_heap b1 ++ map fst cs)) by (apply (wf_segment _ _ _ (proj1 W1) S1); intros; lia).
    apply wf_set; [exact W1 | | eapply keeps_trans; [apply keeps_extends; exact X | apply keeps_put]].
    apply (wf_put _ m o "footnotes" SNodes); [exact W2 | exact (extends_some _ _ _ _ X Eo) | rewrite K; has_attribute | exact I |].
    intros c Hc. specialize (R1 c Hc). rewrite app_length, map_length. change (obj * option nat)%type with cell. lia.
  - destruct (locate KHeader id (b_nums b)) as [m |] eqn:Em; injection E as <-; (split; [| reflexivity]); [| exact Hb].
    destruct (located _ _ _ _ Hb Em) as (o & Eo & K).
    apply (wf_keeps_put b m o "internal_id" SPlain); [exact Hb | exact Eo | rewrite K; has_attribute | exact I | intros x []].
  - destruct (locate KToc id (b_nums b)) as [m |] eqn:Em; [| injection E as <-; split; [exact Hb | reflexivity]].
    destruct (located _ _ _ _ Hb Em) as (o & Eo & K). pose proof (nth_length _ _ _ Eo) as Lm.
    destruct (tocs_segment (header_loc b) m (fun c => c < length (b_heap b)) nested (length (b_heap b))) as (S1 & R1 & _);
      [apply Forall_forall; intros; apply header_loc_lt; exact Hb | exact Lm |].
    destruct (place (toc_cells (header_loc b) m) (length (b_heap b)) nested) as [its cs]. cbn [fst snd] in S1, R1.
    assert (X : extends (b_heap b) (b_heap b ++ map fst cs)) by apply extends_app.
    assert (W2 : wf_heap (b_heap b ++ map fst cs)) by (apply (wf_segment _ _ _ (proj1 Hb) S1); intros; lia).
    set (h1 := put (b_heap b ++ map fst cs) m "nested_entries" (Nodes its)) in *.
    assert (Eo1 : nth_error h1 m = Some (new_obj o "nested_entries" (Nodes its))).
    { unfold h1. rewrite (put_nth _ _ _ _ _ _ (extends_some _ _ _ _ X Eo)). destruct (Nat.eq_dec m m); [reflexivity | congruence]. }
    assert (W3 : wf_heap h1).
    { apply (wf_put _ m o "nested_entries" SNodes); [exact W2 | exact (extends_some _ _ _ _ X Eo) | rewrite K; has_attribute | exact I |].
      intros c Hc. specialize (R1 c Hc). rewrite app_length, map_length. change (obj * option nat)%type with cell. lia. }
    assert (L1 : length (b_heap b) <= length h1) by (unfold h1; rewrite put_length, app_length; lia).
    unfold copy_each in E. destruct (copy_list (deepcopy n) m (map (header_loc b) plain) h1) as [[h2 ls] |] eqn:Ec; cbn [rbind] in E; [| discriminate].
    assert (Hpl : Forall (fun c => c < length h1) (map (header_loc b) plain)).
    { apply Forall_forall. intros c Hc. apply in_map_iff in Hc. destruct Hc as (x & <- & _). pose proof (header_loc_lt b x Hb). lia. }
    destruct (wf_copies n h1 m _ h2 ls W3 ltac:(lia) Hpl Ec) as (W4 & (X2 & _) & _ & R2). injection E as <-. split; [| reflexivity].
    apply wf_set; [exact Hb | |].
    + apply (wf_put _ m (new_obj o "nested_entries" (Nodes its)) "plain_entries" SNodes);
        [exact W4 | exact (extends_some _ _ _ _ X2 Eo1) | cbn; rewrite K; has_attribute | exact I |]. intros c Hc. specialize (R2 c Hc). lia.
    + eapply keeps_trans; [apply keeps_extends; exact X |]. eapply keeps_trans; [apply keeps_put |]. eapply keeps_trans; [apply keeps_extends; exact X2 | apply keeps_put].
  - destruct (locate KMacroHeader id (b_nums b)) as [m |] eqn:Em; [| injection E as <-; split; [exact Hb | reflexivity]].
    destruct (located _ _ _ _ Hb Em) as (o & Eo & K). pose proof (nth_length _ _ _ Eo) as Lm.
    set (v := One (Some (header_loc b t))) in *. set (h1 := put (b_heap b) m "header" v) in *.
    assert (Eo1 : nth_error h1 m = Some (new_obj o "header" v)).
    { unfold h1. rewrite (put_nth _ _ _ _ _ _ Eo). destruct (Nat.eq_dec m m); [reflexivity | congruence]. }
    assert (W3 : wf_heap h1).
    { apply (wf_put _ m o "header" SOpt); [exact (proj1 Hb) | exact Eo | rewrite K; has_attribute | exact I |]. intros x [<- | []]. apply header_loc_lt. exact Hb. }
    assert (K1 : keeps (b_heap b) h1) by apply keeps_put.
    destruct (nodes_in h1 m "content"); [| injection E as <-; split; [exact (wf_set _ _ Hb W3 K1) | reflexivity]].
    unfold copy_each in E. destruct (copy_list (deepcopy n) m (nodes_in h1 (header_loc b t) "content") h1) as [[h2 ls] |] eqn:Ec; cbn [rbind] in E; [| discriminate].
    destruct (wf_copies n h1 m _ h2 ls W3 (nth_length _ _ _ Eo1) (nodes_in_lt _ _ _ W3) Ec) as (W4 & (X2 & _) & _ & R2). injection E as <-. split; [| reflexivity].
    apply wf_set; [exact Hb | |].
    + apply (wf_put _ m (new_obj o "header" v) "content" SNodes);
        [exact W4 | exact (extends_some _ _ _ _ X2 Eo1) | cbn; rewrite K; has_attribute | exact I |]. intros c Hc. specialize (R2 c Hc). lia.
    + eapply keeps_trans; [exact K1 |]. eapply keeps_trans; [apply keeps_extends; exact X2 | apply keeps_put].
  - destruct (locate KBlockGroup id (b_nums b)) as [m |] eqn:Em; [| injection E as <-; split; [exact Hb | reflexivity]].
    destruct (located _ _ _ _ Hb Em) as (o & Eo & K). pose proof (nth_length _ _ _ Eo) as Lm.
    destruct (place_items id made (name_of (b_heap b) m) m b (map fst items)) as [b1 d] eqn:E1.
    destruct (place_items_wf _ _ _ _ _ _ _ _ Hb Lm E1) as (W1 & K1 & N1 & L1). injection E as <-. split; [| exact N1].
    destruct (proj2 K1 m o Eo) as (o1 & Eo1 & Ko).
    apply (wf_keeps_put b1 m o1 "items" SNamed); [exact W1 | exact Eo1 | rewrite Ko, K; has_attribute | exact I | exact L1].
Qed.
Lemma do_assigns_wf n done l : forall b b', wf b -> do_assigns n done b l = Ok b' -> wf b'.
Proof.
  induction l as [| a l IH]; intros b b' Hb E; cbn [do_assigns] in E; [assert (b' = b) as -> by congruence; exact Hb |].
  destruct (do_assign n done b a) as [b1 |] eqn:E1; cbn [rbind] in E; [| discriminate].
  exact (IH b1 b' (proj1 (do_assign_wf _ _ _ _ _ Hb E1)) E).
Qed.
Lemma heap_of_wf n doc done h : heap_of n doc done = Ok h -> wf_heap h /\ 0 < length h.
Proof.
  intro E. unfold heap_of in E. destruct (do_assigns n done (build_tree doc done) done) as [b |] eqn:E1; cbn [rbind] in E; [| discriminate].
  assert (h = b_heap b) as -> by congruence. destruct (do_assigns_wf _ _ _ _ _ (proj1 (build_tree_ok doc done)) E1) as (A & Z & _). split; assumption.
Qed.
