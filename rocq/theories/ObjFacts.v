(* ObjFacts.v -- the objects of a document are its nodes *)
From Verif Require Import NumDoc Build BuildFacts SpecVisitor SpecRender PropertiesVisitor PropertiesVisit PropertiesBuild RenderFacts ShowFacts SpecObjects.
From Coq Require Import List Lia PeanoNat Bool.
Import ListNotations.
#[local] Open Scope list_scope.
#[local] Notation length := List.length.
#[local] Notation tree := SpecObjects.tree.

(* ------------------------------------------------------------- trees *)
Section TreeInd.
  Context (P : tree -> Prop).
  Definition attr_all (a : attr) : Prop :=
    match a with TValue _ | TOne None => True | TNodes l => Forall P l | TNamed l => Forall (fun t => P (snd t)) l | TOne (Some t) => P t end.
  Context (H : forall k a c num fs, Forall (fun nf : string * attr => attr_all (snd nf)) fs -> P (Tree k a c num fs)).
  Fixpoint tree_all (t : tree) : P t :=
    match t with
    | Tree k a c num fs => H k a c num fs
        ((fix go (l : list (string * attr)) : Forall (fun nf : string * attr => attr_all (snd nf)) l :=
            match l with [] => Forall_nil _ | nf :: r => Forall_cons nf (match nf as nf0 return attr_all (snd nf0) with (_, at_) => attr_one at_ end) (go r) end) fs)
    end
  with attr_one (a : attr) : attr_all a :=
    match a with
    | TValue _ => Logic.I
    | TNodes l => (fix go (l : list tree) : Forall P l := match l with [] => Forall_nil _ | t :: r => Forall_cons t (tree_all t) (go r) end) l
    | TNamed l => (fix go (l : list (str * tree)) : Forall (fun t => P (snd t)) l :=
        match l with [] => Forall_nil _ | t :: r => Forall_cons t (match t as t0 return P (snd t0) with (_, u) => tree_all u end) (go r) end) l
    | TOne None => Logic.I
    | TOne (Some t) => tree_all t
    end.
End TreeInd.

(* the attributes that are assigned after the parsing *)
Definition stable (k : kind) (name : string) (empty : bool) : bool :=
  match k with
  | KMacroFootnote => negb (String.eqb name "footnote")
  | KMacroHeader => negb (String.eqb name "header") && negb (String.eqb name "content" && empty)
  | KToc => negb (String.eqb name "plain_entries") && negb (String.eqb name "nested_entries")
  | KFootnotes => negb (String.eqb name "footnotes")
  | KBlockGroup => negb (String.eqb name "items")
  | KHeader => negb (String.eqb name "internal_id")
  | _ => true
  end.
Definition is_empty (f : field) : bool := match f with Nodes [] => true | _ => false end.
Definition no_trees (a : attr) : bool := match a with TNodes [] => true | _ => false end.
Fixpoint tame (t : tree) : bool :=
  match t with Tree k _ _ _ fs => forallb (fun nf : string * attr => stable k (fst nf) (no_trees (snd nf)) && tame_attr (snd nf)) fs end
with tame_attr (a : attr) : bool :=
  match a with TValue _ | TOne None => true | TNodes l => forallb tame l | TNamed l => forallb (fun t => tame (snd t)) l | TOne (Some t) => tame t end.
Lemma is_attr_empty at_ h a f : is_attr at_ h a f -> is_empty f = no_trees a.
Proof. intros []; try reflexivity. destruct H; reflexivity. Qed.

(* A relation between the objects of two heaps that keeps what is there. *)
Definition similar (h h' : heap) (R : nat -> nat -> Prop) : Prop :=
  forall l l' o, R l l' -> nth_error h l = Some o -> exists o', nth_error h' l' = Some o' /\ o_kind o' = o_kind o /\ o_args o' = o_args o /\ o_ctx o' = o_ctx o /\
    forall name f, fget name (o_fields o) = Some f -> stable (o_kind o) name (is_empty f) = true -> exists f', fget name (o_fields o') = Some f' /\ field_sim R f f'.
Lemma tree_sim (at_ at' : kind -> nat -> nat -> Prop) h h' R t : similar h h' R -> (forall k i l l', R l l' -> at_ k i l -> at' k i l') -> tame t = true ->
  forall l l', R l l' -> is_tree at_ h t l -> is_tree at' h' t l'.
Proof.
  intros S N. induction t as [k a c num fs IH] using tree_all. intros T l l' Hr Ht. inversion Ht as [? ? ? ? ? ? o E K A C Hn F]; subst.
  destruct (S _ _ _ Hr E) as (o' & E' & K' & A' & C' & Hf). econstructor; [exact E' | exact K' | exact A' | exact C' | intros i Hi; exact (N _ _ _ _ Hr (Hn i Hi)) |].
  cbn [tame] in T. rewrite forallb_forall in T. rewrite Forall_forall in *. intros nf Hnf. specialize (T nf Hnf). apply andb_prop in T as [T1 T2].
  destruct (F nf Hnf) as (f & Ef & Af). rewrite <- (is_attr_empty _ _ _ _ Af) in T1. destruct (Hf _ _ Ef T1) as (f' & Ef' & Sf). exists f'. split; [exact Ef' |].
  specialize (IH nf Hnf). clear - Af Sf IH T2 S N. destruct Af as [v | ts ls Fl | ts ls Fl | | t l Hl]; cbn [attr_all tame_attr] in IH, T2; destruct f' as [v' | ls' | d' | [c' |]]; cbn [field_sim] in Sf; try contradiction.
  - subst v'. constructor.
  - constructor. rewrite forallb_forall in T2. revert ls' Sf. induction Fl as [| t l ts ls H1 Fl IHl]; intros ls' Sf; inversion Sf; subst; constructor.
    + eapply (Forall_inv IH); [apply T2; left; reflexivity | eassumption | exact H1].
    + apply IHl; [exact (Forall_inv_tail IH) | intros x Hx; apply T2; right; exact Hx | assumption].
  - constructor. rewrite forallb_forall in T2. revert d' Sf. induction Fl as [| t l ts ls [H0 H1] Fl IHl]; intros ls' Sf; inversion Sf as [| ? ? ? ? [G0 G1]]; subst; constructor.
    + split; [congruence |]. eapply (Forall_inv IH); [apply (T2 t); left; reflexivity | eassumption | exact H1].
    + apply IHl; [exact (Forall_inv_tail IH) | intros x Hx; apply T2; right; exact Hx | assumption].
  - constructor.
  - constructor. eapply IH; eassumption.
Qed.
(* ------------------------------------------------------------- tame trees *)
Lemma forallb_map {A B} (f : B -> bool) (g : A -> B) l : forallb f (map g l) = forallb (fun a => f (g a)) l.
Proof. induction l as [| a l IH]; [reflexivity |]. cbn [map forallb]. rewrite IH. reflexivity. Qed.
Lemma forallb_all {A} (f : A -> bool) l : Forall (fun a => f a = true) l -> forallb f l = true.
Proof. intro H. apply forallb_forall. rewrite Forall_forall in H. exact H. Qed.
Lemma inode_tame i : tame (inode_tree i) = true.
Proof.
  induction i using inode_all; cbn [inode_tree]; try reflexivity;
    try (cbn [tame forallb tame_attr snd fst stable negb text texts]; rewrite forallb_map, (forallb_all _ _ H); reflexivity).
  destruct l as [| n l]; [reflexivity |]. cbn [tame forallb tame_attr snd fst stable text no_trees map]. cbn [String.eqb negb Ascii.eqb Bool.eqb andb].
  inversion H; subst. rewrite H2. rewrite forallb_map, (forallb_all _ _ H3). reflexivity.
Qed.
Lemma inodes_tame l : forallb tame (map inode_tree l) = true.
Proof. rewrite forallb_map. apply forallb_all, Forall_forall. intros i _. apply inode_tame. Qed.
Lemma labels_tame (l : labels) : tame_attr (snd (labels_attr l)) = true.
Proof.
  cbn [labels_attr snd tame_attr]. rewrite forallb_map. apply forallb_all, Forall_forall. intros [k c] _. cbn [snd fst tame forallb stable content_attr text tame_attr negb andb]. rewrite inodes_tame. reflexivity.
Qed.
Lemma header_tame h : tame (header_tree h) = true.
Proof. unfold header_tree. cbn [tame forallb]. rewrite labels_tame. cbn [content_attr snd tame_attr]. rewrite inodes_tame. reflexivity. Qed.
Lemma line_tame l : tame (line_tree l) = true.
Proof. unfold line_tree. cbn [tame forallb]. rewrite labels_tame. cbn [content_attr snd tame_attr]. rewrite inodes_tame. reflexivity. Qed.
Lemma source_line_tame l : tame (source_line_tree l) = true.
Proof. unfold source_line_tree. destruct (sl_marker l); reflexivity. Qed.
Lemma map_tame {A} (f : A -> tree) l : (forall a, In a l -> tame (f a) = true) -> tame_attr (TNodes (map f l)) = true.
Proof. intro H. cbn [tame_attr]. rewrite forallb_map. apply forallb_all, Forall_forall. exact H. Qed.
Lemma node_tame d : tame (node_tree d) = true.
Proof.
  induction d using dnode_all; try (rewrite Forall_forall in H); [| | | destruct d; try destruct H; try apply header_tame]; cbn [node_tree tame app forallb snd fst labels_attr];
    try (change (tame_attr (TNamed _)) with (tame_attr (snd (labels_attr (at_labels a)))); rewrite labels_tame); try reflexivity;
    try (rewrite map_tame; [reflexivity | first [exact H | intros x _; first [apply line_tame | apply source_line_tame | reflexivity]]]).
  cbn [content_attr snd tame_attr]. rewrite inodes_tame. reflexivity.
Qed.
Lemma document_tame d : tame (document_tree d) = true.
Proof. unfold document_tree. cbn [tame forallb snd fst]. rewrite map_tame; [reflexivity |]. intros x _. apply node_tame. Qed.
Lemma contents_tame t : tame t = true -> forallb tame (contents t) = true.
Proof.
  destruct t as [k a c num fs]. cbn [tame contents]. intro H. destruct (find _ fs) as [[n b] |] eqn:E; [| reflexivity]. apply find_some in E as [E _].
  rewrite forallb_forall in H. specialize (H _ E). apply andb_prop in H as [_ H]. destruct b as [| l | |]; try reflexivity. exact H.
Qed.
Lemma footnote_tame f : tame (footnote_tree f) = true.
Proof. unfold footnote_tree. cbn [tame forallb snd fst text tame_attr]. rewrite (contents_tame _ (node_tame _)). reflexivity. Qed.

(* ------------------------------------------------------------- changes *)
(* h' has the objects of h, but for the attributes of S *)
Definition keeps_but (S : nat -> string -> Prop) (h h' : heap) : Prop :=
  forall l o, nth_error h l = Some o -> exists o', nth_error h' l = Some o' /\ o_kind o' = o_kind o /\ o_args o' = o_args o /\ o_ctx o' = o_ctx o /\
    forall name f, fget name (o_fields o) = Some f -> ~ S l name -> fget name (o_fields o') = Some f.
Definition loose (S : nat -> string -> Prop) (h : heap) : Prop :=
  forall l name o f, S l name -> nth_error h l = Some o -> fget name (o_fields o) = Some f -> stable (o_kind o) name (is_empty f) = false.
Definition changes (h h' : heap) : Prop :=
  forall l o, nth_error h l = Some o -> exists o', nth_error h' l = Some o' /\ o_kind o' = o_kind o /\ o_args o' = o_args o /\ o_ctx o' = o_ctx o /\
    forall name f, fget name (o_fields o) = Some f -> stable (o_kind o) name (is_empty f) = true -> fget name (o_fields o') = Some f.
Lemma loose_changes S h h' : loose S h -> keeps_but S h h' -> changes h h'.
Proof.
  intros L K l o E. destruct (K l o E) as (o' & E' & k & a & c & F). exists o'. split; [exact E' |]. split; [exact k |]. split; [exact a |]. split; [exact c |].
  intros name f Ef St. apply F; [exact Ef |]. intro Hs. rewrite (L _ _ _ _ Hs E Ef) in St. discriminate.
Qed.
Lemma changes_refl h : changes h h.
Proof. intros l o E. exists o. repeat split; auto. Qed.
Lemma changes_trans h1 h2 h3 : changes h1 h2 -> changes h2 h3 -> changes h1 h3.
Proof.
  intros A B l o E. destruct (A l o E) as (o1 & E1 & k1 & a1 & c1 & F1). destruct (B l o1 E1) as (o2 & E2 & k2 & a2 & c2 & F2).
  exists o2. split; [exact E2 |]. split; [congruence |]. split; [congruence |]. split; [congruence |]. intros name f Ef St. apply F2; [apply F1; assumption | rewrite k1; exact St].
Qed.
Definition nothing (l : nat) (name : string) : Prop := False.
Lemma loose_nothing h : loose nothing h.
Proof. intros l name o f []. Qed.
Lemma keeps_extends_but h h' : extends h h' -> keeps_but nothing h h'.
Proof. intros X l o E. exists o. split; [exact (extends_some _ _ _ _ X E) |]. auto. Qed.
Definition this (m : nat) (n : string) (l : nat) (name : string) : Prop := l = m /\ name = n.
Lemma fget_set k v l : forall n f, fget n l = Some f -> fget n (set_field k v l) = Some (if String.eqb n k then v else f).
Proof.
  induction l as [| [a w] l IH]; intros n f; cbn [fget set_field]; [discriminate |]. destruct (String.eqb_spec k a) as [<- | Hk]; cbn [fget].
  - destruct (String.eqb_spec n k); [reflexivity |]. auto.
  - destruct (String.eqb_spec n a) as [-> | Hn]; [| apply IH]. destruct (String.eqb_spec a k); [congruence | auto].
Qed.
Lemma keeps_put_but h m k v : keeps_but (this m k) h (put h m k v).
Proof.
  intros l o E. eexists. split; [exact (put_nth _ _ _ _ _ _ E) |]. destruct (Nat.eq_dec l m) as [-> | Hne]; cbn [new_obj o_kind o_args o_ctx o_fields]; [| auto].
  repeat split. intros name f Ef Hs. rewrite (fget_set _ _ _ _ _ Ef). destruct (String.eqb_spec name k) as [-> |]; [| reflexivity]. destruct Hs. split; reflexivity.
Qed.
Lemma keeps_parent_but h l p : keeps_but nothing h (put_parent h l p).
Proof. intros i o E. rewrite (put_parent_nth _ _ _ _ _ E). eexists. split; [reflexivity |]. destruct (Nat.eq_dec i l); cbn; auto. Qed.
Lemma keeps_but_trans S h1 h2 h3 : keeps_but S h1 h2 -> keeps_but S h2 h3 -> keeps_but S h1 h3.
Proof.
  intros A B l o E. destruct (A l o E) as (o1 & E1 & k1 & a1 & c1 & F1). destruct (B l o1 E1) as (o2 & E2 & k2 & a2 & c2 & F2).
  exists o2. split; [exact E2 |]. split; [congruence |]. split; [congruence |]. split; [congruence |]. auto.
Qed.
Lemma field_sim_eq f : field_sim eq f f.
Proof. apply field_sim_refl. reflexivity. Qed.
Lemma tree_changes at_ h h' t l : changes h h' -> tame t = true -> is_tree at_ h t l -> is_tree at_ h' t l.
Proof.
  intros C T. apply (tree_sim at_ at_ h h' eq t); [| intros k i a b -> H; exact H | exact T | reflexivity].
  intros a b o <- E. destruct (C a o E) as (o' & E' & k & A & c & F). exists o'. repeat split; try assumption. intros name f Ef St. exists f. split; [exact (F _ _ Ef St) | apply field_sim_eq].
Qed.
Lemma tree_anywhere at_ h t l : tame t = true -> is_tree at_ h t l -> is_tree anywhere h t l.
Proof.
  intros T. apply (tree_sim at_ anywhere h h eq t); [| intros; exact Logic.I | exact T | reflexivity].
  intros a b o <- E. exists o. repeat split; try assumption. intros name f Ef _. exists f. split; [exact Ef | apply field_sim_eq].
Qed.
Lemma Forall2_imp {A B} (P Q : A -> B -> Prop) l r : (forall a b, P a b -> Q a b) -> Forall2 P l r -> Forall2 Q l r.
Proof. intros H F. induction F; constructor; auto. Qed.
(* copies *)
Lemma copied_name k name s : In (name, s) (attributes k) -> In name (map fst (copied k)).
Proof.
  intro H. pose proof (copied_rows k) as F. apply (in_map fst) in H. cbn in H. replace (map fst (copied k)) with (map fst (attributes k)); [exact H |].
  clear H. induction F as [| a b la lb E F IH]; [reflexivity |]. cbn [map]. rewrite IH, E. reflexivity.
Qed.
Lemma tree_copy a b n H H' t l l' p : own a H -> (forall i o, i < a -> nth_error H i = Some o -> proper o) -> (forall i o, i < a \/ b <= i -> nth_error H i = Some o -> nth_error H' i = Some o) ->
  tame t = true -> copy_of a b n H l l' p -> is_tree anywhere H t l -> is_tree anywhere H' t l'.
Proof.
  intros [_ Ow] Hp Hh T Hc. apply (tree_sim anywhere anywhere H H' (fun l l' => (l = l' /\ l < a) \/ exists n p, copy_of a b n H l l' p) t); [| intros; exact Logic.I | exact T | right; eauto].
  clear - Ow Hp Hh. intros l l' o Hr E. destruct Hr as [[<- Hl] | (n & p & Hc)].
  - exists o. split; [exact (Hh _ _ (or_introl Hl) E) |]. repeat split. intros name f Ef _. exists f. split; [exact Ef |]. apply field_sim_refl. intros c Hcc. left. split; [reflexivity |]. exact (Ow _ _ _ _ _ Hl E (fget_in _ _ _ Ef) Hcc).
  - destruct n as [| n]; [destruct Hc |]. cbn [copy_of] in Hc. destruct Hc as (Hl & Hb & o1 & o' & E1 & E' & K & A & C & _ & F). assert (o1 = o) as -> by congruence.
    exists o'. split; [exact (Hh _ _ (or_intror Hb) E') |]. repeat split; try assumption. intros name f Ef _. destruct (proper_get _ _ _ (Hp _ _ Hl E) Ef) as (s & Hs & _).
    destruct (fields_copy_get _ _ _ _ _ _ F (copied_name _ _ _ Hs)) as (m & f1 & f' & _ & Ef1 & Ef' & Hf). assert (f1 = f) as -> by congruence. exists f'. split; [exact Ef' |].
    destruct m; cbn [field_copy] in Hf.
    + subst f'. apply field_sim_refl. intros c Hcc. left. split; [reflexivity |]. exact (Ow _ _ _ _ _ Hl E (fget_in _ _ _ Ef) Hcc).
    + destruct f, f'; try contradiction. cbn. eapply Forall2_imp; [| exact Hf]. cbn. eauto.
    + destruct f, f'; try contradiction. cbn. eapply Forall2_imp; [| exact Hf]. cbn. intros ? ? [? ?]. eauto.
    + destruct f as [| | | [c |]], f' as [| | | [c' |]]; try contradiction. cbn. eauto.
    + destruct f as [| | | [c |]], f' as [| | | [c' |]]; try contradiction; cbn; eauto.
Qed.
(* copies of nodes below a *)
Lemma trees_copy a n h m l h' l' ts : own a h -> (forall i o, i < a -> nth_error h i = Some o -> proper o) -> Forall (fun c => c < a) l -> copy_list (deepcopy n) m l h = Ok (h', l') ->
  forallb tame ts = true -> Forall2 (is_tree anywhere h) ts l ->
  extends h h' /\ forall H', (forall i o, i < a \/ length h <= i -> nth_error h' i = Some o -> nth_error H' i = Some o) -> Forall2 (is_tree anywhere H') ts l'.
Proof.
  intros Ow Hp Hl E T F. destruct (copy_list_spec a (deepcopy n) n (deepcopy_copies a n) m l h h' l' (length h) Ow (le_n _) Hl E) as [X Fc]. split; [exact X |]. intros H' Hh.
  pose proof (own_extends a h h' Ow X) as Ow'.
  assert (Hp' : forall i o, i < a -> nth_error h' i = Some o -> proper o) by (intros i o Hi Eo; rewrite (proj2 X i ltac:(destruct Ow; lia)) in Eo; exact (Hp i o Hi Eo)).
  clear Hl E. revert l' Fc. induction F as [| t c ts l Ht F IH]; intros l' Fc; inversion Fc; subst; constructor; cbn [forallb] in T; apply andb_prop in T as [T1 T2].
  - eapply (tree_copy a (length h)); [exact Ow' | exact Hp' | exact Hh | exact T1 | eassumption |]. exact (tree_changes _ _ _ _ _ (loose_changes _ _ _ (loose_nothing h) (keeps_extends_but _ _ X)) T1 Ht).
  - apply IH; assumption.
Qed.

(* ------------------------------------------------------------- cells in a heap *)
Definition placed (at_ : kind -> nat -> nat -> Prop) (h : heap) (base : nat) (cs : list cell) : Prop :=
  forall j c, nth_error cs j = Some c -> nth_error h (base + j) = Some (fst c) /\ forall i, snd c = Some i -> at_ (o_kind (fst c)) i (base + j).
Lemma placed_app at_ h base cs ds : placed at_ h base (cs ++ ds) -> placed at_ h base cs /\ placed at_ h (base + length cs) ds.
Proof.
  intro H. split; intros j c E.
  - apply H. rewrite nth_error_app1 by exact (nth_length _ _ _ E). exact E.
  - replace (base + length cs + j) with (base + (length cs + j)) by lia. apply H. rewrite nth_error_app2 by lia. replace (length cs + j - length cs) with j by lia. exact E.
Qed.
Lemma placed_cons at_ h base c cs : placed at_ h base (c :: cs) ->
  nth_error h base = Some (fst c) /\ (forall i, snd c = Some i -> at_ (o_kind (fst c)) i base) /\ placed at_ h (S base) cs.
Proof.
  intro H. destruct (H 0 c eq_refl) as [A B]. rewrite Nat.add_0_r in A, B. split; [exact A |]. split; [exact B |]. intros j d E. replace (S base + j) with (base + S j) by lia. exact (H (S j) d E).
Qed.
Lemma placed_place {A} at_ h (f : nat -> A -> list cell) (Q : A -> nat -> Prop) (l : list A) : forall base,
  (forall a b, In a l -> base <= b -> placed at_ h b (f b a) -> Q a b) -> placed at_ h base (snd (place f base l)) -> Forall2 Q l (fst (place f base l)).
Proof.
  induction l as [| a r IH]; intros base H Hp; cbn [place] in *; [constructor |].
  specialize (IH (base + length (f base a)) ltac:(intros a' b Hin Hle; apply H; [right; exact Hin | lia])).
  destruct (place f (base + length (f base a)) r) as [ls cs]. cbn [fst snd] in *. apply placed_app in Hp as [H1 H2]. constructor; [exact (H a base (or_introl eq_refl) (le_n _) H1) | exact (IH H2)].
Qed.
Lemma Forall2_mapl {A B C} (g : A -> B) (P : B -> C -> Prop) l r : Forall2 (fun a => P (g a)) l r -> Forall2 P (map g l) r.
Proof. intro F. induction F; constructor; assumption. Qed.
Lemma Forall2_unmap {A B C} (g : A -> B) (P : B -> C -> Prop) l : forall r, Forall2 P (map g l) r -> Forall2 (fun a => P (g a)) l r.
Proof. induction l as [| a l IH]; intros r F; cbn [map] in F; inversion F; subst; constructor; auto. Qed.
Section Placed.
  Context (at_ : kind -> nat -> nat -> Prop) (h : heap).
  Lemma has_value name (v : value) fs : fget name fs = Some (Plain v) -> exists f, fget name fs = Some f /\ is_attr at_ h (TValue v) f.
  Proof. intro E. exists (Plain v). split; [exact E | constructor]. Qed.
  Lemma has_nodes name ts ls fs : fget name fs = Some (Nodes ls) -> Forall2 (is_tree at_ h) ts ls -> exists f, fget name fs = Some f /\ is_attr at_ h (TNodes ts) f.
  Proof. intros E H. exists (Nodes ls). split; [exact E | constructor; exact H]. Qed.
  Ltac values := repeat (apply Forall_cons; [cbn [fst snd]; unfold text, texts, number, maybe; apply has_value; reflexivity |]).

  Lemma inode_placed i : forall parent base, placed at_ h base (inode_cells parent base i) -> is_tree at_ h (inode_tree i) base.
  Proof.
    assert (Hin : forall l, Forall (fun i => forall parent base, placed at_ h base (inode_cells parent base i) -> is_tree at_ h (inode_tree i) base) l ->
      forall parent base, placed at_ h base (snd (place (inode_cells parent) base l)) -> Forall2 (is_tree at_ h) (map inode_tree l) (fst (place (inode_cells parent) base l))).
    { intros l F parent base Hp. apply Forall2_mapl. revert Hp. apply placed_place. intros a b Ha _. rewrite Forall_forall in F. apply (F a Ha). }
    induction i using inode_all; intros parent base Hp; cbn [inode_cells inode_tree] in *; unfold with_content in Hp; apply placed_cons in Hp as (E & N & Hp); cbn [fst snd o_kind] in *;
      (econstructor; [exact E | reflexivity | reflexivity | reflexivity | first [discriminate | exact N] |]); cbn [o_fields]; values; try apply Forall_nil;
      try (apply Forall_cons; [cbn [fst snd]; eapply has_nodes; [reflexivity | exact (Hin _ H _ _ Hp)] | apply Forall_nil]).
    destruct l as [| n l]; [apply Forall_nil |]. apply Forall_cons; [| apply Forall_nil]. cbn [fst snd]. eapply has_nodes; [reflexivity | exact (Hin _ H _ _ Hp)].
  Qed.
  Lemma inodes_placed l parent base : placed at_ h base (snd (place (inode_cells parent) base l)) -> Forall2 (is_tree at_ h) (map inode_tree l) (fst (place (inode_cells parent) base l)).
  Proof. intro Hp. apply Forall2_mapl. revert Hp. apply placed_place. intros a b _ _. apply inode_placed. Qed.
  Lemma labels_placed (l : labels) host base fs : placed at_ h base (snd (place (label_cells host) base l)) ->
    fget "labels" fs = Some (Named (combine (map fst l) (fst (place (label_cells host) base l)))) ->
    exists f, fget (fst (labels_attr l)) fs = Some f /\ is_attr at_ h (snd (labels_attr l)) f.
  Proof.
    intros Hp E. eexists. split; [exact E |]. cbn [labels_attr snd]. constructor.
    assert (F : Forall2 (fun (a : str * list inode) (b : nat) => is_tree at_ h (Tree KLabel empty_args empty_context None [("role"%string, text (fst a)); content_attr (snd a)]) b) l (fst (place (label_cells host) base l))).
    { revert Hp. apply placed_place. intros [k c] b _ _ Hp. unfold label_cells, with_content in Hp. cbn [fst snd] in *. apply placed_cons in Hp as (E1 & _ & Hp).
      econstructor; [exact E1 | reflexivity | reflexivity | reflexivity | discriminate |]. cbn [o_fields fst]. values. apply Forall_cons; [| apply Forall_nil].
      cbn [content_attr fst snd]. eapply has_nodes; [reflexivity | exact (inodes_placed _ _ _ Hp)]. }
    clear -F. induction F; cbn [map combine]; constructor; [| exact IHF]. cbn [fst snd]. split; [reflexivity | exact H].
  Qed.
  (* a node with content and labels *)
  Lemma with_labels_placed o num base l (p : list nat * list cell) : placed at_ h base (with_labels o num base l p) ->
    exists ls, nth_error h base = Some (o (fst p) (combine (map fst l) (fst (place (label_cells base) (S base + length (snd p)) l)))) /\
      (forall i, num = Some i -> at_ (o_kind (o (fst p) (combine (map fst l) (fst (place (label_cells base) (S base + length (snd p)) l))))) i base) /\
      placed at_ h (S base) (snd p) /\ placed at_ h (S base + length (snd p)) (snd (place (label_cells base) (S base + length (snd p)) l)) /\
      ls = fst (place (label_cells base) (S base + length (snd p)) l).
  Proof.
    intro H. unfold with_labels in H. destruct (place (label_cells base) (S base + length (snd p)) l) as [ls cs] eqn:E. apply placed_cons in H as (A & B & H). apply placed_app in H as [H1 H2].
    exists ls. cbn [fst snd] in *. auto.
  Qed.
  Ltac labels H := let ls := fresh "ls" in apply with_labels_placed in H as (ls & ? & ? & ? & ? & ?); econstructor; [eassumption | reflexivity | reflexivity | reflexivity | first [discriminate | assumption] |]; cbn [o_fields app]; values.
  Ltac last_labels := apply Forall_cons; [| apply Forall_nil]; eapply labels_placed; [eassumption | reflexivity].
  Lemma header_placed hd parent base : placed at_ h base (header_cells parent base hd) -> is_tree at_ h (header_tree hd) base.
  Proof.
    intro H. unfold header_cells in H. unfold header_tree. labels H.
    apply Forall_cons; [cbn [content_attr fst snd]; eapply has_nodes; [reflexivity | apply inodes_placed; assumption] |]. last_labels.
  Qed.
  Lemma nodes_placed {A} (f : nat -> A -> list cell) (g : A -> tree) (l : list A) base : (forall a b, In a l -> placed at_ h b (f b a) -> is_tree at_ h (g a) b) ->
    placed at_ h base (snd (place f base l)) -> Forall2 (is_tree at_ h) (map g l) (fst (place f base l)).
  Proof. intros H Hp. apply Forall2_mapl. revert Hp. apply placed_place. intros a b Ha _. exact (H a b Ha). Qed.
  Lemma line_placed p base l : placed at_ h base (line_cells p base l) -> is_tree at_ h (line_tree l) base.
  Proof.
    intro H. unfold line_cells, with_content in H. apply placed_cons in H as (E & _ & H). econstructor; [exact E | reflexivity | reflexivity | reflexivity | discriminate |]. cbn [o_fields fst].
    apply Forall_cons; [cbn [content_attr fst snd]; eapply has_nodes; [reflexivity | apply inodes_placed; assumption] |].
    apply Forall_cons; [| apply Forall_nil]. cbn [labels_attr fst snd map]. exists (Named []). split; [reflexivity | constructor; constructor].
  Qed.
  Lemma raw_line_placed p base l : placed at_ h base (raw_line_cells p base l) -> is_tree at_ h (raw_line_tree l) base.
  Proof. intro H. apply placed_cons in H as (E & _ & H). econstructor; [exact E | reflexivity | reflexivity | reflexivity | discriminate |]. cbn [o_fields fst]. values. constructor. Qed.
  Lemma source_line_placed p base l : placed at_ h base (source_line_cells p base l) -> is_tree at_ h (source_line_tree l) base.
  Proof.
    intro H. unfold source_line_cells in H. apply placed_cons in H as (E & _ & H). econstructor; [exact E | reflexivity | reflexivity | reflexivity | discriminate |]. cbn [o_fields fst]. values.
    apply Forall_cons; [| constructor]. cbn [fst snd]. destruct (sl_marker l) as [[v c] |]; cbn [option_map].
    - apply placed_cons in H as (E1 & _ & _). eexists. split; [reflexivity |]. constructor. econstructor; [exact E1 | reflexivity | reflexivity | reflexivity | discriminate |]. cbn [o_fields fst snd]. values. constructor.
    - eexists. split; [reflexivity |]. constructor.
  Qed.
  Lemma dnode_placed d : forall parent base, placed at_ h base (dnode_cells parent base d) -> is_tree at_ h (node_tree d) base.
  Proof.
    induction d using dnode_all; intros parent base Hp.
    - cbn [dnode_cells node_tree] in *. labels Hp. apply Forall_cons; [| last_labels]. cbn [fst snd]. eapply has_nodes; [reflexivity |].
      apply nodes_placed; [| assumption]. rewrite Forall_forall in H. intros a' b Ha. apply (H a' Ha).
    - cbn [dnode_cells node_tree] in *. labels Hp. apply Forall_cons; [| last_labels]. cbn [fst snd]. eapply has_nodes; [reflexivity |].
      apply nodes_placed; [| assumption]. rewrite Forall_forall in H. intros a' b Ha. apply (H a' Ha).
    - destruct l as [| n l]; cbn [dnode_cells node_tree] in *.
      + labels Hp. apply Forall_cons; [| last_labels]. cbn [fst snd]. eapply has_nodes; [reflexivity | constructor].
      + pose proof (nodes_placed (dnode_cells (Some (S base))) node_tree (n :: l) (S (S base)) ltac:(rewrite Forall_forall in H; intros a' b Ha; apply (H a' Ha))) as Hn.
        destruct (place (dnode_cells (Some (S base))) (S (S base)) (n :: l)) as [ls cs]. cbn [fst snd] in Hn. labels Hp. apply Forall_cons; [| last_labels]. cbn [fst snd]. eapply has_nodes; [reflexivity |].
        apply Hn. match goal with H : placed at_ h (S base) (snd _) |- _ => cbn [snd] in H; apply placed_cons in H as (_ & _ & H); exact H end.
    - destruct d; try destruct H; cbn [dnode_cells node_tree] in *; try (eapply header_placed; exact Hp); try (labels Hp; last_labels);
        try (labels Hp; apply Forall_cons; [| last_labels]; cbn [fst snd]; eapply has_nodes; [reflexivity |]; apply nodes_placed; [| assumption]; intros a' b _; first [apply line_placed | apply raw_line_placed | apply source_line_placed]).
      unfold with_content in Hp. apply placed_cons in Hp as (E & _ & Hp). econstructor; [exact E | reflexivity | reflexivity | reflexivity | discriminate |]. cbn [o_fields fst]. values.
      apply Forall_cons; [| constructor]. cbn [content_attr fst snd]. eapply has_nodes; [reflexivity | exact (inodes_placed _ _ _ Hp)].
  Qed.
  Lemma document_placed d : placed at_ h 0 (document_cells d) -> is_tree at_ h (document_tree d) 0.
  Proof.
    intro H. unfold document_cells, with_content in H. apply placed_cons in H as (E & _ & H). econstructor; [exact E | reflexivity | reflexivity | reflexivity | discriminate |]. cbn [o_fields fst].
    apply Forall_cons; [| constructor]. cbn [fst snd]. eapply has_nodes; [reflexivity |]. apply nodes_placed; [| exact H]. intros a b _. apply dnode_placed.
  Qed.
End Placed.

(* ------------------------------------------------------------- numbers *)
Definition numbers (cs : list cell) : list nat := flat_map (fun c : cell => match snd c with Some i => [i] | None => [] end) cs.
Lemma numbers_app cs ds : numbers (cs ++ ds) = numbers cs ++ numbers ds.
Proof. apply flat_map_app. Qed.
Lemma place_numbers {A} (f : nat -> A -> list cell) (g : A -> marks) (l : list A) : (forall a b, In a l -> numbers (f b a) = map fst (g a)) ->
  forall base, numbers (snd (place f base l)) = map fst (flat_map g l).
Proof.
  induction l as [| a r IH]; intros H base; cbn [place]; [reflexivity |]. specialize (IH ltac:(intros x b Hx; apply H; right; exact Hx) (base + length (f base a))).
  destruct (place f (base + length (f base a)) r) as [ls cs]. cbn [snd flat_map] in *. rewrite numbers_app, IH, (H a base (or_introl eq_refl)), map_app. reflexivity.
Qed.
Lemma no_numbers {A} (f : nat -> A -> list cell) (l : list A) base : (forall a b, numbers (f b a) = []) -> numbers (snd (place f base l)) = [].
Proof. intro H. rewrite (place_numbers f (fun _ => [])); [| intros a b _; apply H]. induction l; auto. Qed.
Lemma inode_numbers i : forall parent base, numbers (inode_cells parent base i) = map fst (imarks i).
Proof.
  induction i using inode_all; intros parent base; cbn [inode_cells imarks]; unfold with_content; try reflexivity; cbn [numbers flat_map snd app map fst];
    [| | | f_equal]; apply place_numbers; intros a b Ha; rewrite Forall_forall in H; apply (H a Ha).
Qed.
Lemma inodes_numbers l parent base : numbers (snd (place (inode_cells parent) base l)) = map fst (tmarks l).
Proof. apply place_numbers. intros a b _. apply inode_numbers. Qed.
Lemma labels_numbers (l : labels) host base : numbers (snd (place (label_cells host) base l)) = map fst (lmarks l).
Proof. apply place_numbers. intros a b _. unfold label_cells, with_content. cbn [numbers flat_map snd app]. apply inodes_numbers. Qed.
Lemma with_labels_numbers o num base l p : numbers (with_labels o num base l p) = (match num with Some i => [i] | None => [] end) ++ numbers (snd p) ++ map fst (lmarks l).
Proof.
  unfold with_labels. pose proof (labels_numbers l base (S base + length (snd p))) as K. destruct (place (label_cells base) _ l) as [ls cs]. cbn [snd] in K.
  cbn [numbers flat_map snd]. fold (numbers (snd p ++ cs)). rewrite numbers_app, K. reflexivity.
Qed.
Lemma header_numbers hd parent base : numbers (header_cells parent base hd) = map fst (hmarks hd).
Proof. unfold header_cells, hmarks. rewrite with_labels_numbers, inodes_numbers. cbn [map fst app]. rewrite map_app. reflexivity. Qed.
Lemma dnode_numbers d : forall parent base, numbers (dnode_cells parent base d) = map fst (dmarks d).
Proof.
  assert (Hin : forall l, Forall (fun d => forall parent base, numbers (dnode_cells parent base d) = map fst (dmarks d)) l -> forall parent base, numbers (snd (place (dnode_cells parent) base l)) = map fst (flat_map dmarks l)).
  { intros l F parent base. apply place_numbers. intros a b Ha. rewrite Forall_forall in F. apply (F a Ha). }
  induction d using dnode_all; intros parent base; cbn [dmarks].
  - cbn [dnode_cells]. rewrite with_labels_numbers, (Hin _ H), map_app. reflexivity.
  - cbn [dnode_cells]. rewrite with_labels_numbers, (Hin _ H), map_app. reflexivity.
  - destruct l as [| n l]; cbn [dnode_cells]; rewrite with_labels_numbers; [reflexivity |]. rewrite map_app. pose proof (Hin _ H (Some (S base)) (S (S base))) as K.
    destruct (place (dnode_cells (Some (S base))) (S (S base)) (n :: l)) as [ls cs]. cbn [snd numbers flat_map app] in *. f_equal. exact K.
  - destruct d; try destruct H; cbn [dnode_cells dmarks]; try apply header_numbers; rewrite ?with_labels_numbers; try reflexivity.
    + rewrite map_app. cbn [app]. f_equal. apply place_numbers. intros l b _. unfold line_cells, with_content. cbn [numbers flat_map snd app]. apply inodes_numbers.
    + rewrite no_numbers; [reflexivity |]. intros l b. reflexivity.
    + rewrite no_numbers; [reflexivity |]. intros l b. unfold source_line_cells. destruct (sl_marker l) as [[? ?] |]; reflexivity.
    + unfold with_content. cbn [numbers flat_map snd app]. apply inodes_numbers.
    + rewrite no_numbers; [reflexivity |]. intros l b. reflexivity.
Qed.
Lemma document_numbers d : numbers (document_cells d) = map fst (nmarks (fst d)).
Proof. unfold document_cells, with_content. cbn [numbers flat_map snd app]. apply place_numbers. intros a b _. apply dnode_numbers. Qed.
Lemma first_number_hd cs : first_number cs = hd_error (numbers cs).
Proof. induction cs as [| [o [i |]] cs IH]; [reflexivity | reflexivity | exact IH]. Qed.

(* ------------------------------------------------------------- what is said of a number *)
Definition has_name (h : heap) (l : nat) (s : str) : Prop := has h l "name" (Plain (VStr s)).
Definition says (h : heap) (w : later) (i l : nat) : Prop :=
  match w with
  | LHeader hd => is_tree anywhere h (header_tree hd) l
  | LLink t c ctx => exists ls, has h l "content" (Nodes ls) /\ Forall2 (fun n p => is_tree anywhere h (inode_tree n) p) c ls
  | LGroup s => has_name h l s
  | _ => True
  end.
Definition owned (M : marks) (h : heap) (base : nat) (cs : list cell) : Prop :=
  forall j c n, nth_error cs j = Some c -> snd c = Some n -> exists w, In (n, w) M /\ o_kind (fst c) = kind_later w /\ says h w n (base + j).
Lemma owned_incl M N h base cs : incl M N -> owned M h base cs -> owned N h base cs.
Proof. intros I H j c n E S. destruct (H j c n E S) as (w & A & B). exists w. split; [exact (I _ A) | exact B]. Qed.
Lemma owned_nil M h base : owned M h base [].
Proof. intros [| j] c n E; discriminate E. Qed.
Lemma owned_app M h base cs ds : owned M h base cs -> owned M h (base + length cs) ds -> owned M h base (cs ++ ds).
Proof.
  intros H1 H2 j c n E S. destruct (Nat.lt_ge_cases j (length cs)) as [Hj | Hj].
  - rewrite nth_error_app1 in E by exact Hj. exact (H1 j c n E S).
  - rewrite nth_error_app2 in E by exact Hj. destruct (H2 _ c n E S) as (w & A & B & C). exists w. split; [exact A |]. split; [exact B |]. replace (base + j) with (base + length cs + (j - length cs)) by lia. exact C.
Qed.
Lemma owned_cons M h base c cs : (forall n, snd c = Some n -> exists w, In (n, w) M /\ o_kind (fst c) = kind_later w /\ says h w n base) -> owned M h (S base) cs -> owned M h base (c :: cs).
Proof.
  intros H1 H2 [| j] d n E En; cbn [nth_error] in E.
  - rewrite Nat.add_0_r. assert (d = c) as -> by congruence. exact (H1 n En).
  - replace (base + S j) with (S base + j) by lia. exact (H2 j d n E En).
Qed.
Lemma owned_place {A} h (f : nat -> A -> list cell) (g : A -> marks) (l : list A) : (forall a b, In a l -> placed anywhere h b (f b a) -> owned (g a) h b (f b a)) ->
  forall base, placed anywhere h base (snd (place f base l)) -> owned (flat_map g l) h base (snd (place f base l)).
Proof.
  induction l as [| a r IH]; intros H base Hp; cbn [place] in *; [apply owned_nil |]. specialize (IH ltac:(intros x b Hx; apply H; right; exact Hx) (base + length (f base a))).
  destruct (place f (base + length (f base a)) r) as [ls cs]. cbn [snd flat_map] in *. apply placed_app in Hp as [H1 H2].
  apply owned_app; [apply (owned_incl (g a)); [apply incl_appl, incl_refl | exact (H a base (or_introl eq_refl) H1)] | apply (owned_incl (flat_map g r)); [apply incl_appr, incl_refl | exact (IH H2)]].
Qed.
Section Owned.
  Context (h : heap).
  Lemma inode_owned i : forall parent base, placed anywhere h base (inode_cells parent base i) -> owned (imarks i) h base (inode_cells parent base i).
  Proof.
    induction i using inode_all; intros parent base Hp; cbn [inode_cells imarks] in *; unfold with_content in *; try (pose proof Hp as Hc; apply placed_cons in Hp as (E & _ & Hp));
      try (apply owned_cons; [intros ? En; discriminate En | first [apply owned_nil | apply owned_place; [| exact Hp]; intros a' b Ha; rewrite Forall_forall in H; apply (H a' Ha)]]).
    - cbn [snd fst] in *. apply owned_cons.
      + intros n En. cbn [snd] in En. injection En as <-. eexists. split; [left; reflexivity |]. split; [reflexivity |]. cbn [says].
        eexists. split; [eexists; split; [exact E | reflexivity] |]. apply Forall2_unmap. exact (inodes_placed anywhere h l None (S base) Hp).
      + apply (owned_incl (flat_map imarks l)); [apply incl_tl, incl_refl |]. apply owned_place; [| exact Hp]. intros a' b Ha. rewrite Forall_forall in H. apply (H a' Ha).
    - apply owned_cons; [| apply owned_nil]. intros ? En. cbn [snd] in En. injection En as <-. eexists. split; [left; reflexivity |]. split; [reflexivity | exact Logic.I].
  Qed.
  Lemma inodes_owned l parent base : placed anywhere h base (snd (place (inode_cells parent) base l)) -> owned (tmarks l) h base (snd (place (inode_cells parent) base l)).
  Proof. apply owned_place. intros a b _. apply inode_owned. Qed.
  Lemma labels_owned (l : labels) host base : placed anywhere h base (snd (place (label_cells host) base l)) -> owned (lmarks l) h base (snd (place (label_cells host) base l)).
  Proof.
    apply owned_place. intros a b _ Hp. unfold label_cells, with_content in *. apply placed_cons in Hp as (_ & _ & Hp). apply owned_cons; [intros n En; discriminate En | exact (inodes_owned _ _ _ Hp)].
  Qed.
  Lemma with_labels_owned M o num base l p : placed anywhere h base (with_labels o num base l p) ->
    (forall n ls lb, num = Some n -> nth_error h base = Some (o ls lb) -> exists w, In (n, w) M /\ o_kind (o ls lb) = kind_later w /\ says h w n base) ->
    owned M h (S base) (snd p) -> incl (lmarks l) M -> owned M h base (with_labels o num base l p).
  Proof.
    intros H Hn Hp Hl. apply with_labels_placed in H as (ls & E & _ & _ & P & _). unfold with_labels. pose proof (labels_owned _ _ _ P) as K.
    destruct (place (label_cells base) (S base + length (snd p)) l) as [lx cs]. cbn [fst snd] in *. apply owned_cons; [intros n En; cbn [snd fst] in *; exact (Hn n _ _ En E) |].
    apply owned_app; [exact Hp | exact (owned_incl _ _ _ _ _ Hl K)].
  Qed.
  Lemma header_owned hd parent base : placed anywhere h base (header_cells parent base hd) -> owned (hmarks hd) h base (header_cells parent base hd).
  Proof.
    intro H. pose proof (header_placed _ _ _ _ _ H) as T. unfold header_cells in *. apply with_labels_owned; [exact H | | |].
    - intros n ls lb En E. assert (h_id hd = n) as <- by congruence. eexists. split; [left; reflexivity |]. split; [reflexivity | exact T].
    - apply with_labels_placed in H as (_ & _ & _ & P & _). apply (owned_incl (tmarks (h_content hd))); [intros m Hm; right; apply in_or_app; left; exact Hm | exact (inodes_owned _ _ _ P)].
    - intros m Hm. right. apply in_or_app. right. exact Hm.
  Qed.
  Lemma owned_none {A} M (f : nat -> A -> list cell) (l : list A) base : (forall b a c, In c (f b a) -> snd c = None) -> owned M h base (snd (place f base l)).
  Proof.
    intros H j c n E S. apply nth_error_In in E. assert (F : Forall (fun c : cell => snd c = None) (snd (place f base l))) by (apply place_all; intros b a _; apply Forall_forall; intros x Hx; exact (H b a x Hx)).
    rewrite Forall_forall in F. rewrite (F _ E) in S. discriminate.
  Qed.
  Lemma dnode_owned d : forall parent base, placed anywhere h base (dnode_cells parent base d) -> owned (dmarks d) h base (dnode_cells parent base d).
  Proof.
    assert (Hin : forall l, Forall (fun d => forall parent base, placed anywhere h base (dnode_cells parent base d) -> owned (dmarks d) h base (dnode_cells parent base d)) l ->
      forall parent base, placed anywhere h base (snd (place (dnode_cells parent) base l)) -> owned (flat_map dmarks l) h base (snd (place (dnode_cells parent) base l))).
    { intros l F parent base. apply owned_place. intros a b Ha. rewrite Forall_forall in F. apply (F a Ha). }
    assert (Hl : forall (M : marks) a, incl M (M ++ lmarks (at_labels a))) by (intros; apply incl_appl, incl_refl).
    assert (Hr : forall (M : marks) a, incl (lmarks (at_labels a)) (M ++ lmarks (at_labels a))) by (intros; apply incl_appr, incl_refl).
    induction d using dnode_all; intros parent base Hp; cbn [dmarks].
    - cbn [dnode_cells] in *. apply with_labels_owned; [exact Hp | discriminate | | apply Hr]. apply with_labels_placed in Hp as (_ & _ & _ & P & _). eapply owned_incl; [apply Hl | exact (Hin _ H _ _ P)].
    - cbn [dnode_cells] in *. apply with_labels_owned; [exact Hp | discriminate | | apply Hr]. apply with_labels_placed in Hp as (_ & _ & _ & P & _). eapply owned_incl; [apply Hl | exact (Hin _ H _ _ P)].
    - destruct l as [| n l]; cbn [dnode_cells] in *; (apply with_labels_owned; [exact Hp | discriminate | | apply Hr]); [apply owned_nil |].
      apply with_labels_placed in Hp as (_ & _ & _ & P & _). pose proof (Hin _ H (Some (S base)) (S (S base))) as K.
      destruct (place (dnode_cells (Some (S base))) (S (S base)) (n :: l)) as [ls cs]. cbn [snd] in *. apply placed_cons in P as (_ & _ & P). apply owned_cons; [intros i En; discriminate En |].
      eapply owned_incl; [apply Hl | exact (K P)].
    - destruct d; try destruct H; cbn [dnode_cells dmarks] in *; try (apply header_owned; exact Hp);
        try (apply with_labels_owned; [exact Hp | first [discriminate | intros n ls lb En E; injection En as <-; eexists; split; [left; reflexivity |]; split; [reflexivity |]; first [exact Logic.I | eexists; split; [exact E | reflexivity]]]
             | try apply owned_nil | first [apply incl_refl | apply incl_tl, incl_refl | apply Hr]]).
      + apply with_labels_placed in Hp as (_ & _ & _ & P & _). eapply owned_incl; [apply Hl |]. revert P. apply owned_place. intros l b _ P. unfold line_cells, with_content in *. apply placed_cons in P as (_ & _ & P).
        apply owned_cons; [intros n En; discriminate En | exact (inodes_owned _ _ _ P)].
      + apply owned_none. intros b l c [<- | []]. reflexivity.
      + apply owned_none. intros b l c. unfold source_line_cells. destruct (sl_marker l) as [[? ?] |]; intros Hc; repeat (destruct Hc as [<- | Hc]; [reflexivity |]); destruct Hc.
      + unfold with_content in *. apply placed_cons in Hp as (_ & _ & P). apply owned_cons; [intros n En; discriminate En | exact (inodes_owned _ _ _ P)].
      + apply owned_none. intros b l c [<- | []]. reflexivity.
  Qed.
  Lemma document_owned d : placed anywhere h 0 (document_cells d) -> owned (nmarks (fst d)) h 0 (document_cells d).
  Proof.
    intro Hp. unfold document_cells, with_content in *. apply placed_cons in Hp as (_ & _ & P). apply owned_cons; [intros n En; discriminate En |]. revert P. apply owned_place. intros a b _. apply dnode_owned.
  Qed.
End Owned.

(* ------------------------------------------------------------- the tree *)
Lemma extends_changes h h' : extends h h' -> changes h h'.
Proof. intro X. exact (loose_changes _ _ _ (loose_nothing h) (keeps_extends_but _ _ X)). Qed.
Lemma has_extends h h' l n f : extends h h' -> has h l n f -> has h' l n f.
Proof. intros X (o & E & F). exists o. split; [exact (extends_some _ _ _ _ X E) | exact F]. Qed.
Lemma says_extends h h' w i l : extends h h' -> says h w i l -> says h' w i l.
Proof.
  intros X. pose proof (extends_changes _ _ X) as C. destruct w; cbn [says]; auto.
  - intros (ls & H & F). exists ls. split; [exact (has_extends _ _ _ _ _ X H) |]. refine (Forall2_imp _ _ _ _ _ F). intros n p. apply tree_changes; [exact C | apply inode_tame].
  - apply tree_changes; [exact C | apply header_tame].
  - apply has_extends. exact X.
Qed.
Definition tagnums (l : list tag) : list nat := flat_map (fun t : tag => match t with Some (_, i) => [i] | None => [] end) l.
Lemma tagnums_cells cs : tagnums (map tag_of cs) = numbers cs.
Proof. induction cs as [| [o [i |]] cs IH]; [reflexivity | exact (f_equal (cons i) IH) | exact IH]. Qed.
Lemma tagnums_app a b : tagnums (a ++ b) = tagnums a ++ tagnums b.
Proof. apply flat_map_app. Qed.
Lemma tagnums_in nums l k i : nth_error nums l = Some (Some (k, i)) -> In i (tagnums nums).
Proof. intro E. apply nth_error_In in E. apply in_flat_map. eexists. split; [exact E | left; reflexivity]. Qed.
Lemma nodup_right {A} (a b : list A) : NoDup (a ++ b) -> NoDup b.
Proof. induction a as [| x a IH]; [auto |]. cbn [app]. intro H. inversion H. auto. Qed.
Lemma locate_nodup nums ext : NoDup (tagnums nums) -> forall l k i, nth_error nums l = Some (Some (k, i)) -> locate k i (nums ++ ext) = Some l.
Proof.
  induction nums as [| t nums IH]; intros N [| l] k i E; cbn [nth_error app locate] in *; try discriminate.
  - assert (t = Some (k, i)) as -> by congruence. cbn [tagged]. destruct (kind_dec k k); [| congruence]. rewrite Nat.eqb_refl. reflexivity.
  - change (t :: nums) with ([t] ++ nums) in N. rewrite tagnums_app in N. pose proof (nodup_right _ _ N) as N2. destruct (tagged k i t) eqn:Et.
    + exfalso. destruct t as [[k' i'] |]; cbn [tagged] in Et; [| discriminate]. destruct (kind_dec k k'); [| discriminate]. apply Nat.eqb_eq in Et. subst i'. cbn [tagnums flat_map app] in N.
      inversion N as [| ? ? Hn _]; subst. apply Hn. exact (tagnums_in _ _ _ _ E).
    + rewrite (IH N2 _ _ _ E). reflexivity.
Qed.
Definition lies (b : build) (base : nat) (cs : list cell) : Prop :=
  forall j c, nth_error cs j = Some c -> nth_error (b_heap b) (base + j) = Some (fst c) /\ nth_error (b_nums b) (base + j) = Some (tag_of c).
Lemma lies_add b ds base cs : lies b base cs -> lies (add_cells b ds) base cs.
Proof.
  intros H j c E. destruct (H j c E) as [A B]. cbn [add_cells b_heap b_nums]. rewrite !nth_error_app1; [auto | exact (nth_length _ _ _ B) | exact (nth_length _ _ _ A)].
Qed.
Lemma lies_new b cs : length (b_nums b) = length (b_heap b) -> lies (add_cells b cs) (length (b_heap b)) cs.
Proof.
  intros L j c E. cbn [add_cells b_heap b_nums]. rewrite !nth_error_app2 by lia. rewrite L. replace (length (b_heap b) + j - length (b_heap b)) with j by lia. rewrite !nth_error_map.
  change (obj * option nat)%type with cell. change (@nth_error (prod obj (option nat)) cs j) with (@nth_error cell cs j). rewrite E. auto.
Qed.
Lemma lies_anywhere b base cs : lies b base cs -> placed anywhere (b_heap b) base cs.
Proof. intros H j c E. split; [exact (proj1 (H j c E)) | intros; exact Logic.I]. Qed.

Section Objects.
  Context (doc : list dnode * context) (done : list assign) (G : marks).
  Context (one : forall b c, In b (aside done) -> In c (aside done) -> share b c -> b = c) (single : once done)
    (apart : forall b i, In b (aside done) -> In i (map fst (dmarks b)) -> ~ In i (map fst (nmarks (fst doc)))) (tree_once : NoDup (map fst (nmarks (fst doc))))
    (G_once : NoDup (map fst G)) (doc_in : incl (nmarks (fst doc)) G) (done_right : Forall (right G) done).

  Definition own_tags (b : build) : Prop := forall l k i, nth_error (b_nums b) l = Some (Some (k, i)) -> exists w, In (i, w) G /\ k = kind_later w /\ says (b_heap b) w i l.
  Lemma own_add b cs : BuildFacts.tree b -> own_tags b -> (lies (add_cells b cs) (length (b_heap b)) cs -> owned G (b_heap (add_cells b cs)) (length (b_heap b)) cs) -> own_tags (add_cells b cs).
  Proof.
    intros (_ & L & _) O H l k i E. specialize (H (lies_new b cs L)). destruct (Nat.lt_ge_cases l (length (b_nums b))) as [Hl | Hl].
    - cbn [add_cells b_nums] in E. rewrite nth_error_app1 in E by exact Hl. destruct (O l k i E) as (w & A & B & C). exists w. split; [exact A |]. split; [exact B |]. exact (says_extends _ _ _ _ _ (extends_app _ _) C).
    - cbn [add_cells b_nums] in E. rewrite nth_error_app2 in E by exact Hl. rewrite nth_error_map in E. change (obj * option nat)%type with cell in E.
      destruct (@nth_error cell cs (l - length (b_nums b))) as [c |] eqn:Ec; cbn [option_map] in E; [| congruence]. assert (Et : tag_of c = Some (k, i)) by congruence. clear E.
      unfold tag_of in Et. destruct (snd c) as [n |] eqn:En; cbn [option_map] in Et; [| discriminate]. assert (n = i) as -> by congruence. assert (Ek : o_kind (fst c) = k) by congruence.
      destruct (H _ c i Ec En) as (w & A & B & C). exists w. split; [exact A |]. split; [congruence |]. replace l with (length (b_heap b) + (l - length (b_nums b))) by lia. exact C.
  Qed.
  Lemma aside_in d : In d (aside done) -> incl (dmarks d) G.
  Proof.
    intros Hd m Hm. unfold aside in Hd. apply in_flat_map in Hd as (a & Ha & Hd). rewrite Forall_forall in done_right. apply (proj1 (done_right a Ha)). unfold amarks, nmarks. cbn [flat_map]. rewrite app_nil_r. apply in_flat_map. eauto.
  Qed.
  Record joined (b : build) : Prop := mkJoined {
    j_tree : BuildFacts.tree b;
    j_once : NoDup (tagnums (b_nums b));
    j_from : forall i, In i (tagnums (b_nums b)) -> In i (map fst (nmarks (fst doc))) \/ exists e d, In e (b_parts b) /\ In d (aside done) /\ snd (fst e) = hd_error (map fst (dmarks d)) /\ In i (map fst (dmarks d));
    j_doc : lies b 0 (document_cells doc);
    j_parts : forall e, In e (b_parts b) -> exists d, In (fst (fst e), d) (flat_map parts_of done) /\ snd (fst e) = hd_error (map fst (dmarks d)) /\ lies b (snd e) (dnode_cells None (snd e) d);
    j_own : own_tags b }.
  Lemma first_is base d : first_number (dnode_cells None base d) = hd_error (map fst (dmarks d)).
  Proof. rewrite first_number_hd, dnode_numbers. reflexivity. Qed.
  Lemma hd_in {A} (l : list A) a : hd_error l = Some a -> In a l.
  Proof. destruct l; cbn; [discriminate |]. intros E. left. congruence. Qed.
  Lemma in_hd {A} (l : list A) a : In a l -> exists x, hd_error l = Some x.
  Proof. destruct l; [intros [] |]. cbn. eauto. Qed.
  Lemma joined_join b p : joined b -> In p (flat_map parts_of done) -> joined (join_part b p).
  Proof.
    intros [T N Fr D P O] Hp. pose proof (tree_add_part b p T) as T'. destruct p as [q d]. pose proof (parts_aside _ _ _ Hp) as Ad. unfold join_part in *. cbn [fst snd] in *. rewrite first_is in *.
    destruct (find (same_part (hd_error (map fst (dmarks d)))) (b_parts b)) as [[[q0 j0] l] |] eqn:Ef.
    - constructor; cbn [b_heap b_nums b_parts]; [exact T' | exact N | | exact D | | exact O].
      + intros i Hi. destruct (Fr i Hi) as [F | (e & d' & He & F)]; [left; exact F | right; exists e, d'; split; [apply in_or_app; left; exact He | exact F]].
      + intros e He. apply in_app_or in He as [He | [<- | []]]; [exact (P e He) |]. cbn [fst snd]. exists d. split; [exact Hp |]. split; [reflexivity |].
        destruct (P _ (find_snd _ _ _ Ef)) as (d0 & H1 & H2 & H3). cbn [fst snd] in *. replace d with d0; [exact H3 |].
        apply find_some in Ef as [_ Es]. unfold same_part in Es. cbn [fst snd] in Es. destruct (hd_error (map fst (dmarks d))) as [i |] eqn:Ei; [| discriminate]. destruct j0 as [j |]; [| discriminate].
        apply Nat.eqb_eq in Es. subst j. apply one; [exact (parts_aside _ _ _ H1) | exact Ad |]. exists i. split; [apply hd_in; congruence | apply hd_in; exact Ei].
    - pose proof T as (_ & L & _). set (cs := dnode_cells None (length (b_heap b)) d) in *. pose proof (lies_new b cs L) as Ln.
      assert (E : tagnums (b_nums (add_cells b cs)) = tagnums (b_nums b) ++ map fst (dmarks d)).
      { cbn [add_cells b_nums]. rewrite tagnums_app, tagnums_cells. unfold cs. rewrite dnode_numbers. reflexivity. }
      assert (New : forall i, In i (tagnums (b_nums b)) -> ~ In i (map fst (dmarks d))).
      { intros i Hi Hd. destruct (Fr i Hi) as [F | (e & d' & He & Ad' & Eh & F)]; [exact (apart d i Ad Hd F) |].
        assert (d' = d) as -> by (apply one; [exact Ad' | exact Ad | exists i; split; assumption]). destruct (in_hd _ _ Hd) as [x Ex]. rewrite Ex in *.
        pose proof (find_none _ _ Ef e He) as Hf. unfold same_part in Hf. rewrite Eh, Nat.eqb_refl in Hf. discriminate. }
      constructor; cbn [b_heap b_nums b_parts]; [exact T' | | | | |].
      + rewrite E. clear -N New single Ad. specialize (single d Ad). induction (tagnums (b_nums b)) as [| x l IH]; [exact single |]. cbn [app]. inversion N; subst. constructor.
        * intro Hx. apply in_app_or in Hx as [Hx | Hx]; [contradiction | exact (New x (or_introl eq_refl) Hx)].
        * apply IH; [assumption | intros i Hi; apply New; right; exact Hi].
      + intros i Hi. rewrite E in Hi. apply in_app_or in Hi as [Hi | Hi].
        * destruct (Fr i Hi) as [F | (e & d' & He & F)]; [left; exact F | right; exists e, d'; split; [apply in_or_app; left; exact He | exact F]].
        * right. eexists. exists d. split; [apply in_or_app; right; left; reflexivity |]. cbn [fst snd]. auto.
      + exact (lies_add b cs _ _ D).
      + intros e He. cbn [add_cells b_parts] in He. apply in_app_or in He as [He | [<- | []]].
        * destruct (P e He) as (d' & H1 & H2 & H3). exists d'. split; [exact H1 |]. split; [exact H2 | exact (lies_add b cs _ _ H3)].
        * cbn [fst snd]. exists d. split; [exact Hp |]. split; [reflexivity | exact Ln].
      + apply own_add; [exact T | exact O |]. intros H. apply (owned_incl (dmarks d)); [exact (aside_in d Ad) |]. apply dnode_owned. exact (lies_anywhere _ _ _ H).
  Qed.
  Lemma joined_joins l : forall b, joined b -> incl l (flat_map parts_of done) -> joined (fold_left join_part l b).
  Proof.
    induction l as [| p l IH]; intros b J Hl; cbn [fold_left]; [exact J |]. apply IH; [exact (joined_join b p J (Hl _ (or_introl eq_refl))) | exact (fun q H => Hl q (or_intror H))].
  Qed.
  Lemma preorder_toc t : Build.toc_headers t = SpecManagers.preorder t.
  Proof. reflexivity. Qed.
  Lemma headers_right h : In h (flat_map Build.headers_in done) -> incl (hmarks h) G.
  Proof.
    intro Hh. apply in_flat_map in Hh as (a & Ha & Hh). rewrite Forall_forall in done_right. destruct (done_right a Ha) as [_ R]. destruct a as [| | | id nested plain | id t c |]; cbn [Build.headers_in] in Hh; try contradiction.
    - destruct R as (_ & R & I). rewrite Forall_forall in R. apply R. apply in_app_or in Hh as [Hh | Hh]; [| exact Hh]. apply I. apply in_flat_map in Hh as (t & Ht & Hh). rewrite preorder_toc in Hh. apply in_flat_map. eauto.
    - destruct Hh as [<- | []]. destruct R as (? & ? & ? & _ & _ & R). exact R.
  Qed.
  Definition grown (b1 b : build) : Prop :=
    BuildFacts.tree b /\ own_tags b /\ b_parts b = b_parts b1 /\ (exists ext, b_nums b = b_nums b1 ++ ext) /\ forall base cs, lies b1 base cs -> lies b base cs.
  Lemma grown_headers b1 l : forall b, incl l (flat_map Build.headers_in done) -> grown b1 b -> grown b1 (fold_left add_header l b).
  Proof.
    induction l as [| h l IH]; intros b Hl Hg; cbn [fold_left]; [exact Hg |]. apply IH; [exact (fun x H => Hl x (or_intror H)) |]. pose proof Hg as (T & O & P & (ext & E) & Ls).
    pose proof (tree_add_header b h T) as T'. unfold add_header in *. destruct (locate KHeader (h_id h) (b_nums b)); [exact Hg |]. split; [exact T' |]. split; [| split; [exact P |]].
    - apply own_add; [exact T | exact O |]. intro H. apply (owned_incl (hmarks h)); [exact (headers_right h (Hl _ (or_introl eq_refl))) |]. apply header_owned. exact (lies_anywhere _ _ _ H).
    - split; [| intros base cs H; exact (lies_add b _ _ _ (Ls base cs H))]. eexists. cbn [add_cells b_nums]. rewrite E, <- app_assoc. reflexivity.
  Qed.
  Lemma joined_parts l : forall b p, In p l \/ (exists e, In e (b_parts b) /\ fst (fst e) = fst p) -> exists e, In e (b_parts (fold_left join_part l b)) /\ fst (fst e) = fst p.
  Proof.
    induction l as [| q l IH]; intros b p H; cbn [fold_left]; [destruct H as [[] | H]; exact H |]. apply IH. destruct H as [[-> | H] | (e & He & Ee)]; [right | left; exact H | right]; unfold join_part.
    - destruct (find _ (b_parts b)) as [[[q0 j0] l0] |]; eexists; cbn [b_parts add_cells]; (split; [apply in_or_app; right; left; reflexivity | reflexivity]).
    - destruct (find _ (b_parts b)) as [[[q0 j0] l0] |]; exists e; cbn [b_parts add_cells]; (split; [apply in_or_app; left; exact He | exact Ee]).
  Qed.
  Lemma joined_first : joined (mkBuild (map fst (document_cells doc)) (map tag_of (document_cells doc)) [] [] []).
  Proof.
    set (b0 := mkBuild [] [] [] [] []).
    assert (Ln : lies (add_cells b0 (document_cells doc)) 0 (document_cells doc)) by exact (lies_new b0 (document_cells doc) eq_refl).
    constructor; cbn [b_heap b_nums b_parts].
    - destruct (document_segment doc) as (Sg & Hne). assert (H0 : wf_heap ([] : heap)) by (apply wf_nth; intros [|] o E; discriminate E).
      split; [| split; [cbn; rewrite !map_length; reflexivity | split; reflexivity]]. split; [exact (wf_segment _ [] _ H0 Sg (fun c (H : False) => match H with end)) |].
      split; [cbn; rewrite map_length; destruct (document_cells doc); [contradiction | cbn; lia] |]. split; [exact (tags_app [] [] (document_cells doc) eq_refl (conj (le_n _) (fun i k j E => match i return nth_error [] i = Some (Some (k, j)) -> _ with 0 | _ => fun E => ltac:(discriminate E) end E))) |].
      repeat split; constructor.
    - rewrite tagnums_cells, document_numbers. exact tree_once.
    - intros i Hi. left. rewrite tagnums_cells, document_numbers in Hi. exact Hi.
    - exact Ln.
    - intros e [].
    - intros l k i E. cbn [b_nums] in E. rewrite nth_error_map in E. change (obj * option nat)%type with cell in E.
      destruct (@nth_error cell (document_cells doc) l) as [c |] eqn:Ec; cbn [option_map] in E; [| congruence]. assert (Et : tag_of c = Some (k, i)) by congruence. clear E.
      unfold tag_of in Et. destruct (snd c) as [n |] eqn:En; cbn [option_map] in Et; [| discriminate]. assert (n = i) as -> by congruence. assert (Ek : o_kind (fst c) = k) by congruence.
      destruct (document_owned _ doc (lies_anywhere _ _ _ Ln) l c i Ec En) as (w & A & B & C). exists w. split; [exact (doc_in _ A) |]. split; [congruence | exact C].
  Qed.
  Definition there (k : kind) (i l : nat) : Prop := locate k i (b_nums (build_tree doc done)) = Some l.
  Lemma tree_objects : let b := build_tree doc done in
    BuildFacts.tree b /\ own_tags b /\ is_tree there (b_heap b) (document_tree doc) 0 /\
    (forall e, In e (b_parts b) -> exists d, In (fst (fst e), d) (flat_map parts_of done) /\ is_tree there (b_heap b) (node_tree d) (snd e)) /\
    (forall p, In p (flat_map parts_of done) -> exists e, In e (b_parts b) /\ fst (fst e) = fst p) /\
    (forall h, In h (flat_map Build.headers_in done) -> exists l, there KHeader (h_id h) l /\ is_tree anywhere (b_heap b) (header_tree h) l).
  Proof.
    intro b. pose proof (joined_joins (flat_map parts_of done) _ joined_first (incl_refl _)) as J. set (b1 := fold_left join_part (flat_map parts_of done) _) in J.
    assert (Hg : grown b1 b).
    { unfold b, build_tree. fold b1. apply grown_headers; [apply incl_refl |]. split; [exact (j_tree _ J) |]. split; [exact (j_own _ J) |]. split; [reflexivity |]. split; [exists []; rewrite app_nil_r; reflexivity | auto]. }
    destruct Hg as (T & O & P & (ext & E) & Ls).
    assert (Pl : forall base cs, lies b1 base cs -> placed there (b_heap b) base cs).
    { intros base cs H j c Ec. split; [exact (proj1 (Ls _ _ H j c Ec)) |]. intros i Ei. unfold there. fold b. rewrite E. apply locate_nodup; [exact (j_once _ J) |].
      rewrite (proj2 (H j c Ec)). unfold tag_of. rewrite Ei. reflexivity. }
    split; [exact T |]. split; [exact O |]. split; [apply document_placed, Pl; exact (j_doc _ J) |]. split; [| split].
    - intros e He. rewrite P in He. destruct (j_parts _ J e He) as (d & H1 & _ & H3). exists d. split; [exact H1 |]. exact (dnode_placed _ _ _ _ _ (Pl _ _ H3)).
    - intros p Hp. rewrite P. apply joined_parts. left. exact Hp.
    - intros h Hh. destruct (build_tree_headers doc done h Hh) as [l El]. exists l. split; [exact El |]. destruct (O l KHeader (h_id h) (locate_nth _ _ _ _ El)) as (w & Hw & Kw & Sw).
      destruct w as [| | h' | | |]; try discriminate Kw. cbn [says] in Sw. pose proof (headers_right h Hh _ (or_introl eq_refl)) as Hb.
      assert (Ew : LHeader h' = LHeader (bare h)).
      { clear -G_once Hw Hb. induction G as [| [j w] g IH]; [destruct Hw |]. cbn [map fst] in G_once. inversion G_once as [| ? ? N D]; subst. destruct Hw as [Hw | Hw], Hb as [Hb | Hb].
        - congruence.
        - exfalso. apply N. assert (j = h_id h) as -> by congruence. exact (in_map fst _ _ Hb).
        - exfalso. apply N. assert (j = h_id h) as -> by congruence. exact (in_map fst _ _ Hw).
        - exact (IH D Hw Hb). }
      assert (h' = bare h) as -> by congruence. exact Sw.
  Qed.

  (* --------------------------------------------------------- what is given later *)
  Context (keys_ok : keyed done).
  Let B := build_tree doc done.
  Definition target (a : assign) : kind * nat :=
    match a with
    | AFootnote i _ => (KMacroFootnote, i) | AFootnotes i _ => (KFootnotes, i) | AInternal i _ => (KHeader, i) | AToc i _ _ => (KToc, i) | AHeader i _ _ => (KMacroHeader, i) | AGroup i _ _ => (KBlockGroup, i)
    end.
  Lemma last_snoc {A} (sel : assign -> option A) pre a : last_one sel (pre ++ [a]) = match sel a with Some x => Some x | None => last_one sel pre end.
  Proof. unfold last_one. rewrite fold_left_app. reflexivity. Qed.
  Lemma other_same {A} i j (x : A) : i <> j -> if_same i j x = None.
  Proof. intro H. unfold if_same. destruct (Nat.eqb_spec i j); [contradiction | reflexivity]. Qed.
  Lemma completed_more pre a h k i l : target a <> (k, i) -> completed pre there h k i l -> completed (pre ++ [a]) there h k i l.
  Proof.
    intros Ht. assert (Hs : forall j, target a = (k, j) -> i <> j) by (intros j E Ej; apply Ht; rewrite E, Ej; reflexivity).
    destruct k; cbn [completed]; auto; rewrite last_snoc; (destruct a as [j f | j fs | j s | j ne pl | j hd c | j m it]; cbn [note_to notes_to id_to toc_to link_to group_to]; [| | | | |];
      try (rewrite (other_same _ _ _ (Hs j eq_refl))); intro H; try exact H);
      intros hd' E'; destruct (H hd' E') as (p & H1 & H2 & H3 & hd1 & c1 & ls & H4 & H5); exists p; repeat (split; [assumption |]); exists hd1, c1, ls; (split; [apply in_or_app; left; exact H4 | exact H5]).
  Qed.
  Lemma has_keeps S h h' l n f : keeps_but S h h' -> ~ S l n -> has h l n f -> has h' l n f.
  Proof. intros K Hs (o & E & F). destruct (K l o E) as (o' & E' & _ & _ & _ & H). exists o'. split; [exact E' | exact (H _ _ F Hs)]. Qed.
  Lemma is_a_changes h h' l k : changes h h' -> is_a h l k -> is_a h' l k.
  Proof. intros C (o & E & K & A & X). destruct (C l o E) as (o' & E' & K' & A' & X' & _). exists o'. split; [exact E' |]. repeat split; congruence. Qed.
  Lemma has_changes h h' l k n f : changes h h' -> is_a h l k -> (forall e, stable k n e = true) -> has h l n f -> has h' l n f.
  Proof. intros C (o & E & K & _) St (o1 & E1 & F). assert (o1 = o) as -> by congruence. destruct (C l o E) as (o' & E' & _ & _ & _ & H). exists o'. split; [exact E' |]. apply H; [exact F | rewrite K; apply St]. Qed.
  Lemma entry_changes h h' t : changes h h' -> forall l, is_entry there h t l -> is_entry there h' t l.
  Proof.
    intro C. induction t as [hd es IH] using toc_all. intros l H. inversion H as [? ? ? p ls A H1 H2 H3 H4 F]; subst. econstructor; [exact (is_a_changes _ _ _ _ C A) | exact (has_changes _ _ _ _ _ _ C A (fun e => eq_refl) H1) | exact H2
      | exact (tree_changes _ _ _ _ _ C (header_tame _) H3) | exact (has_changes _ _ _ _ _ _ C A (fun e => eq_refl) H4) |].
    clear -F IH. induction F as [| t l es ls H F IHF]; constructor; [exact (Forall_inv IH l H) | exact (IHF (Forall_inv_tail IH))].
  Qed.
  Definition item_at (h : heap) (name pos : str) (blk : dnode) (l : nat) : Prop :=
    is_a h l KBlockGroupItem /\ has h l "position" (Plain (VStr pos)) /\ has h l "group" (Plain (VStr name)) /\ exists p, has h l "block" (One (Some p)) /\ is_tree there h (node_tree blk) p.
  Lemma item_changes h h' name pos blk l : changes h h' -> item_at h name pos blk l -> item_at h' name pos blk l.
  Proof.
    intros C (A & H1 & H2 & p & H3 & H4). split; [exact (is_a_changes _ _ _ _ C A) |]. split; [exact (has_changes _ _ _ _ _ _ C A (fun e => eq_refl) H1) |]. split; [exact (has_changes _ _ _ _ _ _ C A (fun e => eq_refl) H2) |].
    exists p. split; [exact (has_changes _ _ _ _ _ _ C A (fun e => eq_refl) H3) | exact (tree_changes _ _ _ _ _ C (node_tame _) H4)].
  Qed.
  Lemma texts_changes h h' c ls : changes h h' -> Forall2 (fun n p => is_tree anywhere h (inode_tree n) p) c ls -> Forall2 (fun n p => is_tree anywhere h' (inode_tree n) p) c ls.
  Proof. intros C. apply Forall2_imp. intros n p. apply tree_changes; [exact C | apply inode_tame]. Qed.
  Lemma completed_keeps S pre h h' k i l : keeps_but S h h' -> changes h h' -> (forall n, ~ S l n) -> completed pre there h k i l -> completed pre there h' k i l.
  Proof.
    intros K C Hs. assert (Hh : forall n f, has h l n f -> has h' l n f) by (intros n f; apply (has_keeps S); [exact K | apply Hs]).
    destruct k; cbn [completed]; auto; intros H.
    - intros hd E. destruct (H hd E) as (p & H1 & H2 & H3 & hd' & c & ls & H4 & H5 & H6). exists p. split; [exact (Hh _ _ H1) |]. split; [exact H2 |]. split; [exact (tree_changes _ _ _ _ _ C (header_tame _) H3) |].
      exists hd', c, ls. split; [exact H4 |]. split; [exact (Hh _ _ H5) | exact (texts_changes _ _ _ _ C H6)].
    - intros f E. destruct (H f E) as (p & H1 & H2). exists p. split; [exact (Hh _ _ H1) | exact (tree_changes _ _ _ _ _ C (footnote_tame _) H2)].
    - intros fs E. destruct (H fs E) as (ls & H1 & H2). exists ls. split; [exact (Hh _ _ H1) |]. refine (Forall2_imp _ _ _ _ _ H2). intros f q (A & p & H3 & H4). split; [exact (is_a_changes _ _ _ _ C A) |].
      exists p. split; [exact (has_changes _ _ _ _ _ _ C A (fun e => eq_refl) H3) | exact (tree_changes _ _ _ _ _ C (footnote_tame _) H4)].
    - intros ne pl E. destruct (H ne pl E) as (ls & ps & H1 & H2 & H3 & H4). exists ls, ps. split; [exact (Hh _ _ H1) |]. split; [refine (Forall2_imp _ _ _ _ _ H2); intros t q; apply entry_changes; exact C |].
      split; [exact (Hh _ _ H3) |]. refine (Forall2_imp _ _ _ _ _ H4). intros hd p. apply tree_changes; [exact C | apply header_tame].
    - intros items E. destruct (H items E) as (ls & H1 & H2). exists ls. split; [exact (Hh _ _ H1) |]. refine (Forall2_imp _ _ _ _ _ H2). intros blk q (E1 & A & H3 & (g & H4 & H5 & H6) & p & H7 & H8).
      split; [exact E1 |]. split; [exact (is_a_changes _ _ _ _ C A) |]. split; [exact (has_changes _ _ _ _ _ _ C A (fun e => eq_refl) H3) |].
      split; [exists g; split; [exact H4 |]; split; [exact (has_changes _ _ _ _ _ _ C A (fun e => eq_refl) H5) | exact (Hh _ _ H6)] |].
      exists p. split; [exact (has_changes _ _ _ _ _ _ C A (fun e => eq_refl) H7) | exact (tree_changes _ _ _ _ _ C (node_tame _) H8)].
  Qed.

  Definition link_ok (pre : list assign) (h : heap) (i l : nat) : Prop := exists ls content, has h l "content" (Nodes ls) /\ Forall2 (fun n p => is_tree anywhere h (inode_tree n) p) content ls /\
    ((exists t c, In (i, LLink t content c) G) \/ exists hd, In (AHeader i hd content) pre).
  Lemma link_keeps S pre h h' i l : keeps_but S h h' -> changes h h' -> (forall n, ~ S l n) -> link_ok pre h i l -> link_ok pre h' i l.
  Proof. intros K C Hs (ls & c & H1 & H2 & H3). exists ls, c. split; [exact (has_keeps _ _ _ _ _ _ K (Hs _) H1) |]. split; [exact (texts_changes _ _ _ _ C H2) | exact H3]. Qed.
  (* the objects, when the assignments of pre have been made (but for the object X) *)
  Record state (X : option nat) (pre : list assign) (b : build) : Prop := mkState {
    d_wf : wf b;
    d_nums : b_nums b = b_nums B;
    d_parts : b_parts b = b_parts B;
    d_changes : changes (b_heap B) (b_heap b);
    d_foots : forall e, In e (b_foots b) -> exists f, In f (flat_map notes_of done) /\ fst (fn_content f) = fst (fst e) /\ fn_name f = snd (fst e) /\ is_tree anywhere (b_heap b) (footnote_tree f) (snd e);
    d_items : forall m name pos l, In (m, name, pos, l) (b_items b) -> exists id items blk, In (AGroup id m items) done /\ In (pos, blk) items /\ in_group name pos blk /\ item_at (b_heap b) name pos blk l;
    d_comp : forall k i l, there k i l -> X <> Some l -> completed pre there (b_heap b) k i l;
    d_links : forall i l, there KMacroHeader i l -> X <> Some l -> link_ok pre (b_heap b) i l }.
  Lemma state_set S X pre b h : state X pre b -> wf_heap h -> keeps (b_heap b) h -> keeps_but S (b_heap b) h -> loose S (b_heap b) -> (forall l n, S l n -> X = Some l) -> state X pre (set_heap b h).
  Proof.
    intros [W N P C F I Cm L] Wh K Kb Ls HX. pose proof (loose_changes _ _ _ Ls Kb) as Ch.
    constructor; cbn [set_heap b_heap b_nums b_parts b_foots b_items]; [exact (wf_set _ _ W Wh K) | exact N | exact P | exact (changes_trans _ _ _ C Ch) | | | |].
    - intros e He. destruct (F e He) as (f & H1 & H2 & H3 & H4). exists f. repeat (split; [assumption |]). exact (tree_changes _ _ _ _ _ Ch (footnote_tame _) H4).
    - intros m name pos l He. destruct (I _ _ _ _ He) as (id & items & blk & H1 & H2 & H3 & H4). exists id, items, blk. repeat (split; [assumption |]). exact (item_changes _ _ _ _ _ _ Ch H4).
    - intros k i l Hl HXl. apply (completed_keeps S _ _ _ _ _ _ Kb Ch); [intros n Hn; exact (HXl (HX _ _ Hn)) | exact (Cm _ _ _ Hl HXl)].
    - intros i l Hl HXl. apply (link_keeps S _ _ _ _ _ Kb Ch); [intros n Hn; exact (HXl (HX _ _ Hn)) | exact (L _ _ Hl HXl)].
  Qed.
  Lemma state_extends X pre b h : state X pre b -> wf_heap h -> extends (b_heap b) h -> state X pre (set_heap b h).
  Proof. intros St Wh Xh. apply (state_set nothing); [exact St | exact Wh | exact (keeps_extends _ _ Xh) | exact (keeps_extends_but _ _ Xh) | apply loose_nothing | intros l n []]. Qed.
  Lemma state_less X pre b : state None pre b -> state X pre b.
  Proof. intros [W N P C F I Cm L]. constructor; try assumption; intros; [apply Cm | apply L]; try assumption; discriminate. Qed.
  Lemma there_same k i k' i' l : there k i l -> there k' i' l -> k = k' /\ i = i'.
  Proof. unfold there. intros A B0. apply locate_nth in A, B0. rewrite A in B0. split; congruence. Qed.
  Lemma state_done X pre a b : state X pre b -> (forall l, X = Some l -> there (fst (target a)) (snd (target a)) l) -> (X = None -> forall l, ~ there (fst (target a)) (snd (target a)) l) ->
    (forall l, X = Some l -> completed (pre ++ [a]) there (b_heap b) (fst (target a)) (snd (target a)) l /\ (fst (target a) = KMacroHeader -> link_ok (pre ++ [a]) (b_heap b) (snd (target a)) l)) ->
    state None (pre ++ [a]) b.
  Proof.
    intros [W N P C F I Cm L] HX HN Hc. constructor; try assumption.
    - intros k i l Hl _. assert (D : X = Some l \/ X <> Some l) by (destruct X as [x |]; [destruct (Nat.eq_dec x l); [left; congruence | right; congruence] | right; discriminate]). destruct D as [D | D].
      + destruct (there_same _ _ _ _ _ Hl (HX l D)) as [-> ->]. exact (proj1 (Hc l D)).
      + apply completed_more; [| exact (Cm _ _ _ Hl D)]. intro E. assert (Ht : there (fst (target a)) (snd (target a)) l) by (rewrite E; exact Hl). destruct X as [x |].
        * apply D. f_equal. specialize (HX x eq_refl). unfold there in *. congruence.
        * exact (HN eq_refl _ Ht).
    - intros i l Hl _. assert (D : X = Some l \/ X <> Some l) by (destruct X as [x |]; [destruct (Nat.eq_dec x l); [left; congruence | right; congruence] | right; discriminate]). destruct D as [D | D].
      + destruct (there_same _ _ _ _ _ Hl (HX l D)) as [E1 ->]. exact (proj2 (Hc l D) (eq_sym E1)).
      + destruct (L _ _ Hl D) as (ls & c & H1 & H2 & H3). exists ls, c. split; [exact H1 |]. split; [exact H2 |]. destruct H3 as [H3 | [hd H3]]; [left; exact H3 | right; exists hd; apply in_or_app; left; exact H3].
  Qed.
  (* an attribute that is assigned *)
  Lemma state_put pre b k i m name s v : state (Some m) pre b -> there k i m -> In (name, s) (attributes k) -> of_shape s v ->
    (forall c, In c (refs v) -> c < length (b_heap b)) -> (forall f, has (b_heap b) m name f -> stable k name (is_empty f) = false) ->
    state (Some m) pre (set_heap b (put (b_heap b) m name v)) /\ has (put (b_heap b) m name v) m name v.
  Proof.
    intros St Hm Hs Hv Hr Hl. pose proof (d_wf _ _ _ St) as W. assert (Em : locate k i (b_nums b) = Some m) by (rewrite (d_nums _ _ _ St); exact Hm). destruct (BuildFacts.located _ _ _ _ W Em) as (o & Eo & Ko). split.
    - apply (state_set (this m name)); [exact St | | apply keeps_put | apply keeps_put_but | | intros l n [-> _]; reflexivity].
      + apply (wf_put _ _ o _ s _ (proj1 W) Eo); [rewrite Ko; exact Hs | exact Hv | exact Hr].
      + intros l n o' f [-> ->] E Ef. assert (o' = o) as -> by congruence. rewrite Ko. apply Hl. exists o. auto.
    - exists (new_obj o name v). split; [rewrite (put_nth _ _ _ _ _ _ Eo); destruct (Nat.eq_dec m m); [reflexivity | congruence] |]. cbn [new_obj o_fields].
      rewrite <- Ko in Hs. destruct (proper_has _ _ _ (wf_proper _ _ _ (proj1 W) Eo) Hs) as [f Ef]. rewrite (fget_set _ _ _ _ _ Ef), String.eqb_refl. reflexivity.
  Qed.
  Lemma has_put_other h m n v l n' f : n' <> n -> has h l n' f -> has (put h m n v) l n' f.
  Proof. intros D. apply (has_keeps (this m n)); [apply keeps_put_but |]. intros [_ E]. exact (D E). Qed.
  Lemma changes_put_state pre b k i m name v : state (Some m) pre b -> there k i m -> (forall f, has (b_heap b) m name f -> stable k name (is_empty f) = false) -> changes (b_heap b) (put (b_heap b) m name v).
  Proof.
    intros St Hm Hl. pose proof (d_wf _ _ _ St) as W. assert (Em : locate k i (b_nums b) = Some m) by (rewrite (d_nums _ _ _ St); exact Hm). destruct (BuildFacts.located _ _ _ _ W Em) as (o & Eo & Ko).
    refine (loose_changes (this m name) _ _ _ (keeps_put_but _ _ _ _)). intros l n o' f [-> ->] E Ef. assert (o' = o) as -> by congruence. rewrite Ko. apply Hl. exists o. auto.
  Qed.
  (* the header of an assignment *)
  Lemma header_there X pre b hd : state X pre b -> In hd (flat_map Build.headers_in done) -> there KHeader (h_id hd) (header_loc b hd) /\ is_tree anywhere (b_heap b) (header_tree hd) (header_loc b hd).
  Proof.
    intros St Hh. destruct tree_objects as (_ & _ & _ & _ & _ & H). destruct (H hd Hh) as (l & Hl & Ht). unfold header_loc. rewrite (d_nums _ _ _ St). unfold there in Hl. fold B in Hl. rewrite Hl. split; [exact Hl |].
    exact (tree_changes _ _ _ _ _ (d_changes _ _ _ St) (header_tame _) Ht).
  Qed.

  (* --------------------------------------------------------- the footnotes *)
  Lemma contents_nodes at_ h d l : wf_heap h -> is_tree at_ h (node_tree d) l -> Forall2 (is_tree at_ h) (contents (node_tree d)) (nodes_in h l "content").
  Proof.
    intros W T.
    assert (D : match node_tree d with Tree k _ _ _ fs => match find (fun nf : string * attr => String.eqb "content" (fst nf)) fs with Some (_, TNodes _) => True | _ => forall s, ~ In ("content"%string, s) (attributes k) end end).
    { destruct d; cbn; try exact Logic.I; intros s H; repeat match type of H with _ \/ _ => destruct H as [H | H]; [inversion H; fail |] end; try contradiction; congruence. }
    destruct (node_tree d) as [k a c num fs]. inversion T as [? ? ? ? ? ? o E K A C Hn F]; subst. unfold nodes_in. rewrite E. cbn [contents]. destruct (find _ fs) as [[n at1] |] eqn:Ef.
    - apply find_some in Ef as [Hin En]. cbn [fst] in En. apply String.eqb_eq in En. subst n. rewrite Forall_forall in F. destruct (F _ Hin) as (f & Ef & Af). cbn [fst snd] in *. rewrite Ef.
      destruct at1 as [v | ts | ts | t]; [| inversion Af; subst; assumption | |]; exfalso; destruct (proper_get _ _ _ (wf_proper _ _ _ W E) Ef) as (s & Hs & _); exact (D s Hs).
    - destruct (fget "content" (o_fields o)) as [f |] eqn:Eg; [| constructor]. exfalso. destruct (proper_get _ _ _ (wf_proper _ _ _ W E) Eg) as (s & Hs & _). exact (D s Hs).
  Qed.
  Lemma body_found f d : In f (flat_map notes_of done) -> In (PBody (fst (fn_content f)) (fn_name f), d) (flat_map parts_of done) -> d = snd (fn_content f).
  Proof.
    intros Hf Hd. apply in_flat_map in Hd as (a & Ha & Hd). destruct keys_ok as (_ & K & _).
    assert (Hg : exists g, In g (notes_of a) /\ body_part g = (PBody (fst (fn_content f)) (fn_name f), d)).
    { destruct a as [id g | id gs | | | | id made items]; cbn [parts_of notes_of] in *; try contradiction.
      - destruct Hd as [Hd | []]. exists g. split; [left; reflexivity | exact Hd].
      - apply in_map_iff in Hd as (g & Eg & Hg). exists g. split; assumption.
      - apply in_map_iff in Hd as (g & Eg & Hg). discriminate Eg. }
    destruct Hg as (g & Hg & Eg). unfold body_part in Eg. assert (E : g = f). { apply K; [apply in_flat_map; eauto | exact Hf | congruence | congruence]. } subst g. congruence.
  Qed.
  Lemma foot_state X pre n b f b' : state X pre b -> In f (flat_map notes_of done) -> make_footnote n b f = Ok b' -> state X pre b'.
  Proof.
    intros St Hf E. pose proof (d_wf _ _ _ St) as W. destruct (make_footnote_wf n b f b' W E) as (W' & _ & En & Ep). unfold make_footnote in E.
    destruct (find (same_foot f) (b_foots b)) as [e |]; [assert (b' = b) as -> by congruence; exact St |].
    destruct (find (same_body f) (b_parts b)) as [[[q i] body] |] eqn:Eb; [| assert (b' = b) as -> by congruence; exact St]. fold (footnote_obj f []) in E.
    set (a := length (b_heap b)) in *. set (h0 := b_heap b ++ [footnote_obj f []]) in *.
    destruct (copy_list (deepcopy n) a (nodes_in (b_heap b) body "content") h0) as [[h ls] |] eqn:Ec; cbn [rbind] in E; [| discriminate].
    assert (X0 : extends (b_heap b) h0) by apply extends_app. pose proof (closed_own _ (proj1 (proj1 W))) as Ow. fold a in Ow. pose proof (own_extends a _ _ Ow X0) as Ow0.
    assert (Hp : forall i o, i < a -> nth_error h0 i = Some o -> proper o) by (intros j o Hj Eo; rewrite (proj2 X0 j Hj) in Eo; exact (wf_proper _ _ _ (proj1 W) Eo)).
    (* the body *)
    pose proof (find_snd _ _ _ Eb) as Hin. apply find_some in Eb as [_ Es]. unfold same_body in Es. cbn [fst] in Es. apply part_eqb_eq in Es. rewrite (d_parts _ _ _ St) in Hin.
    destruct tree_objects as (_ & _ & _ & Hparts & _). destruct (Hparts _ Hin) as (d & Hd & Td). cbn [fst snd] in Hd, Td. rewrite <- Es in Hd. cbn [body_part fst] in Hd. pose proof (body_found f d Hf Hd) as ->.
    pose proof (tree_changes _ _ _ _ _ (d_changes _ _ _ St) (node_tame _) (tree_anywhere _ _ _ _ (node_tame _) Td)) as Tb.
    pose proof (contents_nodes anywhere (b_heap b) _ body (proj1 W) Tb) as Fb.
    assert (F0 : Forall2 (is_tree anywhere h0) (contents (node_tree (snd (fn_content f)))) (nodes_in (b_heap b) body "content")).
    { pose proof (contents_tame _ (node_tame (snd (fn_content f)))) as T. clear -Fb X0 T. induction Fb; constructor; cbn [forallb] in T; apply andb_prop in T as [T1 T2]; [exact (tree_changes _ _ _ _ _ (extends_changes _ _ X0) T1 H) | exact (IHFb T2)]. }
    destruct (trees_copy a n h0 a _ h ls _ Ow0 Hp (nodes_in_lt _ _ _ (proj1 W)) Ec (contents_tame _ (node_tame _)) F0) as [Xh Fc].
    assert (Lh : length h0 = S a) by (unfold h0; rewrite app_length; cbn; fold a; lia). assert (Ha : a < length h) by (destruct Xh; lia).
    assert (Xu : extends (b_heap b) (update a (footnote_obj f ls) h)) by (apply extends_update; [exact (extends_trans _ _ _ X0 Xh) | fold a; lia]).
    specialize (Fc (update a (footnote_obj f ls) h)). 
    assert (Fn : Forall2 (is_tree anywhere (update a (footnote_obj f ls) h)) (contents (node_tree (snd (fn_content f)))) ls).
    { apply Fc. intros j o Hj Eo. rewrite nth_update_other; [exact Eo | lia]. }
    assert (Eb : b' = mkBuild (update a (footnote_obj f ls) h) (b_nums b) (b_parts b) (b_foots b ++ [(fst (fn_content f), fn_name f, a)]) (b_items b)) by (unfold footnote_obj; congruence). clear E.
    pose proof (state_extends X pre b (update a (footnote_obj f ls) h) St ltac:(rewrite Eb in W'; exact (proj1 W')) Xu) as [W1 N1 P1 C1 F1 I1 Cm1 L1]. rewrite Eb in *.
    constructor; cbn [b_heap b_nums b_parts b_foots b_items set_heap] in *; try assumption.
    intros e He. apply in_app_or in He as [He | [<- | []]]; [exact (F1 e He) |]. exists f. cbn [fst snd]. split; [exact Hf |]. split; [reflexivity |]. split; [reflexivity |].
    econstructor; [exact (nth_update_same _ _ _ Ha) | reflexivity | reflexivity | reflexivity | discriminate |]. cbn [footnote_obj o_fields].
    repeat (apply Forall_cons; [cbn [fst snd]; unfold text; apply has_value; reflexivity |]). apply Forall_cons; [| apply Forall_nil]. cbn [fst snd]. eapply has_nodes; [reflexivity | exact Fn].
  Qed.
  Lemma foots_state X pre n l : forall b b', state X pre b -> incl l (flat_map notes_of done) -> make_footnotes n b l = Ok b' -> state X pre b'.
  Proof.
    induction l as [| f l IH]; intros b b' St Hl E; cbn [make_footnotes] in E; [assert (b' = b) as -> by congruence; exact St |].
    destruct (make_footnote n b f) as [b1 |] eqn:E1; cbn [rbind] in E; [| discriminate]. exact (IH b1 b' (foot_state _ _ _ _ _ _ St (Hl _ (or_introl eq_refl)) E1) (fun x H => Hl x (or_intror H)) E).
  Qed.
  Lemma foot_found X pre b f l : state X pre b -> In f (flat_map notes_of done) -> foot_loc b f = Ok l -> is_tree anywhere (b_heap b) (footnote_tree f) l.
  Proof.
    intros St Hf E. unfold foot_loc in E. destruct (find (same_foot f) (b_foots b)) as [[[n name] k] |] eqn:Ef; [| discriminate]. assert (k = l) as -> by congruence.
    destruct (d_foots _ _ _ St _ (find_snd _ _ _ Ef)) as (g & Hg & H1 & H2 & H3). cbn [fst snd] in *. apply find_some in Ef as [_ Es]. unfold same_foot in Es. cbn [fst snd] in Es. apply andb_prop in Es as [E1 E2].
    apply Nat.eqb_eq in E1. destruct (str_eqb_spec (fn_name f) name) as [E3 |]; [| discriminate]. destruct keys_ok as (_ & K & _). replace f with g; [exact H3 |]. apply K; [exact Hg | exact Hf | congruence | congruence].
  Qed.
  Lemma made_notes f : incl (made_with done f) (flat_map notes_of done).
  Proof. intros g Hg. unfold made_with in Hg. apply filter_In in Hg as [Hg _]. exact Hg. Qed.

  (* --------------------------------------------------------- the assignments *)
  Lemma G_same i w w' : In (i, w) G -> In (i, w') G -> w = w'.
  Proof.
    clear -G_once. induction G as [| [j v] g IH]; [intros [] |]. cbn [map fst] in G_once. inversion G_once as [| ? ? N D]; subst. intros [Hw | Hw] [Hb | Hb].
    - congruence.
    - exfalso. apply N. assert (j = i) as -> by congruence. exact (in_map fst _ _ Hb).
    - exfalso. apply N. assert (j = i) as -> by congruence. exact (in_map fst _ _ Hw).
    - exact (IH D Hw Hb).
  Qed.
  Lemma at_there X pre b k i m : state X pre b -> locate k i (b_nums b) = Some m -> there k i m.
  Proof. intros St E. unfold there. fold B. rewrite <- (d_nums _ _ _ St). exact E. Qed.
  Lemma state_skip a pre b : state None pre b -> locate (fst (target a)) (snd (target a)) (b_nums b) = None -> state None (pre ++ [a]) b.
  Proof. intros St E. apply (state_done None); [exact St | discriminate | | discriminate]. intros _ l Hl. unfold there in Hl. fold B in Hl. rewrite <- (d_nums _ _ _ St), E in Hl. discriminate. Qed.
  Lemma state_made a pre b m : state (Some m) pre b -> there (fst (target a)) (snd (target a)) m -> completed (pre ++ [a]) there (b_heap b) (fst (target a)) (snd (target a)) m ->
    (fst (target a) = KMacroHeader -> link_ok (pre ++ [a]) (b_heap b) (snd (target a)) m) -> state None (pre ++ [a]) b.
  Proof.
    intros St Hm C L. apply (state_done (Some m)); [exact St | | discriminate |]; intros l E; assert (l = m) as -> by congruence; [exact Hm | split; assumption].
  Qed.
  Lemma same_is {A} i (x : A) : if_same i i x = Some x.
  Proof. unfold if_same. rewrite Nat.eqb_refl. reflexivity. Qed.
  Lemma step_note n pre b id f b' : state None pre b -> In (AFootnote id f) done -> do_assign n done b (AFootnote id f) = Ok b' -> state None (pre ++ [AFootnote id f]) b'.
  Proof.
    intros St Hin E. cbn [do_assign] in E. destruct (make_footnotes n b (made_with done f)) as [b1 |] eqn:E1; cbn [rbind] in E; [| discriminate].
    pose proof (foots_state _ _ _ _ _ _ St (made_notes f) E1) as S1. destruct (foot_loc b1 f) as [l |] eqn:El; cbn [rbind] in E; [| discriminate].
    assert (Hf : In f (flat_map notes_of done)) by (apply in_flat_map; eexists; split; [exact Hin | left; reflexivity]). pose proof (foot_found _ _ _ _ _ S1 Hf El) as Tl. pose proof (foot_loc_lt _ _ _ (d_wf _ _ _ S1) El) as Ll.
    destruct (locate KMacroFootnote id (b_nums b1)) as [m |] eqn:Em; apply Ok_inv in E; subst b'; [| apply state_skip; assumption]. pose proof (at_there _ _ _ _ _ _ S1 Em) as Hm.
    destruct (state_put pre b1 KMacroFootnote id m "footnote" SOpt (One (Some l)) (state_less _ _ _ S1) Hm) as [S2 H2]; [has_attribute | exact Logic.I | intros x [<- | []]; exact Ll | reflexivity |].
    pose proof (changes_put_state pre b1 KMacroFootnote id m "footnote" (One (Some l)) (state_less _ _ _ S1) Hm (fun f _ => eq_refl)) as Ch.
    apply (state_made _ _ _ m); [exact S2 | exact Hm | | discriminate]. cbn [target fst snd completed]. rewrite last_snoc. cbn [note_to]. rewrite same_is. intros g Eg. assert (g = f) as -> by congruence.
    exists l. split; [exact H2 | exact (tree_changes _ _ _ _ _ Ch (footnote_tame _) Tl)].
  Qed.
  Lemma placed_new h cs : placed anywhere (h ++ map fst cs) (length h) cs.
  Proof.
    intros j c E. split; [| intros; exact Logic.I]. rewrite nth_error_app2 by lia. replace (length h + j - length h) with j by lia. rewrite nth_error_map. change (obj * option nat)%type with cell. change (@nth_error (prod obj (option nat)) cs j) with (@nth_error cell cs j). rewrite E. reflexivity.
  Qed.
  Lemma Forall2_comp {T U V} (P : T -> U -> Prop) (Q : U -> V -> Prop) (R : T -> V -> Prop) l : (forall a b c, P a b -> Q b c -> R a c) -> forall m r, Forall2 P l m -> Forall2 Q m r -> Forall2 R l r.
  Proof. intro H. induction l as [| a l IH]; intros m r F1 F2; inversion F1; subst; inversion F2; subst; constructor; eauto. Qed.
  Lemma foots_found X pre b l : state X pre b -> incl l (flat_map notes_of done) -> forall ls, for_each (foot_loc b) l = Ok ls -> Forall2 (fun f p => is_tree anywhere (b_heap b) (footnote_tree f) p) l ls.
  Proof.
    intros St. induction l as [| f l IH]; intros Hl ls E; cbn [for_each] in E; [assert (ls = []) as -> by congruence; constructor |].
    destruct (foot_loc b f) as [k |] eqn:Ek; cbn [rbind] in E; [| discriminate]. destruct (for_each (foot_loc b) l) as [ks |]; cbn [rbind] in E; [| discriminate].
    assert (ls = k :: ks) as -> by congruence. constructor; [exact (foot_found _ _ _ _ _ St (Hl _ (or_introl eq_refl)) Ek) | exact (IH (fun x H => Hl x (or_intror H)) ks eq_refl)].
  Qed.
  Lemma step_notes n pre b id l b' : state None pre b -> In (AFootnotes id l) done -> do_assign n done b (AFootnotes id l) = Ok b' -> state None (pre ++ [AFootnotes id l]) b'.
  Proof.
    intros St Hin E. cbn [do_assign] in E. destruct (make_footnotes n b (flat_map (made_with done) l)) as [b1 |] eqn:E1; cbn [rbind] in E; [| discriminate].
    assert (S1 : state None pre b1). { refine (foots_state _ _ _ _ _ _ St _ E1). intros g Hg. apply in_flat_map in Hg as (f & _ & Hg). exact (made_notes f g Hg). }
    destruct (for_each (foot_loc b1) l) as [ls |] eqn:El; cbn [rbind] in E; [| discriminate]. pose proof (foot_locs_lt _ _ _ (d_wf _ _ _ S1) El) as Ll.
    assert (Hl : incl l (flat_map notes_of done)) by (intros f Hf; apply in_flat_map; eexists; split; [exact Hin | exact Hf]). pose proof (foots_found _ _ _ _ S1 Hl _ El) as Fl.
    destruct (locate KFootnotes id (b_nums b1)) as [m |] eqn:Em; [| apply Ok_inv in E; subst b'; apply state_skip; assumption]. pose proof (at_there _ _ _ _ _ _ S1 Em) as Hm.
    pose proof (BuildFacts.located _ _ _ _ (d_wf _ _ _ S1) Em) as (o & Eo & K). pose proof (nth_length _ _ _ Eo) as Lm. fold (footnote_cells m) in E.
    destruct (footnote_cells_segment m (length (b_heap b1)) ls (fun c => c < length (b_heap b1)) Lm Ll) as (Sg & R1 & _).
    pose proof (placed_place anywhere (b_heap b1 ++ map fst (snd (place (footnote_cells m) (length (b_heap b1)) ls))) (footnote_cells m)
      (fun p q => is_a (b_heap b1 ++ map fst (snd (place (footnote_cells m) (length (b_heap b1)) ls))) q KFootnotesItem /\ has (b_heap b1 ++ map fst (snd (place (footnote_cells m) (length (b_heap b1)) ls))) q "footnote" (One (Some p))) ls (length (b_heap b1))) as Pl.
    specialize (Pl ltac:(intros a q _ _ Hp; apply placed_cons in Hp as (Hq & _); cbn [fst] in Hq; split; [eexists; split; [exact Hq | auto] | eexists; split; [exact Hq | reflexivity]])  (placed_new _ _)).
    destruct (place (footnote_cells m) (length (b_heap b1)) ls) as [its cs]. cbn [fst snd] in Sg, R1, Pl. apply Ok_inv in E. subst b'.
    assert (X : extends (b_heap b1) (b_heap b1 ++ map fst cs)) by apply extends_app.
    assert (W2 : wf_heap (b_heap b1 ++ map fst cs)) by (apply (wf_segment _ _ _ (proj1 (d_wf _ _ _ S1)) Sg); intros; lia).
    pose proof (state_extends (Some m) pre b1 _ (state_less _ _ _ S1) W2 X) as S2. set (h1 := b_heap b1 ++ map fst cs) in *.
    destruct (state_put pre (set_heap b1 h1) KFootnotes id m "footnotes" SNodes (Nodes its) S2 Hm) as [S3 H3]; [has_attribute | exact Logic.I | | reflexivity |].
    { intros c Hc. specialize (R1 c Hc). cbn [set_heap b_heap]. unfold h1. rewrite app_length, map_length. change (obj * option nat)%type with cell. lia. }
    pose proof (changes_put_state pre (set_heap b1 h1) KFootnotes id m "footnotes" (Nodes its) S2 Hm (fun f _ => eq_refl)) as Ch. cbn [set_heap b_heap b_nums b_parts b_foots b_items] in *.
    apply (state_made _ _ _ m); [exact S3 | exact Hm | | discriminate]. cbn [target fst snd completed]. rewrite last_snoc. cbn [notes_to]. rewrite same_is. intros g Eg. assert (g = l) as -> by congruence.
    exists its. split; [exact H3 |]. refine (Forall2_comp _ _ _ _ _ _ _ Fl Pl). intros f p q Tp (A & Hq). cbn [set_heap b_heap]. split; [exact (is_a_changes _ _ _ _ Ch A) |]. exists p. split.
    - exact (has_changes _ _ _ _ _ _ Ch A (fun e => eq_refl) Hq).
    - exact (tree_changes _ _ _ _ _ (changes_trans _ _ _ (extends_changes _ _ X) Ch) (footnote_tame _) Tp).
  Qed.
  Lemma step_id n pre b id s b' : state None pre b -> do_assign n done b (AInternal id s) = Ok b' -> state None (pre ++ [AInternal id s]) b'.
  Proof.
    intros St E. cbn [do_assign] in E. destruct (locate KHeader id (b_nums b)) as [m |] eqn:Em; apply Ok_inv in E; subst b'; [| apply state_skip; assumption]. pose proof (at_there _ _ _ _ _ _ St Em) as Hm.
    destruct (state_put pre b KHeader id m "internal_id" SPlain (Plain (VStr s)) (state_less _ _ _ St) Hm) as [S2 H2]; [has_attribute | exact Logic.I | intros x [] | reflexivity |].
    apply (state_made _ _ _ m); [exact S2 | exact Hm | | discriminate]. cbn [target fst snd completed]. rewrite last_snoc. cbn [id_to]. rewrite same_is. intros g Eg. assert (g = s) as -> by congruence. exact H2.
  Qed.

  Lemma entries_placed loc m h t : (forall hd, In hd (Build.toc_headers t) -> there KHeader (h_id hd) (loc hd) /\ is_tree anywhere h (header_tree hd) (loc hd)) ->
    forall base, placed anywhere h base (toc_cells loc m base t) -> is_entry there h t base.
  Proof.
    induction t as [hd es IH] using toc_all. intros Hh base Hp. cbn [toc_cells] in Hp. unfold with_content in Hp. apply placed_cons in Hp as (E & _ & Hp). cbn [fst] in E.
    destruct (Hh hd (or_introl eq_refl)) as [H1 H2]. econstructor; [eexists; split; [exact E | auto] | eexists; split; [exact E | reflexivity] | exact H1 | exact H2 | eexists; split; [exact E | reflexivity] |].
    refine (placed_place anywhere h (toc_cells loc m) (is_entry there h) es (S base) _ Hp). intros t b Ht _ Pt. rewrite Forall_forall in IH. apply (IH t Ht); [| exact Pt].
    intros hd' H'. apply Hh. cbn [Build.toc_headers]. right. apply in_flat_map. eauto.
  Qed.
  Lemma step_toc n pre b id nested plain b' : state None pre b -> In (AToc id nested plain) done -> do_assign n done b (AToc id nested plain) = Ok b' -> state None (pre ++ [AToc id nested plain]) b'.
  Proof.
    intros St Hin E. cbn [do_assign] in E. destruct (locate KToc id (b_nums b)) as [m |] eqn:Em; [| apply Ok_inv in E; subst b'; apply state_skip; assumption]. pose proof (at_there _ _ _ _ _ _ St Em) as Hm.
    pose proof (d_wf _ _ _ St) as W. destruct (BuildFacts.located _ _ _ _ W Em) as (o & Eo & K). pose proof (nth_length _ _ _ Eo) as Lm.
    assert (Hall : forall hd, In hd (flat_map Build.toc_headers nested ++ plain) -> there KHeader (h_id hd) (header_loc b hd) /\ is_tree anywhere (b_heap b) (header_tree hd) (header_loc b hd)).
    { intros hd Hhd. apply (header_there _ _ _ _ St). apply in_flat_map. eexists. split; [exact Hin | exact Hhd]. }
    destruct (tocs_segment (header_loc b) m (fun c => c < length (b_heap b)) nested (length (b_heap b))) as (Sg & R1 & _); [apply Forall_forall; intros; apply header_loc_lt; exact W | exact Lm |].
    pose proof (placed_place anywhere (b_heap b ++ map fst (snd (place (toc_cells (header_loc b) m) (length (b_heap b)) nested))) (toc_cells (header_loc b) m)
      (is_entry there (b_heap b ++ map fst (snd (place (toc_cells (header_loc b) m) (length (b_heap b)) nested)))) nested (length (b_heap b))) as Pl.
    assert (Pl' := fun H => Pl H (placed_new _ _)). clear Pl.
    destruct (place (toc_cells (header_loc b) m) (length (b_heap b)) nested) as [its cs]. cbn [fst snd] in Sg, R1, Pl'.
    assert (X : extends (b_heap b) (b_heap b ++ map fst cs)) by apply extends_app.
    assert (W2 : wf_heap (b_heap b ++ map fst cs)) by (apply (wf_segment _ _ _ (proj1 W) Sg); intros; lia).
    pose proof (state_extends (Some m) pre b _ (state_less _ _ _ St) W2 X) as S2. set (h0 := b_heap b ++ map fst cs) in *.
    assert (Fn : Forall2 (is_entry there h0) nested its).
    { apply Pl'. intros t q Ht _. apply entries_placed. intros hd Hhd. destruct (Hall hd) as [H1 H2]; [apply in_or_app; left; apply in_flat_map; eauto |]. split; [exact H1 | exact (tree_changes _ _ _ _ _ (extends_changes _ _ X) (header_tame _) H2)]. }
    clear Pl'. destruct (state_put pre (set_heap b h0) KToc id m "nested_entries" SNodes (Nodes its) S2 Hm) as [S3 H3]; [has_attribute | exact Logic.I | | reflexivity |].
    { intros c Hc. specialize (R1 c Hc). cbn [set_heap b_heap]. unfold h0. rewrite app_length, map_length. change (obj * option nat)%type with cell. lia. }
    pose proof (changes_put_state pre (set_heap b h0) KToc id m "nested_entries" (Nodes its) S2 Hm (fun f _ => eq_refl)) as Ch1. cbn [set_heap b_heap b_nums b_parts b_foots b_items] in S3, H3, Ch1.
    set (h1 := put h0 m "nested_entries" (Nodes its)) in *. pose proof (proj1 (d_wf _ _ _ S3)) as W3. cbn [set_heap b_heap] in W3.
    assert (L1 : length (b_heap b) <= length h1) by (unfold h1, h0; rewrite put_length, app_length; lia).
    unfold copy_each in E. destruct (copy_list (deepcopy n) m (map (header_loc b) plain) h1) as [[h2 ls] |] eqn:Ec; cbn [rbind] in E; [| discriminate]. apply Ok_inv in E. subst b'.
    assert (Hpl : Forall (fun c => c < length h1) (map (header_loc b) plain)).
    { apply Forall_forall. intros c Hc. apply in_map_iff in Hc as (x & <- & _). pose proof (header_loc_lt b x W). lia. }
    destruct (wf_copies n h1 m _ h2 ls W3 ltac:(lia) Hpl Ec) as (W4 & (X2 & _) & _ & R2).
    assert (Fp : Forall2 (is_tree anywhere h1) (map header_tree plain) (map (header_loc b) plain)).
    { assert (Hp : forall hd, In hd plain -> is_tree anywhere h1 (header_tree hd) (header_loc b hd)).
      { intros hd Hhd. exact (tree_changes _ _ _ _ _ (changes_trans _ _ _ (extends_changes _ _ X) Ch1) (header_tame _) (proj2 (Hall hd (in_or_app _ _ _ (or_intror Hhd))))). }
      clear -Hp. induction plain as [| hd l IH]; constructor; [apply Hp; left; reflexivity | apply IH; intros; apply Hp; right; assumption]. }
    assert (Tp : forallb tame (map header_tree plain) = true) by (rewrite forallb_map; apply forallb_all, Forall_forall; intros; apply header_tame).
    destruct (trees_copy (length h1) n h1 m _ h2 ls _ (closed_own _ (proj1 W3)) (fun i o' _ Ei => wf_proper _ _ _ W3 Ei) Hpl Ec Tp Fp) as [_ Fc].
    specialize (Fc h2 (fun i o' _ Ei => Ei)). apply Forall2_unmap in Fc.
    pose proof (state_extends (Some m) pre _ _ S3 W4 X2) as S4. cbn [set_heap b_heap b_nums b_parts b_foots b_items] in S4. change (mkBuild h2 (b_nums b) (b_parts b) (b_foots b) (b_items b)) with (set_heap b h2) in S4.
    destruct (state_put pre (set_heap b h2) KToc id m "plain_entries" SNodes (Nodes ls) S4 Hm) as [S5 H5]; [has_attribute | exact Logic.I | intros c Hc; specialize (R2 c Hc); cbn [set_heap b_heap]; lia | reflexivity |].
    pose proof (changes_put_state pre (set_heap b h2) KToc id m "plain_entries" (Nodes ls) S4 Hm (fun f _ => eq_refl)) as Ch2. cbn [set_heap b_heap b_nums b_parts b_foots b_items] in S5, H5, Ch2.
    apply (state_made _ _ _ m); [exact S5 | exact Hm | | discriminate]. cbn [target fst snd completed]. rewrite last_snoc. cbn [toc_to]. rewrite same_is. intros ne pl Eg. assert (ne = nested /\ pl = plain) as [-> ->] by (split; congruence).
    exists its, ls. cbn [set_heap b_heap]. split; [apply has_put_other; [discriminate | exact (has_extends _ _ _ _ _ X2 H3)] |]. split; [| split; [exact H5 |]].
    - refine (Forall2_imp _ _ _ _ _ Fn). intros t q. apply entry_changes. exact (changes_trans _ _ _ Ch1 (changes_trans _ _ _ (extends_changes _ _ X2) Ch2)).
    - refine (Forall2_imp _ _ _ _ _ Fc). intros hd q. apply tree_changes; [exact Ch2 | apply header_tame].
  Qed.
  Lemma header_contents h hd l : wf_heap h -> is_tree anywhere h (header_tree hd) l -> Forall2 (fun i p => is_tree anywhere h (inode_tree i) p) (h_content hd) (nodes_in h l "content").
  Proof. intros W T. apply Forall2_unmap. exact (contents_nodes anywhere h (DHeader hd) l W T). Qed.
  Lemma has_in h l ls : has h l "content" (Nodes ls) -> nodes_in h l "content" = ls.
  Proof. intros (o & E & F). unfold nodes_in. rewrite E, F. reflexivity. Qed.
  Lemma step_link n pre b id t cc b' : state None pre b -> incl pre done -> In (AHeader id t cc) done -> do_assign n done b (AHeader id t cc) = Ok b' -> state None (pre ++ [AHeader id t cc]) b'.
  Proof.
    intros St Hpre Hin E. cbn [do_assign] in E. destruct (locate KMacroHeader id (b_nums b)) as [m |] eqn:Em; [| apply Ok_inv in E; subst b'; apply state_skip; assumption]. pose proof (at_there _ _ _ _ _ _ St Em) as Hm.
    pose proof (d_wf _ _ _ St) as W. destruct (d_links _ _ _ St _ _ Hm ltac:(discriminate)) as (ls0 & c0 & Hc0 & F0 & O0).
    (* what the link has *)
    assert (R : forall hd c, In (AHeader id hd c) done -> exists tt l cx, In (id, LLink tt l cx) G /\ c = match l with [] => h_content hd | _ => l end).
    { intros hd c Hc. rewrite Forall_forall in done_right. destruct (proj2 (done_right _ Hc)) as (tt & l & cx & H1 & (_ & H2) & _). exists tt, l, cx. auto. }
    destruct (R _ _ Hin) as (tt & l & cx & Gl & Ecc).
    assert (C0 : c0 = [] /\ l = [] \/ In (AHeader id t c0) (pre ++ [AHeader id t cc]) \/ exists hd, In (AHeader id hd c0) pre).
    { destruct O0 as [(t0 & cx0 & G0) | [hd H0]]; [| destruct c0 as [| i c0]].
      - pose proof (G_same _ _ _ Gl G0) as Eq. assert (l = c0) as -> by congruence. destruct c0; [left; auto | right; left; apply in_or_app; right; left; congruence].
      - destruct (R _ _ (Hpre _ H0)) as (tt' & l' & cx' & Gl' & E'). pose proof (G_same _ _ _ Gl Gl') as Eq. assert (l' = l) as -> by congruence. destruct l; [left; auto | discriminate].
      - right. right. eauto. }
    destruct (header_there _ _ _ t St) as [Ht Tt]; [apply in_flat_map; eexists; split; [exact Hin | left; reflexivity] |].
    destruct (state_put pre b KMacroHeader id m "header" SOpt (One (Some (header_loc b t))) (state_less _ _ _ St) Hm) as [S2 H2]; [has_attribute | exact Logic.I | intros x [<- | []]; apply header_loc_lt; exact W | reflexivity |].
    pose proof (changes_put_state pre b KMacroHeader id m "header" (One (Some (header_loc b t))) (state_less _ _ _ St) Hm (fun f _ => eq_refl)) as Ch1.
    set (h1 := put (b_heap b) m "header" (One (Some (header_loc b t)))) in *. pose proof (d_wf _ _ _ S2) as W2. cbn [set_heap b_heap] in W2. destruct W2 as [W2 _].
    assert (Hc1 : has h1 m "content" (Nodes ls0)) by (apply has_put_other; [discriminate | exact Hc0]). rewrite (has_in _ _ _ Hc1) in E. pose proof (tree_changes _ _ _ _ _ Ch1 (header_tame _) Tt) as T1.
    destruct ls0 as [| p0 ls0].
    - (* a link without a content *)
      assert (c0 = []) by (inversion F0; reflexivity). subst c0.
      assert (El : l = []).
      { destruct C0 as [[_ C0] | C0]; [exact C0 |]. assert (Hn : exists hd, In (AHeader id hd []) done).
        { destruct C0 as [C0 | [hd C0]]; [| exists hd; exact (Hpre _ C0)]. apply in_app_or in C0 as [C0 | [C0 | []]]; [eexists; exact (Hpre _ C0) | exists t; rewrite <- C0; exact Hin]. }
        destruct Hn as [hd Hn]. destruct (R _ _ Hn) as (tt' & l' & cx' & Gl' & E'). pose proof (G_same _ _ _ Gl Gl') as Eq. assert (l' = l) as -> by congruence. destruct l; [reflexivity | discriminate]. }
      subst l. unfold copy_each in E. destruct (copy_list (deepcopy n) m (nodes_in h1 (header_loc b t) "content") h1) as [[h2 ls] |] eqn:Ec; cbn [rbind] in E; [| discriminate]. apply Ok_inv in E. subst b'.
      assert (Lm : m < length h1) by (destruct Hc1 as (o & Eo & _); exact (nth_length _ _ _ Eo)).
      destruct (wf_copies n h1 m _ h2 ls W2 Lm (nodes_in_lt _ _ _ W2) Ec) as (W4 & (X2 & _) & _ & R2).
      pose proof (header_contents _ _ _ W2 T1) as Fh. apply (Forall2_mapl inode_tree) in Fh.
      destruct (trees_copy (length h1) n h1 m _ h2 ls _ (closed_own _ (proj1 W2)) (fun i o' _ Ei => wf_proper _ _ _ W2 Ei) (nodes_in_lt _ _ _ W2) Ec (inodes_tame _) Fh) as [_ Fc].
      specialize (Fc h2 (fun i o' _ Ei => Ei)). apply Forall2_unmap in Fc.
      pose proof (state_extends (Some m) pre _ _ S2 W4 X2) as S4. cbn [set_heap b_heap b_nums b_parts b_foots b_items] in S4. change (mkBuild h2 (b_nums b) (b_parts b) (b_foots b) (b_items b)) with (set_heap b h2) in S4.
      pose proof (has_extends _ _ _ _ _ X2 Hc1) as Hc2.
      assert (Em2 : forall f, has (b_heap (set_heap b h2)) m "content" f -> stable KMacroHeader "content" (is_empty f) = false).
      { intros f (o & Eo & Ef). destruct Hc2 as (o2 & Eo2 & Ef2). cbn [set_heap b_heap] in Eo. assert (o2 = o) as -> by congruence. assert (f = Nodes []) as -> by congruence. reflexivity. }
      destruct (state_put pre (set_heap b h2) KMacroHeader id m "content" SNodes (Nodes ls) S4 Hm) as [S5 H5]; [has_attribute | exact Logic.I | intros c Hc; specialize (R2 c Hc); cbn [set_heap b_heap]; lia | exact Em2 |].
      pose proof (changes_put_state pre (set_heap b h2) KMacroHeader id m "content" (Nodes ls) S4 Hm Em2) as Ch2. cbn [set_heap b_heap b_nums b_parts b_foots b_items] in S5, H5, Ch2.
      pose proof (texts_changes _ _ _ _ Ch2 Fc) as Fc'.
      apply (state_made _ _ _ m); [exact S5 | exact Hm | |]; cbn [target fst snd completed set_heap b_heap].
      + rewrite last_snoc. cbn [link_to]. rewrite same_is. intros hd Eg. assert (hd = t) as -> by congruence. exists (header_loc b t). split; [apply has_put_other; [discriminate | exact (has_extends _ _ _ _ _ X2 H2)] |]. split; [exact Ht |].
        split; [exact (tree_changes _ _ _ _ _ (changes_trans _ _ _ (extends_changes _ _ X2) Ch2) (header_tame _) T1) |]. exists t, (h_content t), ls. split; [apply in_or_app; right; left; congruence |]. split; [exact H5 | exact Fc'].
      + intros _. exists ls, (h_content t). split; [exact H5 |]. split; [exact Fc' |]. right. exists t. apply in_or_app. right. left. congruence.
    - (* a link with a content *)
      apply Ok_inv in E. subst b'. pose proof (texts_changes _ _ _ _ Ch1 F0) as F1.
      assert (Hd : exists hd, In (AHeader id hd c0) (pre ++ [AHeader id t cc])).
      { destruct C0 as [[C0 _] | [C0 | [hd C0]]]; [subst c0; inversion F0 | eauto | exists hd; apply in_or_app; left; exact C0]. }
      apply (state_made _ _ _ m); [exact S2 | exact Hm | |]; cbn [target fst snd completed set_heap b_heap].
      + rewrite last_snoc. cbn [link_to]. rewrite same_is. intros hd Eg. assert (hd = t) as -> by congruence. exists (header_loc b t). split; [exact H2 |]. split; [exact Ht |]. split; [exact T1 |].
        destruct Hd as [hd Hd]. exists hd, c0, (p0 :: ls0). auto.
      + intros _. exists (p0 :: ls0), c0. auto.
  Qed.

  (* the groups *)
  Lemma group_named id made items name : In (AGroup id made items) done -> In (id, LGroup name) G -> forall p b, In (p, b) items -> in_group name p b.
  Proof.
    intros Hin Hg p b Hb. rewrite Forall_forall in done_right. destruct (proj2 (done_right _ Hin)) as (s & Gs & F). pose proof (G_same _ _ _ Hg Gs) as Eq. assert (s = name) as -> by congruence.
    rewrite Forall_forall in F. exact (F _ Hb).
  Qed.
  Definition got (items : dict dnode) (name : str) (h : heap) (pos : str) (e : str * nat) : Prop := pos = fst e /\ exists blk, In (pos, blk) items /\ item_at h name pos blk (snd e).
  Lemma item_state pre m id made items name b pos b' l : state (Some m) pre b -> m < length (b_heap b) -> In (AGroup id made items) done -> In (id, LGroup name) G -> In pos (map fst items) ->
    place_item id made name m b pos = (b', l) -> state (Some m) pre b' /\ keeps_but nothing (b_heap b) (b_heap b') /\ exists blk, In (pos, blk) items /\ item_at (b_heap b') name pos blk l.
  Proof.
    intros St Lm Hin Hg Hpos E. pose proof (d_wf _ _ _ St) as W. destruct (place_item_wf _ _ _ _ _ _ _ _ W Lm E) as (W' & Kh & _ & _). unfold place_item in E.
    apply in_map_iff in Hpos as ([pos' blk0] & Ep & Hblk). cbn [fst] in Ep. subst pos'. pose proof (group_named _ _ _ _ Hin Hg _ _ Hblk) as Gb. destruct keys_ok as (_ & _ & _ & K4).
    destruct (find (same_item made name pos) (b_items b)) as [[[[made0 name0] pos0] k] |] eqn:Ef.
    - apply pair_equal_spec in E as [<- <-]. pose proof (find_snd _ _ _ Ef) as He. apply find_some in Ef as [_ Es]. cbn [same_item] in Es. apply andb_prop in Es as [Es E3]. apply andb_prop in Es as [E1 E2].
      apply Nat.eqb_eq in E1. destruct (str_eqb_spec name name0) as [-> |]; [| discriminate]. destruct (str_eqb_spec pos pos0) as [-> |]; [| discriminate]. subst made0.
      destruct (d_items _ _ _ St _ _ _ _ He) as (id' & items' & blk & H1 & H2 & H3 & H4). assert (items = items') as <- by exact (K4 _ _ _ _ _ _ _ _ _ _ Hin H1 Hblk H2 Gb H3).
      assert (Kb : keeps_but nothing (b_heap b) (put_parent (b_heap b) k m)) by apply keeps_parent_but.
      split; [apply (state_set nothing); [exact St | exact (proj1 W') | exact Kh | exact Kb | apply loose_nothing | intros ? ? []] |]. split; [exact Kb |].
      exists blk. split; [exact H2 |]. exact (item_changes _ _ _ _ _ _ (loose_changes _ _ _ (loose_nothing _) Kb) H4).
    - destruct tree_objects as (_ & _ & _ & Hp & He & _).
      assert (Hpart : In (PBlock id made pos, blk0) (flat_map parts_of done)). { apply in_flat_map. eexists. split; [exact Hin |]. cbn [parts_of]. apply in_map_iff. exists (pos, blk0). auto. }
      destruct (He _ Hpart) as (e & Hine & Ee). cbn [fst] in Ee. fold B in Hine. rewrite <- (d_parts _ _ _ St) in Hine. clear Ef.
      destruct (find (fun e0 => part_eqb (PBlock id made pos) (fst (fst e0))) (b_parts b)) as [[[q j] k] |] eqn:Ef.
      2: { exfalso. pose proof (find_none _ _ Ef e Hine) as Hn. cbn beta in Hn. rewrite Ee in Hn. assert (R : part_eqb (PBlock id made pos) (PBlock id made pos) = true) by (cbn [part_eqb]; rewrite !Nat.eqb_refl; cbn [andb]; destruct (str_eqb_spec pos pos); [reflexivity | congruence]). rewrite R in Hn. discriminate Hn. }
      pose proof (find_snd _ _ _ Ef) as Hk. apply find_some in Ef as [_ Eq]. cbn [fst] in Eq. apply part_eqb_eq in Eq. subst q. rewrite (d_parts _ _ _ St) in Hk. destruct (Hp _ Hk) as (blk & Hb & Tb). cbn [fst snd] in Hb, Tb.
      assert (Hbi : In (pos, blk) items).
      { apply in_flat_map in Hb as (a & Ha & Hb). destruct a as [i f | i fs | | | | i made' items']; cbn [parts_of] in Hb; try contradiction; [destruct Hb as [Hb | []]; discriminate Hb | apply in_map_iff in Hb as (f & Hb & _); discriminate Hb |].
        apply in_map_iff in Hb as ([p' b0] & Hb & Hi'). cbn [fst snd] in Hb. assert (i = id) as -> by congruence. assert (made' = made) as -> by congruence. assert (p' = pos) as -> by congruence. assert (b0 = blk) as -> by congruence.
        assert (items = items') as <-; [| exact Hi']. exact (K4 _ _ _ _ _ _ _ _ _ _ Hin Ha Hblk Hi' Gb (group_named _ _ _ _ Ha Hg _ _ Hi')). }
      apply pair_equal_spec in E as [<- <-]. cbn [b_heap b_nums b_parts b_foots b_items] in *. set (o := mkObj KBlockGroupItem (Some m) _ _ _) in *. set (h' := put_parent (b_heap b) k (length (b_heap b)) ++ [o]) in *.
      assert (Kb : keeps_but nothing (b_heap b) h').
      { eapply keeps_but_trans; [apply keeps_parent_but |]. apply keeps_extends_but, extends_app. }
      pose proof (loose_changes _ _ _ (loose_nothing _) Kb) as Ch.
      pose proof (state_set nothing (Some m) pre b h' St (proj1 W') Kh Kb (loose_nothing _) ltac:(intros ? ? [])) as [W1 N1 P1 C1 F1 I1 Cm1 L1]. cbn [set_heap b_heap b_nums b_parts b_foots b_items] in *.
      assert (Eo : nth_error h' (length (b_heap b)) = Some o) by (unfold h'; rewrite nth_error_app2; rewrite put_parent_length; [rewrite Nat.sub_diag; reflexivity | lia]).
      assert (It : item_at h' name pos blk (length (b_heap b))).
      { split; [exists o; auto |]. split; [exists o; auto |]. split; [exists o; auto |]. exists k. split; [exists o; auto |]. exact (tree_changes _ _ _ _ _ (changes_trans _ _ _ (d_changes _ _ _ St) Ch) (node_tame _) Tb). }
      split; [| split; [exact Kb | exists blk; split; [exact Hbi | exact It]]]. constructor; cbn [b_heap b_nums b_parts b_foots b_items]; try assumption.
      intros m0 name0 pos0 l0 Hi. apply in_app_or in Hi as [Hi | [Hi | []]]; [exact (I1 _ _ _ _ Hi) |]. assert (m0 = made) as -> by congruence. assert (name0 = name) as -> by congruence. assert (pos0 = pos) as -> by congruence. assert (l0 = length (b_heap b)) as -> by congruence.
      exists id, items, blk. split; [exact Hin |]. split; [exact Hbi |]. split; [exact (group_named _ _ _ _ Hin Hg _ _ Hbi) | exact It].
  Qed.
  Lemma items_state pre m id made items name : In (AGroup id made items) done -> In (id, LGroup name) G -> forall l b b' d, state (Some m) pre b -> m < length (b_heap b) -> incl l (map fst items) ->
    place_items id made name m b l = (b', d) -> state (Some m) pre b' /\ keeps_but nothing (b_heap b) (b_heap b') /\ Forall2 (got items name (b_heap b')) l d.
  Proof.
    intros Hin Hg. induction l as [| pos r IH]; intros b b' d St Lm Hl E; cbn [place_items] in E.
    - apply pair_equal_spec in E as [<- <-]. split; [exact St |]. split; [apply keeps_extends_but; split; auto | constructor].
    - destruct (place_item id made name m b pos) as [b1 i] eqn:E1. destruct (place_items id made name m b1 r) as [b2 rest] eqn:E2. apply pair_equal_spec in E as [<- <-].
      destruct (item_state _ _ _ _ _ _ _ _ _ _ St Lm Hin Hg (Hl _ (or_introl eq_refl)) E1) as (S1 & K1 & blk & H1 & H2). destruct (place_item_wf _ _ _ _ _ _ _ _ (d_wf _ _ _ St) Lm E1) as (_ & Kh & _ & _). pose proof (proj1 Kh) as Lh.
      destruct (IH b1 b2 rest S1 ltac:(lia) (fun x H => Hl x (or_intror H)) E2) as (S2 & K2 & F2). split; [exact S2 |]. split; [exact (keeps_but_trans _ _ _ _ K1 K2) |]. constructor; [| exact F2].
      split; [reflexivity |]. exists blk. split; [exact H1 |]. cbn [snd]. exact (item_changes _ _ _ _ _ _ (loose_changes _ _ _ (loose_nothing _) K2) H2).
  Qed.
  Lemma Forall2_member {T U} (P : T -> U -> Prop) l r : Forall2 P l r -> Forall2 (fun a b => In a l /\ P a b) l r.
  Proof. intro F. induction F; constructor; [split; [left; reflexivity | assumption] |]. refine (Forall2_imp _ _ _ _ _ IHF). intros a b [A0 B0]. split; [right; exact A0 | exact B0]. Qed.
  Lemma nodup_keys {V} (l : dict V) k v w : NoDup (keys l) -> In (k, v) l -> In (k, w) l -> v = w.
  Proof.
    unfold keys. induction l as [| [a x] l IH]; cbn [map fst]; intros N Hv Hw; [destruct Hv |]. inversion N as [| ? ? Ha Nl]; subst. destruct Hv as [Hv | Hv], Hw as [Hw | Hw].
    - congruence.
    - exfalso. apply Ha. assert (a = k) as -> by congruence. exact (in_map fst _ _ Hw).
    - exfalso. apply Ha. assert (a = k) as -> by congruence. exact (in_map fst _ _ Hv).
    - exact (IH Nl Hv Hw).
  Qed.
  Lemma step_group n pre b id made items b' : state None pre b -> In (AGroup id made items) done -> do_assign n done b (AGroup id made items) = Ok b' -> state None (pre ++ [AGroup id made items]) b'.
  Proof.
    intros St Hin E. cbn [do_assign] in E. destruct (locate KBlockGroup id (b_nums b)) as [m |] eqn:Em; [| apply Ok_inv in E; subst b'; apply state_skip; assumption]. pose proof (at_there _ _ _ _ _ _ St Em) as Hm.
    pose proof (d_wf _ _ _ St) as W. destruct (BuildFacts.located _ _ _ _ W Em) as (o & Eo & K). pose proof (nth_length _ _ _ Eo) as Lm.
    (* its name *)
    destruct tree_objects as (_ & O & _). unfold there in Hm. destruct (O _ _ _ (locate_nth _ _ _ _ Hm)) as (w & Gw & Kw & Sw). destruct w as [| | | | | name]; try discriminate Kw. cbn [says] in Sw. fold B in Sw.
    assert (Hn : has (b_heap b) m "name" (Plain (VStr name))).
    { destruct Sw as (o0 & E0 & F0). destruct (d_changes _ _ _ St m o0 E0) as (o1 & E1 & K1 & _ & _ & H1). exists o1. split; [exact E1 |]. apply H1; [exact F0 |]. assert (o1 = o) as -> by congruence. rewrite <- K1, K. reflexivity. }
    assert (En : name_of (b_heap b) m = name) by (destruct Hn as (o1 & E1 & F1); unfold name_of; rewrite E1, F1; reflexivity). rewrite En in E.
    destruct (place_items id made name m b (map fst items)) as [b1 d] eqn:E1. apply Ok_inv in E. subst b'.
    destruct (items_state _ _ _ _ _ _ Hin Gw _ _ _ _ (state_less (Some m) _ _ St) Lm (incl_refl _) E1) as (S1 & K1 & F1). destruct (place_items_wf _ _ _ _ _ _ _ _ W Lm E1) as (_ & _ & _ & L1).
    destruct (state_put pre b1 KBlockGroup id m "items" SNamed (Named d) S1 Hm) as [S2 H2]; [has_attribute | exact Logic.I | exact L1 | reflexivity |].
    pose proof (changes_put_state pre b1 KBlockGroup id m "items" (Named d) S1 Hm (fun f _ => eq_refl)) as Ch.
    apply (state_made _ _ _ m); [exact S2 | exact Hm | | discriminate]. cbn [target fst snd completed]. rewrite last_snoc. cbn [group_to]. rewrite same_is. intros its Eg. assert (its = items) as -> by congruence.
    exists d. split; [exact H2 |]. apply Forall2_unmap, Forall2_member in F1. refine (Forall2_imp _ _ _ _ _ F1). intros [pos blk] [p' l] (Hi & Ep & blk' & Hb' & It). cbn [fst snd] in *. subst p'.
    destruct keys_ok as (_ & _ & K3 & _). assert (blk' = blk) as -> by exact (nodup_keys _ _ _ _ (proj2 (K3 _ _ _ Hin)) Hb' Hi).
    destruct (item_changes _ _ _ _ _ _ Ch It) as (A & H3 & H4 & p & H5 & H6). cbn [set_heap b_heap]. split; [reflexivity |]. split; [exact A |]. split; [exact H3 |]. split; [| exists p; split; assumption].
    exists name. split; [exact (group_named _ _ _ _ Hin Gw _ _ Hi) |]. split; [exact H4 |]. apply has_put_other; [discriminate |]. exact (has_keeps _ _ _ _ _ _ K1 (fun H => H) Hn).
  Qed.
  Lemma step n pre b a b' : state None pre b -> incl pre done -> In a done -> do_assign n done b a = Ok b' -> state None (pre ++ [a]) b'.
  Proof.
    intros St Hp Hin E. destruct a; [exact (step_note _ _ _ _ _ _ St Hin E) | exact (step_notes _ _ _ _ _ _ St Hin E) | exact (step_id _ _ _ _ _ _ St E) | exact (step_toc _ _ _ _ _ _ _ St Hin E)
      | exact (step_link _ _ _ _ _ _ _ St Hp Hin E) | exact (step_group _ _ _ _ _ _ _ St Hin E)].
  Qed.
  Lemma steps n l : forall pre b b', state None pre b -> pre ++ l = done -> do_assigns n done b l = Ok b' -> state None done b'.
  Proof.
    induction l as [| a l IH]; intros pre b b' St Hd E; cbn [do_assigns] in E.
    - rewrite app_nil_r in Hd. subst pre. assert (b' = b) as -> by congruence. exact St.
    - destruct (do_assign n done b a) as [b1 |] eqn:E1; cbn [rbind] in E; [| discriminate].
      apply (IH (pre ++ [a]) b1 b'); [| rewrite <- app_assoc; exact Hd | exact E]. apply (step n _ b); [exact St | | | exact E1]; rewrite <- Hd; [apply incl_appl, incl_refl | apply in_or_app; right; left; reflexivity].
  Qed.
  Lemma state_first : state None [] B.
  Proof.
    destruct (build_tree_ok doc done) as (W & _ & F & I). destruct tree_objects as (_ & O & _). constructor; auto.
    - apply changes_refl.
    - intros e He. exfalso. fold B in F. rewrite F in He. destruct He.
    - intros m name pos l He. exfalso. fold B in I. rewrite I in He. destruct He.
    - intros k i l _ _. destruct k; cbn [completed last_one fold_left]; try exact Logic.I; intros; discriminate.
    - intros i l Hl _. unfold there in Hl. destruct (O _ _ _ (locate_nth _ _ _ _ Hl)) as (w & Gw & Kw & Sw). destruct w; try discriminate Kw. cbn [says] in Sw. destruct Sw as (ls & H1 & H2). exists ls. eexists. split; [exact H1 |]. split; [exact H2 |]. left. eauto.
  Qed.
  Lemma objects_are n h : heap_of n doc done = Ok h ->
    is_tree there h (document_tree doc) 0 /\ (forall k i l, there k i l -> completed done there h k i l).
  Proof.
    intro E. unfold heap_of in E. destruct (do_assigns n done (build_tree doc done) done) as [b |] eqn:E1; cbn [rbind] in E; [| discriminate]. apply Ok_inv in E. subst h.
    pose proof (steps n done [] B b state_first eq_refl E1) as St. destruct tree_objects as (_ & _ & T & _). split.
    - exact (tree_changes _ _ _ _ _ (d_changes _ _ _ St) (document_tame _) T).
    - intros k i l Hl. apply (d_comp _ _ _ St _ _ _ Hl). discriminate.
  Qed.
End Objects.
