(* BlameFacts.v -- every object of a document is one of its nodes *)
From Verif Require Import Build BuildFacts SpecVisitor PropertiesVisitor PropertiesBuild SpecBlame.
From Verif Require Import SpecObjects.
From Coq Require Import List Lia PeanoNat.
Import ListNotations.
#[local] Open Scope list_scope.
#[local] Notation length := List.length.

Lemma sub_trans u v : subnode u v -> forall w, subnode v w -> subnode u w.
Proof.
  intros Huv w H. induction H as [|k a c num fs name l x H1 H2 _ IH|k a c num fs name l key x H1 H2 _ IH|k a c num fs name x H1 _ IH];
    [exact Huv|eapply sub_nodes; eassumption|eapply sub_named; eassumption|eapply sub_one; eassumption].
Qed.
Definition looks_like (t : tree) (o : obj) : Prop := tree_kind t = o_kind o /\ tree_args t = o_args o /\ tree_ctx t = o_ctx o.
Definition from_tree (t : tree) (o : obj) : Prop :=
  (exists u, subnode u t /\ looks_like u o) \/
  (exists u first final before, subnode u t /\ tree_kind u = KIncludeMau /\ hd_error (contents u) = Some first /\ contents u = before ++ [final] /\
     o_kind o = KDocument /\ o_args o = empty_args /\ o_ctx o = merge_contexts (tree_ctx first) (tree_ctx final)).
Lemma from_up t w o : subnode t w -> from_tree t o -> from_tree w o.
Proof.
  intros P [(u & H & K)|(u & x & y & b & H & K)]; [left; exists u|right; exists u, x, y, b]; (split; [exact (sub_trans _ _ H _ P)|exact K]).
Qed.
Lemma from_self t o : looks_like t o -> from_tree t o.
Proof. intros H. left. exists t. split; [constructor|exact H]. Qed.

(* the cells of a list of nodes *)
Definition cells_from (t : tree) (cs : list cell) : Prop := Forall (fun c => from_tree t (fst c)) cs.
Definition cells_of (ts : list tree) (cs : list cell) : Prop := Forall (fun c => exists t, In t ts /\ from_tree t (fst c)) cs.
Lemma place_cells {A} (f : nat -> A -> list cell) (g : A -> tree) l : (forall a base, In a l -> cells_from (g a) (f base a)) -> forall base, cells_of (map g l) (snd (place f base l)).
Proof.
  induction l as [|a l IH]; intros H base; cbn [place]; [constructor|]. specialize (IH (fun b bs Hb => H b bs (or_intror Hb)) (base + length (f base a))).
  destruct (place f (base + length (f base a)) l) as [ls rest]. cbn [snd] in *. apply Forall_app. split.
  - refine (Forall_impl _ _ (H a base (or_introl eq_refl))). intros c Hc. exists (g a). split; [left; reflexivity|exact Hc].
  - refine (Forall_impl _ _ IH). intros c (t & Ht & Hc). exists t. split; [right; exact Ht|exact Hc].
Qed.
Lemma nodes_up k a c num fs name ts cs : In (name, TNodes ts) fs -> cells_of ts cs -> cells_from (Tree k a c num fs) cs.
Proof. intros H F. refine (Forall_impl _ _ F). intros x (t & Ht & Hx). refine (from_up _ _ _ _ Hx). eapply sub_nodes; [exact H|exact Ht|constructor]. Qed.
Lemma with_content_from t o num p : (forall ls, looks_like t (o ls)) -> cells_from t (snd p) -> cells_from t (with_content o num p).
Proof. intros H F. constructor; [apply from_self, H|exact F]. Qed.

Lemma inode_from : forall i parent base, cells_from (inode_tree i) (inode_cells parent base i).
Proof.
  fix IH 1. assert (IHl : forall l parent base, cells_of (map inode_tree l) (snd (place (inode_cells parent) base l))).
  { fix IHl 1. intros [|a l] parent base; cbn [place map]; [constructor|]. pose proof (IH a parent base) as Ha. pose proof (IHl l parent (base + length (inode_cells parent base a))) as Hl.
    destruct (place (inode_cells parent) (base + length (inode_cells parent base a)) l) as [ls rest]. cbn [snd] in *. apply Forall_app. split.
    - refine (Forall_impl _ _ Ha). intros c Hc. exists (inode_tree a). split; [left; reflexivity|exact Hc].
    - refine (Forall_impl _ _ Hl). intros c (t & Ht & Hc). exists t. split; [right; exact Ht|exact Hc]. }
  assert (S : forall o t num, looks_like t o -> cells_from t [(o, num)]) by (intros o t num H; constructor; [apply from_self, H|constructor]).
  intros i parent base. destruct i as [v c|v c|v c|s l c|name a c|cl l c|t l c|u alt w hh c|id t l c|id name c|v c|v c]; cbn [inode_cells inode_tree];
    try (apply S; repeat split; reflexivity).
  - apply with_content_from; [repeat split|]. eapply nodes_up; [right; left; reflexivity|apply IHl].
  - apply with_content_from; [repeat split|]. eapply nodes_up; [right; left; reflexivity|apply IHl].
  - apply with_content_from; [repeat split|]. eapply nodes_up; [right; left; reflexivity|apply IHl].
  - apply with_content_from; [repeat split|]. destruct l as [|x l]; [constructor|]. eapply nodes_up; [right; left; reflexivity|apply (IHl (x :: l))].
Qed.
Lemma inodes_from parent base l : cells_of (map inode_tree l) (snd (place (inode_cells parent) base l)).
Proof. apply place_cells. intros a b _. apply inode_from. Qed.

(* labels *)
Definition label_tree (kv : str * list inode) : tree := Tree KLabel empty_args empty_context None [("role"%string, text (fst kv)); content_attr (snd kv)].
Lemma label_from host base kv : cells_from (label_tree kv) (label_cells host base kv).
Proof. apply with_content_from; [repeat split|]. eapply nodes_up; [right; left; reflexivity|apply inodes_from]. Qed.
Lemma with_labels_from k a c num fs lb o n base p : (forall ls l, looks_like (Tree k a c num fs) (o ls l)) -> In (labels_attr lb) fs -> cells_from (Tree k a c num fs) (snd p) ->
  cells_from (Tree k a c num fs) (with_labels o n base lb p).
Proof.
  intros H Hl F. unfold with_labels. pose proof (place_cells (label_cells base) label_tree lb (fun kv b _ => label_from base b kv) (S base + length (snd p))) as G.
  destruct (place (label_cells base) (S base + length (snd p)) lb) as [ls cs]. cbn [snd] in G. constructor; [apply from_self, H|]. apply Forall_app. split; [exact F|].
  refine (Forall_impl _ _ G). intros x (t & Ht & Hx). apply in_map_iff in Ht as (kv & <- & Hkv). refine (from_up _ _ _ _ Hx).
  eapply sub_named; [exact Hl| |constructor]. apply (in_map (fun kv : str * list inode => (fst kv, label_tree kv))) in Hkv. exact Hkv.
Qed.
Lemma header_from parent base h : cells_from (header_tree h) (header_cells parent base h).
Proof.
  apply with_labels_from; [repeat split|right; right; right; left; reflexivity|]. eapply nodes_up; [right; right; left; reflexivity|apply inodes_from].
Qed.
Lemma line_from p base l : cells_from (line_tree l) (line_cells p base l).
Proof. apply with_content_from; [repeat split|]. eapply nodes_up; [left; reflexivity|apply inodes_from]. Qed.
Lemma raw_line_from p base l : cells_from (raw_line_tree l) (raw_line_cells p base l).
Proof. constructor; [apply from_self; repeat split|constructor]. Qed.
Lemma source_line_from p base l : cells_from (source_line_tree l) (source_line_cells p base l).
Proof.
  constructor; [apply from_self; repeat split|]. destruct (sl_marker l) as [[v c]|] eqn:E; [|constructor]. constructor; [|constructor].
  left. exists (Tree KSourceMarker empty_args c None [("value"%string, text v)]). split; [|repeat split]. unfold source_line_tree. rewrite E. cbn [option_map fst snd].
  eapply sub_one; [right; right; right; left; reflexivity|constructor].
Qed.
Lemma node_ctx d : tree_ctx (node_tree d) = dnode_ctx d.
Proof. destruct d; reflexivity. Qed.
Lemma dnode_from : forall d parent base, cells_from (node_tree d) (dnode_cells parent base d).
Proof.
  fix IH 1. assert (IHl : forall l parent base, cells_of (map node_tree l) (snd (place (dnode_cells parent) base l))).
  { fix IHl 1. intros [|a l] parent base; cbn [place map]; [constructor|]. pose proof (IH a parent base) as Ha. pose proof (IHl l parent (base + length (dnode_cells parent base a))) as Hl.
    destruct (place (dnode_cells parent) (base + length (dnode_cells parent base a)) l) as [ls rest]. cbn [snd] in *. apply Forall_app. split.
    - refine (Forall_impl _ _ Ha). intros c Hc. exists (node_tree a). split; [left; reflexivity|exact Hc].
    - refine (Forall_impl _ _ Hl). intros c (t & Ht & Hc). exists t. split; [right; exact Ht|exact Hc]. }
  assert (Last : forall a fs x, In x (fs ++ [labels_attr (at_labels a)]) \/ x = labels_attr (at_labels a) -> In x (fs ++ [labels_attr (at_labels a)])) by (intros a fs x [H| ->]; [exact H|apply in_or_app; right; left; reflexivity]).
  intros d parent base. destruct d; cbn [node_tree dnode_cells app].
  all: try (apply header_from).
  all: try (apply with_labels_from; [repeat split|cbn [In]; tauto|]; try constructor).
  - eapply nodes_up; [left; reflexivity|apply place_cells; intros; apply line_from].
  - eapply nodes_up; [right; left; reflexivity|apply IHl].
  - eapply nodes_up; [right; left; reflexivity|apply place_cells; intros; apply raw_line_from].
  - eapply nodes_up; [right; right; left; reflexivity|apply place_cells; intros; apply source_line_from].
  - eapply nodes_up; [right; right; right; left; reflexivity|apply IHl].
  - apply with_content_from; [repeat split|]. eapply nodes_up; [right; left; reflexivity|apply inodes_from].
  - destruct content as [|n rest]; [constructor|]. pose proof (IHl (n :: rest) (Some (S base)) (S (S base))) as F.
    destruct (place (dnode_cells (Some (S base))) (S (S base)) (n :: rest)) as [ls cs]. cbn [snd] in *. constructor.
    + right. exists (Tree KIncludeMau (at_args a) (at_ctx a) None [("uri"%string, SpecObjects.text uri); ("content"%string, TNodes (map node_tree (n :: rest))); labels_attr (at_labels a)]), (node_tree n), (node_tree (last (n :: rest) n)), (map node_tree (removelast (n :: rest))).
      split; [constructor|]. split; [reflexivity|]. split; [reflexivity|]. split; [|split; [reflexivity|split; [reflexivity|]]].
      * cbn [contents find fst String.eqb Ascii.eqb Bool.eqb]. cbn. change (node_tree n :: map node_tree rest) with (map node_tree (n :: rest)).
        rewrite (app_removelast_last n (l := n :: rest)) at 1 by discriminate. rewrite map_app. reflexivity.
      * cbn [fst o_ctx]. rewrite !node_ctx. reflexivity.
    + eapply nodes_up; [right; left; reflexivity|exact F].
  - eapply nodes_up; [right; left; reflexivity|apply place_cells; intros; apply raw_line_from].
Qed.

(* ------------------------------------------------------------- all the objects *)
Section Written.
  Context (d : list dnode * context) (done : list assign).
  Definition known (o : obj) : Prop := appears d done (o_kind o) (o_args o) (o_ctx o).
  Definition all_known (h : heap) : Prop := Forall known h.

  Lemma from_known r o : root d done r -> from_tree r o -> known o.
  Proof.
    intros R [(u & P & (E1 & E2 & E3))|(u & x & y & b & P & K & H1 & H2 & E1 & E2 & E3)]; unfold known.
    - rewrite <- E1, <- E2, <- E3. econstructor; eassumption.
    - rewrite E1, E2, E3. eapply appears_included; eassumption.
  Qed.
  Lemma cells_known r cs : root d done r -> cells_from r cs -> all_known (map fst cs).
  Proof. intros R F. apply Forall_forall. intros o Ho. apply in_map_iff in Ho as (c & <- & Hc). exact (from_known _ _ R (proj1 (Forall_forall _ _) F _ Hc)). Qed.
  Lemma app_known h g : all_known h -> all_known g -> all_known (h ++ g).
  Proof. intros H G. apply Forall_app. auto. Qed.
  Lemma update_known h l o o' : all_known h -> nth_error h l = Some o -> o_kind o' = o_kind o -> o_args o' = o_args o -> o_ctx o' = o_ctx o -> all_known (update l o' h).
  Proof.
    intros F E K A C. assert (Ko : known o') by (unfold known; rewrite K, A, C; exact (proj1 (Forall_forall _ _) F _ (nth_error_In _ _ E))). clear E. revert l.
    induction F as [|x h Hx F IH]; intros [|l]; cbn [update]; constructor; first [assumption|apply IH].
  Qed.
  Lemma update_known' h l o' : all_known h -> known o' -> all_known (update l o' h).
  Proof. intros F K. revert l. induction F as [|x h Hx F IH]; intros [|l]; cbn [update]; constructor; first [assumption|apply IH]. Qed.
  Lemma put_known h l k v : all_known h -> all_known (put h l k v).
  Proof. intros F. unfold put. destruct (nth_error h l) as [o|] eqn:E; [|exact F]. apply (update_known _ _ o); auto. Qed.
  Lemma put_parent_known h l p : all_known h -> all_known (put_parent h l p).
  Proof. intros F. unfold put_parent. destruct (nth_error h l) as [o|] eqn:E; [|exact F]. apply (update_known _ _ o); auto. Qed.

  (* copies *)
  Definition keeps (cp : heap -> nat -> option nat -> res (heap * nat)) : Prop := forall h l p h' l', all_known h -> cp h l p = Ok (h', l') -> all_known h'.
  Lemma copy_list_known cp new : keeps cp -> forall l h h' ls, all_known h -> copy_list cp new l h = Ok (h', ls) -> all_known h'.
  Proof.
    intros C. induction l as [|c l IH]; intros h h' ls H E; cbn [copy_list] in E; [assert (h' = h) as -> by congruence; exact H|].
    destruct (cp h c (Some new)) as [[h1 c']|] eqn:E1; cbn [rbind] in E; [|discriminate]. destruct (copy_list cp new l h1) as [[h2 r]|] eqn:E2; cbn [rbind] in E; [|discriminate].
    assert (h' = h2) as -> by congruence. eapply IH; [|exact E2]. eapply C; eassumption.
  Qed.
  Lemma copy_dict_known cp new : keeps cp -> forall l h h' ls, all_known h -> copy_dict cp new l h = Ok (h', ls) -> all_known h'.
  Proof.
    intros C. induction l as [|[k c] l IH]; intros h h' ls H E; cbn [copy_dict] in E; [assert (h' = h) as -> by congruence; exact H|].
    destruct (cp h c (Some new)) as [[h1 c']|] eqn:E1; cbn [rbind] in E; [|discriminate]. destruct (copy_dict cp new l h1) as [[h2 r]|] eqn:E2; cbn [rbind] in E; [|discriminate].
    assert (h' = h2) as -> by congruence. eapply IH; [|exact E2]. eapply C; eassumption.
  Qed.
  Lemma copy_fields_known cp new o : keeps cp -> forall rows h h' fs, all_known h -> copy_fields cp new o rows h = Ok (h', fs) -> all_known h'.
  Proof.
    intros C. induction rows as [|[k m] rows IH]; intros h h' fs H E; cbn [copy_fields] in E; [assert (h' = h) as -> by congruence; exact H|].
    destruct (fget k (o_fields o)) as [f|]; [|discriminate]. destruct (copy_field cp new m f h) as [[h1 f']|] eqn:E1; cbn [rbind] in E; [|discriminate].
    destruct (copy_fields cp new o rows h1) as [[h2 r]|] eqn:E2; cbn [rbind] in E; [|discriminate]. assert (h' = h2) as -> by congruence. eapply IH; [|exact E2].
    destruct m; destruct f as [v|l|l|[x|]]; cbn [copy_field] in E1; try discriminate E1; try (assert (h1 = h) as -> by congruence; exact H).
    - destruct (copy_list cp new l h) as [[g r']|] eqn:E3; cbn [rbind] in E1; [|discriminate]. assert (h1 = g) as -> by congruence. exact (copy_list_known _ _ C _ _ _ _ H E3).
    - destruct (copy_dict cp new l h) as [[g r']|] eqn:E3; cbn [rbind] in E1; [|discriminate]. assert (h1 = g) as -> by congruence. exact (copy_dict_known _ _ C _ _ _ _ H E3).
    - destruct (cp h x (Some new)) as [[g r']|] eqn:E3; cbn [rbind] in E1; [|discriminate]. assert (h1 = g) as -> by congruence. exact (C _ _ _ _ _ H E3).
    - destruct (cp h x (Some new)) as [[g r']|] eqn:E3; cbn [rbind] in E1; [|discriminate]. assert (h1 = g) as -> by congruence. exact (C _ _ _ _ _ H E3).
  Qed.
  Lemma deepcopy_known n : keeps (deepcopy n).
  Proof.
    induction n as [|n IH]; intros h l p h' l' H E; cbn [deepcopy] in E; [discriminate|]. destruct (nth_error h l) as [o|] eqn:Eo; [|discriminate].
    assert (Ko : known o) by exact (proj1 (Forall_forall _ _) H _ (nth_error_In _ _ Eo)).
    destruct (copy_fields (deepcopy n) (length h) o (copied (o_kind o)) (h ++ [mkObj (o_kind o) p (o_args o) (o_ctx o) []])) as [[h1 fs]|] eqn:E1; cbn [rbind] in E; [|discriminate].
    assert (h' = update (length h) (mkObj (o_kind o) p (o_args o) (o_ctx o) fs) h1) as -> by congruence. apply update_known'; [|exact Ko].
    refine (copy_fields_known _ _ _ IH _ _ _ _ _ E1). apply app_known; [exact H|]. constructor; [exact Ko|constructor].
  Qed.
  Lemma copies_known n new l h h' ls : all_known h -> copy_list (deepcopy n) new l h = Ok (h', ls) -> all_known h'.
  Proof. apply copy_list_known, deepcopy_known. Qed.

  (* the tree *)
  Lemma joins_known l : forall b, (forall p, In p l -> root d done (node_tree (snd p))) -> all_known (b_heap b) -> all_known (b_heap (fold_left join_part l b)).
  Proof.
    induction l as [|p l IH]; intros b R H; cbn [fold_left]; [exact H|]. apply IH; [intros q Hq; apply R; right; exact Hq|]. unfold join_part.
    destruct (find _ (b_parts b)) as [[[x y] z]|]; [exact H|]. cbn [add_cells b_heap]. apply app_known; [exact H|].
    exact (cells_known _ _ (R p (or_introl eq_refl)) (dnode_from _ _ _)).
  Qed.
  Lemma headers_known l : forall b, (forall h, In h l -> root d done (header_tree h)) -> all_known (b_heap b) -> all_known (b_heap (fold_left add_header l b)).
  Proof.
    induction l as [|h l IH]; intros b R H; cbn [fold_left]; [exact H|]. apply IH; [intros q Hq; apply R; right; exact Hq|]. unfold add_header.
    destruct (locate KHeader (h_id h) (b_nums b)); [exact H|]. cbn [add_cells b_heap]. apply app_known; [exact H|].
    exact (cells_known _ _ (R h (or_introl eq_refl)) (header_from _ _ _)).
  Qed.
  Lemma document_from : cells_from (document_tree d) (document_cells d).
  Proof. apply with_content_from; [repeat split|]. eapply nodes_up; [left; reflexivity|]. apply place_cells. intros; apply dnode_from. Qed.
  Lemma toc_headers_are : forall t, toc_headers t = preorder t.
  Proof.
    intros t. reflexivity.
  Qed.
  Lemma tree_known : all_known (b_heap (build_tree d done)).
  Proof.
    unfold build_tree. apply headers_known; [|apply joins_known].
    - intros h Hh. apply in_flat_map in Hh as (a & Ha & Hh). destruct a; cbn [Build.headers_in In] in Hh; try destruct Hh as [].
      + eapply root_toc; [exact Ha|]. apply in_app_iff in Hh. apply in_app_iff. destruct Hh as [Hh|Hh]; [left|right; exact Hh]. apply in_flat_map in Hh as (t & Ht & Hh). rewrite toc_headers_are in Hh. apply in_flat_map. eauto.
      + subst. eapply root_link. exact Ha.
      + destruct H.
    - intros p Hp. apply in_flat_map in Hp as (a & Ha & Hp). apply (root_apart _ _ a); [exact Ha|]. destruct a; cbn [parts_of set_apart] in *; try destruct Hp as [].
      + subst. left. reflexivity.
      + destruct H.
      + apply in_map_iff in Hp as (f & <- & Hf). apply in_map_iff. exists f. split; [reflexivity|exact Hf].
      + apply in_map_iff in Hp as (kb & <- & Hf). apply in_map_iff. exists kb. split; [reflexivity|exact Hf].
    - cbn [b_heap]. exact (cells_known _ _ (root_document _ _) document_from).
  Qed.

  (* what is given in the end *)
  Lemma made_known k p fs : In k [KFootnote; KFootnotesItem; KTocItem; KBlockGroupItem] -> known (mkObj k p empty_args empty_context fs).
  Proof. intros H. apply appears_made. exact H. Qed.
  Lemma make_footnotes_known n l : forall b b', all_known (b_heap b) -> make_footnotes n b l = Ok b' -> all_known (b_heap b').
  Proof.
    induction l as [|f l IH]; intros b b' H E; cbn [make_footnotes] in E; [assert (b' = b) as -> by congruence; exact H|].
    destruct (make_footnote n b f) as [b1|] eqn:E1; cbn [rbind] in E; [|discriminate]. refine (IH _ _ _ E). unfold make_footnote in E1.
    destruct (find (same_foot f) (b_foots b)); [assert (b1 = b) as -> by congruence; exact H|]. destruct (find (same_body f) (b_parts b)) as [[[x y] body]|]; [|assert (b1 = b) as -> by congruence; exact H].
    match type of E1 with rbind ?m _ = _ => destruct m as [[h1 ls]|] eqn:E2 end; cbn [rbind] in E1; [|discriminate]. apply Ok_inv in E1. subst b1. cbn [b_heap].
    apply update_known'; [|apply made_known; left; reflexivity]. refine (copies_known _ _ _ _ _ _ _ E2). apply app_known; [exact H|]. constructor; [apply made_known; left; reflexivity|constructor].
  Qed.
  Lemma toc_known loc toc : forall t base, all_known (map fst (toc_cells loc toc base t)).
  Proof.
    fix IH 1. intros [h es] base. cbn [toc_cells with_content map fst]. constructor; [apply made_known; right; right; left; reflexivity|]. generalize (S base) as b. revert es.
    fix IHl 1. intros [|t es] b; cbn [place]; [constructor|]. pose proof (IH t b) as H1. pose proof (IHl es (b + length (toc_cells loc toc b t))) as H2.
    destruct (place (toc_cells loc toc) (b + length (toc_cells loc toc b t)) es) as [ls cs]. cbn [snd] in *. rewrite map_app. apply app_known; assumption.
  Qed.
  Lemma place_known {A} (f : nat -> A -> list cell) : (forall a base, all_known (map fst (f base a))) -> forall l base, all_known (map fst (snd (place f base l))).
  Proof.
    intros H. induction l as [|a l IH]; intros base; cbn [place]; [constructor|]. specialize (IH (base + length (f base a))). destruct (place f (base + length (f base a)) l) as [ls cs].
    cbn [snd] in *. rewrite map_app. apply app_known; [apply H|exact IH].
  Qed.
  Lemma place_items_known group made name node l : forall b b' r, all_known (b_heap b) -> place_items group made name node b l = (b', r) -> all_known (b_heap b').
  Proof.
    induction l as [|pos l IH]; intros b b' r H E; cbn [place_items] in E; [assert (b' = b) as -> by congruence; exact H|].
    destruct (place_item group made name node b pos) as [b1 i] eqn:E1. destruct (place_items group made name node b1 l) as [b2 r2] eqn:E2. assert (b' = b2) as -> by congruence. refine (IH _ _ _ _ E2).
    unfold place_item in E1. destruct (find (same_item made name pos) (b_items b)) as [[[[q1 q2] q3] q]|]; apply pair_equal_spec in E1 as [<- _]; cbn [set_heap b_heap].
    - apply put_parent_known, H.
    - apply app_known; [apply put_parent_known, H|]. constructor; [apply made_known; right; right; right; left; reflexivity|constructor].
  Qed.
  Lemma do_assign_known n a b b' : all_known (b_heap b) -> do_assign n done b a = Ok b' -> all_known (b_heap b').
  Proof.
    intros H E. destruct a as [id f|id l|id s|id nested plain|id t content|id made items]; cbn [do_assign] in E.
    - match type of E with rbind ?m _ = _ => destruct m as [b1|] eqn:E1 end; cbn [rbind] in E; [|discriminate]. pose proof (make_footnotes_known _ _ _ _ H E1) as H1.
      destruct (foot_loc b1 f); cbn [rbind] in E; [|discriminate]. apply Ok_inv in E. subst b'. destruct (locate _ _ _); cbn [set_heap b_heap]; [apply put_known|]; exact H1.
    - match type of E with rbind ?m _ = _ => destruct m as [b1|] eqn:E1 end; cbn [rbind] in E; [|discriminate]. pose proof (make_footnotes_known _ _ _ _ H E1) as H1.
      destruct (for_each (foot_loc b1) l) as [ls|]; cbn [rbind] in E; [|discriminate]. apply Ok_inv in E. subst b'. destruct (locate _ _ _) as [m|]; [|exact H1].
      pose proof (place_known (fun _ f => [(mkObj KFootnotesItem (Some m) empty_args empty_context [("footnote", One (Some f))]%string, None : option nat)])
        (fun a base => Forall_cons _ (made_known KFootnotesItem _ _ ltac:(right; left; reflexivity)) (Forall_nil _)) ls (length (b_heap b1))) as P.
      destruct (place _ (length (b_heap b1)) ls) as [items cs]. cbn [snd set_heap b_heap] in *. apply put_known, app_known; assumption.
    - apply Ok_inv in E. subst b'. destruct (locate _ _ _); cbn [set_heap b_heap]; [apply put_known|]; exact H.
    - destruct (locate KToc id (b_nums b)) as [m|]; [|apply Ok_inv in E; subst b'; exact H].
      pose proof (place_known (toc_cells (header_loc b) m) (fun a base => toc_known _ _ a base) nested (length (b_heap b))) as P.
      destruct (place (toc_cells (header_loc b) m) (length (b_heap b)) nested) as [items cs]. cbn [snd] in P.
      match type of E with rbind ?m _ = _ => destruct m as [[h1 ls]|] eqn:E1 end; cbn [rbind] in E; [|discriminate]. apply Ok_inv in E. subst b'. cbn [set_heap b_heap]. apply put_known.
      refine (copies_known _ _ _ _ _ _ _ E1). apply put_known, app_known; assumption.
    - destruct (locate KMacroHeader id (b_nums b)) as [m|]; [|apply Ok_inv in E; subst b'; exact H].
      pose proof (put_known _ m "header" (One (Some (header_loc b t))) H) as P. destruct (nodes_in _ m "content") in E.
      + match type of E with rbind ?m _ = _ => destruct m as [[h1 ls]|] eqn:E1 end; cbn [rbind] in E; [|discriminate]. apply Ok_inv in E. subst b'. cbn [set_heap b_heap]. apply put_known.
        exact (copies_known _ _ _ _ _ _ P E1).
      + apply Ok_inv in E. subst b'. exact P.
    - destruct (locate KBlockGroup id (b_nums b)) as [m|]; [|apply Ok_inv in E; subst b'; exact H].
      destruct (place_items id made (name_of (b_heap b) m) m b (map fst items)) as [b1 dd] eqn:E1. apply Ok_inv in E. subst b'. cbn [set_heap b_heap]. apply put_known.
      exact (place_items_known _ _ _ _ _ _ _ _ H E1).
  Qed.
  Lemma do_assigns_known n l : forall b b', all_known (b_heap b) -> do_assigns n done b l = Ok b' -> all_known (b_heap b').
  Proof.
    induction l as [|a l IH]; intros b b' H E; cbn [do_assigns] in E; [assert (b' = b) as -> by congruence; exact H|].
    destruct (do_assign n done b a) as [b1|] eqn:E1; cbn [rbind] in E; [|discriminate]. refine (IH _ _ _ E). exact (do_assign_known _ _ _ _ H E1).
  Qed.
  Lemma heap_known n h : heap_of n d done = Ok h -> all_known h.
  Proof.
    unfold heap_of. destruct (do_assigns n done (build_tree d done) done) as [b|] eqn:E; cbn [rbind]; [|discriminate]. intros K. apply Ok_inv in K. subst h.
    exact (do_assigns_known _ _ _ _ tree_known E).
  Qed.
End Written.
