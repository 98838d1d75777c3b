(* PropertiesDoc.v -- C57, C58, C38, C39: documents and lists *)
From Verif Require Import RunFacts SpecLists.
From Coq Require Import ZArith.

(* ------------------------------------------------------------------ C57 *)
Theorem C57_document_of_elements n cf e text o y :
  parse_document n cf e text o = Ok y ->
  exists m toks x0 els x, n = S m /\ lex_document (buffer text o) = Ok toks /\ dp_init e 0 [] [] = Ok x0 /\
    made_of toks els /\ act_all cf (dp_run m cf) els x0 x /\ dp_finalise cf (dx_env x0) x = Ok y.
Proof. apply dp_run_inv. Qed.

(* ------------------------------------------------------------------ C58 *)
Theorem C58_loops_end :
  (forall n cf e text o, parse_document n cf e text o <> Exc ExFuel) /\
  (forall depth e text o next, tp_run depth e text o next <> Exc ExFuel) /\
  (forall e text o, preprocess e text o <> Exc ExFuel) /\
  (forall e text o, parse_arguments e text o <> Exc ExFuel) /\
  (forall text o, parse_condition text o <> Exc ExFuel).
Proof.
  repeat split; intros.
  - apply dp_run_fine.
  - apply tp_run_fine.
  - apply preprocess_fine.
  - apply parse_arguments_fine.
  - apply parse_condition_fine.
Qed.

(* ------------------------------------------------------------------ C38 *)
Lemma is_hash_iff v : is_hash v = true <-> exists r, v = lit "#" ++ r.
Proof.
  unfold is_hash. destruct v as [|c v]; [split; [discriminate|intros (r & H); discriminate H]|].
  change (startswith (lit "#") (c :: v)) with (N.eqb 35 c && true). rewrite andb_true_r. split.
  - intros H. apply N.eqb_eq in H. subst c. exists v. reflexivity.
  - intros (r & H). injection H as H _. rewrite H. reflexivity.
Qed.
Lemma nested_covers l its nodes : nested l its nodes -> covers its nodes.
Proof.
  induction 1 as [l|l i its nodes _ _ IH|l i subs its inner nodes _ _ _ _ IH1 _ IH2]; [constructor|constructor; assumption|].
  change (i :: subs ++ its) with ((i :: subs) ++ its). apply cov_list; [constructor; exact IH1|apply is_hash_iff|exact IH2].
Qed.
Lemma covers_leaves its nodes : covers its nodes -> flat_map leaves nodes = flat_map (fun j => leaves (snd j)) its.
Proof.
  induction 1 as [|i its nodes _ IH|i subs inner o a its nodes _ IH1 _ _ IH2]; [reflexivity|cbn; rewrite IH; reflexivity|].
  rewrite flat_map_app, <- IH1, <- IH2. reflexivity.
Qed.
Lemma nested_in l its nodes : Forall (fun i => exists c ctx, snd i = DItem (level i) c ctx) its -> nested l its nodes -> Forall (in_list l) nodes.
Proof.
  intros H Hn. induction Hn as [l|l i its nodes Hl Hn IH|l i subs its inner nodes Hl Hs Hr Hn1 IH1 Hn2 IH2]; [constructor| |].
  - inversion H as [|? ? (c & ctx & E) H']. subst. constructor; [rewrite E; constructor|exact (IH H')].
  - inversion H as [|? ? (c & ctx & E) H']. subst. apply Forall_app in H' as [H1 H2]. constructor; [|exact (IH2 H2)].
    rewrite E. apply in_sub with (l' := level i); [exact Hl|exact (IH1 H1)].
Qed.
Lemma item_node cf h t x n x' : runs (dp_do_item cf h t) x n x' -> exists c ctx, n = DItem (length (t_value h)) c ctx.
Proof.
  intros H. specialize (H []). unfold dp_do_item, pbind in H. destruct (dp_text cf _ _ _) as [s [c|]]; [|discriminate H].
  destruct (first_last c s) as [s' [fl|]]; [|discriminate H]. injection H as _ <-. eauto.
Qed.
Lemma reads_item_nodes cf items x its x' : reads_items cf items x its x' -> Forall (fun i => exists c ctx, snd i = DItem (level i) c ctx) its.
Proof. induction 1 as [|h t r x n x1 its x2 H _ IH]; constructor; [exact (item_node _ _ _ _ _ _ H)|exact IH]. Qed.

Theorem C38_list_tree cf run items x x' : acts cf run (EItems items) x x' ->
  exists i its nodes x1, reads_items cf items x (i :: its) x1 /\ map fst (i :: its) = items /\
    (* every item in document order, with its level and content *)
    Forall (fun j => exists c ctx, snd j = DItem (level j) c ctx) (i :: its) /\
    flat_map leaves (snd i :: nodes) = flat_map (fun j => leaves (snd j)) (i :: its) /\
    (* the tree *)
    Forall (in_list (level i)) (snd i :: nodes) /\ covers its nodes /\ nested (level i) its nodes /\
    (* the list in the document, unless a condition excludes it *)
    exists o start a, (o = true <-> exists r, t_value (fst (fst i)) = lit "#" ++ r) /\
      (adds x x' (DList o true start (snd i :: nodes) a) \/ adds_nothing x x').
Proof.
  intros (i & its & nodes & x1 & H1 & H2 & H3). exists i, its, nodes, x1. split; [exact H1|].
  split; [exact (reads_items_fst _ _ _ _ _ H1)|]. pose proof (reads_item_nodes _ _ _ _ _ H1) as Hi. split; [exact Hi|].
  pose proof (nested_covers _ _ _ H2) as Hc. split; [cbn [flat_map]; rewrite (covers_leaves _ _ Hc); reflexivity|].
  inversion Hi as [|? ? (c & ctx & E) Hi']. subst.
  split; [constructor; [rewrite E; constructor|exact (nested_in _ _ _ Hi' H2)]|]. split; [exact Hc|]. split; [exact H2|].
  destruct (runs_items _ _ _ _ _ H1) as (ms & hs & nx & ->).
  apply do_list_inv in H3 as (start & latest & lctx & ok & Ha & -> & _). do 3 eexists. split; [apply is_hash_iff|].
  destruct ok; [left; reflexivity|right; reflexivity].
Qed.

(* the tree is determined by the items *)
Definition sub_list (i : item) (inner : list dnode) : dnode :=
  DList (is_hash (t_value (fst (fst i)))) false 1 (snd i :: inner)
         (mkAttrs empty_args [] (merge_contexts (t_ctx (fst (fst i))) (dnode_ctx (last (snd i :: inner) (snd i))))).
Lemma nested_inv l i r n : nested l (i :: r) n ->
  (level i = l /\ exists nodes, n = snd i :: nodes /\ nested l r nodes) \/
  (l < level i /\ exists subs its inner nodes, r = subs ++ its /\ Forall (fun j => level i <= level j) subs /\
     (forall j r, its = j :: r -> level j < level i) /\ nested (level i) subs inner /\ nested l its nodes /\ n = sub_list i inner :: nodes).
Proof.
  intros H. inversion H; subst.
  - left. split; [reflexivity|]. eexists; split; [reflexivity|assumption].
  - right. split; [assumption|]. do 4 eexists. split; [reflexivity|]. split; [eassumption|]. split; [assumption|]. split; [eassumption|]. split; [eassumption|]. reflexivity.
Qed.
Theorem C38_unique l its n1 : nested l its n1 -> forall n2, nested l its n2 -> n1 = n2.
Proof.
  induction 1 as [l|l i its nodes Hl Hn IH|l i subs its inner nodes Hl Hs Hr Hn1 IH1 Hn2 IH2]; intros n2 H.
  - inversion H. reflexivity.
  - apply nested_inv in H as [(_ & n' & -> & H)|(K & _)]; [f_equal; auto|lia].
  - apply nested_inv in H as [(K & _)|(_ & subs' & its' & inner' & nodes' & E & Hs' & Hr' & Hn1' & Hn2' & ->)]; [lia|].
    assert (subs' = subs /\ its' = its) as [-> ->].
    { clear - Hs Hs' Hr Hr' E. revert subs' Hs' E. induction subs as [|a subs IH]; intros subs' Hs' E.
      - destruct subs' as [|b subs']; [cbn in E; auto|]. cbn in E. exfalso. subst its. specialize (Hr b _ eq_refl). inversion Hs'. lia.
      - inversion Hs as [|? ? Ha Hs2]; subst. destruct subs' as [|b subs'].
        + cbn in E. exfalso. subst its'. specialize (Hr' a _ eq_refl). lia.
        + injection E as -> E. inversion Hs'; subst. destruct (IH Hs2 subs' ltac:(assumption) E) as [-> ->]. auto. }
    rewrite (IH1 _ Hn1'), (IH2 _ Hn2'). reflexivity.
Qed.

(* ------------------------------------------------------------------ C39 *)
Lemma acts_latest cf m el x x' : not_list el -> acts cf (dp_run m cf) el x x' -> dx_latest x' = dx_latest x.
Proof.
  intros Hn H. assert (R : forall e n d f t o, fine_res (dp_run m cf e n d f t o)) by (intros; apply dp_run_fine).
  destruct el as [t|t|o n c v|r t|o op c|o t c|h t|o t c|o ty args|items|ls]; cbn [acts] in H; try (exfalso; exact (Hn _ eq_refl)).
  - apply runs_ret in H as [_ ->]. reflexivity.
  - apply do_rule_inv in H as (ok & _ & ->). destruct ok; reflexivity.
  - apply do_variable_inv in H as (k & s & _ & ->). reflexivity.
  - apply do_label_inv in H as (nodes & ms & hs & next & ->). reflexivity.
  - apply do_control_inv in H as (k & _ & ->). reflexivity.
  - apply do_arguments_inv in H as (p & _ & ->). reflexivity.
  - apply do_header_inv in H as (nodes & ms & hs & next & ctx & [|] & _ & _ & H); [destruct H as (links & _ & ->)|subst]; reflexivity.
  - apply do_block_inv in H as (node & a & nctx & y & H1 & H); [|exact R].
    assert (E : dx_latest y = dx_latest x).
    { apply engine_inv in H1 as [(-> & _)|(_ & t' & y' & _ & _ & _ & -> & _)]; [reflexivity|unfold after_child; destruct (isolated _); reflexivity|exact R]. }
    destruct (nonempty (dget (lit "footnote") _)); [destruct H as (k & _ & ->); exact E|].
    destruct (nonempty (dget (lit "group") _)); [|destruct H as (ok & _ & ->); destruct ok; exact E].
    destruct (nonempty (dget (lit "position") _)); [destruct H as (k & _ & ->); exact E|destruct H as (ok & _ & ->); destruct ok; exact E].
  - apply element_include_inv in H as (a & _ & H). apply do_include_inv in H as (node & a' & y & ok & _ & F & _ & ->); [|exact R].
    destruct F as (_ & _ & _ & _ & _ & F & _). destruct ok; exact F.
  - apply do_paragraph_inv in H as (lines & ms & hs & next & ctx & ok & _ & ->). destruct ok; reflexivity.
Qed.
Lemma act_all_latest cf m els x x' : Forall not_list els -> act_all cf (dp_run m cf) els x x' -> dx_latest x' = dx_latest x.
Proof.
  intros Hf H. induction H as [x|el els x y z H _ IH]; [reflexivity|]. inversion Hf; subst. rewrite (IH ltac:(assumption)).
  eapply acts_latest; eassumption.
Qed.
Lemma list_acts cf run items x x' : acts cf run (EItems items) x x' -> exists o start content a,
  (adds x x' (DList o true start content a) \/ adds_nothing x x') /\ (exists l c ctx r, content = DItem l c ctx :: r) /\
  dx_latest x' = (start + Z.of_nat (length content))%Z /\
  match pending_arg x "start" with
  | None => start = 1%Z
  | Some v => if str_eqb v (lit "auto") then start = dx_latest x else py_int v = Ok start
  end.
Proof.
  intros (i & its & nodes & x1 & H1 & H2 & H3). pose proof (reads_item_nodes _ _ _ _ _ H1) as Hi. destruct (runs_items _ _ _ _ _ H1) as (ms & hs & nx & ->).
  apply do_list_inv in H3 as (start & latest & ctx & ok & Ha & -> & El & Es). do 4 eexists. split.
  { destruct ok; [left; reflexivity|right; reflexivity]. }
  split; [inversion Hi as [|? ? (c & k & E) _]; rewrite E; eauto|]. split.
  - rewrite <- El. destruct ok; reflexivity.
  - change (dx_args (mentions x ms hs nx)) with (dx_args x) in Es. unfold pending_arg. destruct (dx_args x); exact Es.
Qed.

(* The list after a list, with other things between them, continues its numbering if
   the first list has no list inside.  (What happens otherwise is below.) *)
Theorem C39_auto_continues_partial cf m x items1 x1 mid x2 items2 x3 o1 start1 content1 a1 o2 start2 content2 a2 :
  acts cf (dp_run m cf) (EItems items1) x x1 -> adds x x1 (DList o1 true start1 content1 a1) ->
  act_all cf (dp_run m cf) mid x1 x2 -> Forall not_list mid ->
  acts cf (dp_run m cf) (EItems items2) x2 x3 -> adds x2 x3 (DList o2 true start2 content2 a2) ->
  pending_arg x2 "start" = Some (lit "auto") -> Forall is_item content1 ->
  item_numbers start1 content1 <> [] /\ start2 = (last (item_numbers start1 content1) 0 + 1)%Z.
Proof.
  intros H1 A1 Hm Hl H2 A2 Hp Hf. apply list_acts in H1 as (o & s & c & a & K1 & (l' & c' & k' & r' & Ec) & L1 & _).
  apply list_acts in H2 as (o' & s' & c2 & a' & K2 & _ & _ & S2). rewrite Hp in S2. rewrite str_eqb_refl in S2.
  assert (N : forall (l : list dnode) n, l <> l ++ [n]).
  { intros l n E. apply (f_equal (@length dnode)) in E. rewrite app_length in E. cbn in E. lia. }
  destruct K1 as [K1|K1]; [|exfalso; unfold adds, adds_nothing in *; rewrite K1 in A1; exact (N _ _ A1)].
  destruct K2 as [K2|K2]; [|exfalso; unfold adds, adds_nothing in *; rewrite K2 in A2; exact (N _ _ A2)].
  unfold adds in *. rewrite K1 in A1. apply app_inj_tail in A1 as [_ A1]. injection A1 as -> -> -> ->.
  rewrite K2 in A2. apply app_inj_tail in A2 as [_ A2]. injection A2 as -> -> -> ->.
  rewrite (act_all_latest _ _ _ _ _ Hl Hm), L1 in S2. rewrite S2.
  assert (Q : forall c0 s0, Forall is_item c0 -> c0 <> [] -> item_numbers s0 c0 <> [] /\ (s0 + Z.of_nat (length c0) = last (item_numbers s0 c0) 0 + 1)%Z).
  { clear. induction c0 as [|n c0 IH]; intros s0 Hf Hne; [contradiction|]. inversion Hf as [|? ? (l & c & k & ->) Hf']; subst.
    split; [discriminate|]. destruct c0 as [|n' c0]; [cbn; lia|]. destruct (IH (s0 + 1)%Z Hf') as [Hx Hy]; [discriminate|].
    change (item_numbers s0 (DItem l c k :: n' :: c0)) with (s0 :: item_numbers (s0 + 1) (n' :: c0)).
    destruct (item_numbers (s0 + 1) (n' :: c0)) as [|z zs] eqn:E; [contradiction|].
    assert (L : last (s0 :: z :: zs) 0%Z = last (z :: zs) 0%Z) by reflexivity. rewrite L. clear L E. cbn [length] in *. lia. }
  apply Q; [exact Hf|rewrite Ec; discriminate].
Qed.

(* In general: a list starts at the number given, at 1, or (auto) where the previous
   list, ordered or not, in the document or not, would go on if the lists inside it
   were items; at 0 if there is none. *)
Theorem C39_start cf m x items x' : acts cf (dp_run m cf) (EItems items) x x' ->
  exists o start content a, (adds x x' (DList o true start content a) \/ adds_nothing x x') /\
    dx_latest x' = (start + Z.of_nat (length content))%Z /\
    match pending_arg x "start" with
    | None => start = 1%Z
    | Some v => if str_eqb v (lit "auto") then start = dx_latest x else py_int v = Ok start
    end.
Proof. intros H. apply list_acts in H as (o & s & c & a & K & _ & L & S). exists o, s, c, a. auto. Qed.
Theorem C39_other_elements cf m els x x' : Forall not_list els -> act_all cf (dp_run m cf) els x x' -> dx_latest x' = dx_latest x.
Proof. apply act_all_latest. Qed.

(* examples and witnesses *)
Definition cf0 : config := mkConfig (fun _ => Missing) (fun _ => lit "id") (fun _ => lit "fid") 100.
(* a text written with | at the end of each line *)
Definition mau (s : string) : str := map (fun c => if (c =? 124)%N then NL else c) (lit s).
Definition doc (s : string) : res (list dnode) := rmap dx_nodes (parse_document 5 cf0 env_empty (mau s) (mkOrigin 0 0 None)).
Definition starts (r : res (list dnode)) : res (list (bool * Z * list nat)) :=
  rmap (flat_map (fun n => match n with DList o _ s c _ => [(o, s, map (fun n => length (leaves n)) c)] | _ => [] end)) r.
(* the levels and the depths of the items, and the kind of each list *)
Fixpoint outline (n : dnode) : list (bool * nat * nat) :=
  match n with
  | DItem l c _ => [(false, l, 0)]
  | DList o _ _ content _ => (o, 0, 0) :: map (fun t => (fst (fst t), snd (fst t), S (snd t))) (flat_map outline content)
  | _ => []
  end.
Example C38_ex : rmap (flat_map outline) (doc "* a|### b|### c|## d|# e|") =
  Ok [(false, 0, 0); (false, 1, 1); (true, 0, 1); (false, 3, 2); (false, 3, 2); (true, 0, 1); (false, 2, 2); (false, 1, 1)].
Proof. vm_compute. reflexivity. Qed.
Example C57_ex : rmap (@length dnode) (doc "= A|:v:1|. label|[a]|text {v}|more||* one|* two||<< toc||----|block|----||---") = Ok 6.
Proof. vm_compute. reflexivity. Qed.
Example C39_ex : starts (doc "[start=5]|# a|# b||text||[start=auto]|# c") = Ok [(true, 5%Z, [1; 1]); (true, 7%Z, [1])].
Proof. vm_compute. reflexivity. Qed.
(* a list inside the list counts as an item *)
Theorem C39_refuted_nested : starts (doc "# a|## b||[start=auto]|# c") = Ok [(true, 1%Z, [1; 1]); (true, 3%Z, [1])].
Proof. vm_compute. reflexivity. Qed.
(* an unordered list moves the counter *)
Theorem C39_refuted_unordered : starts (doc "# a||* x|* y||[start=auto]|# c") = Ok [(true, 1%Z, [1]); (false, 1%Z, [1; 1]); (true, 3%Z, [1])].
Proof. vm_compute. reflexivity. Qed.
(* the first list starts at 0 *)
Theorem C39_first_auto : starts (doc "[start=auto]|# a") = Ok [(true, 0%Z, [1])].
Proof. vm_compute. reflexivity. Qed.
