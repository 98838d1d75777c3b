(* PropertiesFrames.v -- C84: the boxes of the nodes *)
From Verif Require Import SimFacts RunFacts DocFacts TermFacts SpecFrames SpecLists PlaceRun PropertiesErrors PropertiesDoc PropertiesInclude PropertiesPlaces PropertiesTree.
From Verif Require Import PropertiesLexer SpecFrames.
From Coq Require Import List Lia PeanoNat Sorted.
Import ListNotations.
#[local] Open Scope list_scope.
#[local] Notation length := List.length.

Lemma covers_refl c : covers c c.
Proof. unfold covers. lia. Qed.
Lemma covers_trans a b c : covers a b -> covers b c -> covers a c.
Proof. unfold covers. lia. Qed.
Lemma covers_l a b : covers (merge_contexts a b) a.
Proof. apply C10_merge_covers_both. Qed.
Lemma covers_r a b : covers (merge_contexts a b) b.
Proof. apply C10_merge_covers_both. Qed.
Lemma merge_least a b : least_box (merge_contexts a b) [a; b].
Proof.
  destruct (C10_merge_covers_both a b) as (H1 & H2 & _ & H3). split; [auto|]. intros c' H. inversion H as [|? ? Ha H']; subst. inversion H' as [|? ? Hb _]; subst. auto.
Qed.
Lemma merge_least3 a b c : least_box (merge_contexts a (merge_contexts b c)) [a; b; c].
Proof.
  destruct (C10_merge_covers_both a (merge_contexts b c)) as (H1 & H2 & _ & H3). destruct (C10_merge_covers_both b c) as (K1 & K2 & _ & K3).
  split; [constructor; [exact H1|constructor; [eapply covers_trans; eassumption|constructor; [eapply covers_trans; eassumption|constructor]]]|].
  intros c' H. inversion H as [|? ? Ha H']; subst. inversion H' as [|? ? Hb H'']; subst. inversion H'' as [|? ? Hc _]; subst. auto.
Qed.
Lemma last_split {A} (l : list A) a r : l = a :: r -> exists before, l = before ++ [last l a].
Proof.
  intros ->. revert a. induction r as [|b r IH]; intros a; [exists []; reflexivity|]. destruct (IH b) as [before E]. exists (a :: before). cbn [app].
  change (last (a :: b :: r) a) with (last (b :: r) a). assert (K : forall d d', last (b :: r) d = last (b :: r) d'); [|rewrite (K a b), <- E; reflexivity].
  clear. revert b. induction r as [|c r IH]; intros b d d'; [reflexivity|]. exact (IH c d d').
Qed.
Lemma one_more {A} (l : list A) a b : l ++ [a] = l ++ [b] -> a = b.
Proof. intros H. apply app_inv_head in H. congruence. Qed.
Lemma not_more {A} (l : list A) a : l = l ++ [a] -> False.
Proof. intros H. apply (f_equal (@length A)) in H. rewrite app_length in H. cbn in H. lia. Qed.

(* the node that is added at the end of an element *)
Lemma finish_adds n x b z m : runs (dp_finish n) x b z -> adds x z m -> m = n.
Proof.
  intros H Ha. apply runs_finish in H as (ok & _ & ->). unfold adds in Ha. destruct ok; cbn [set_nodes set_control dx_nodes] in Ha; [symmetry; exact (one_more _ _ _ Ha)|destruct (not_more _ _ Ha)].
Qed.

Section Frames.
  Context (cf : config) (run : run_fn) (run_ok : forall e n d f t o, fine_res (run e n d f t o)).

  Lemma line_nodes_ctx ls : forall x r z, runs (dp_line_nodes cf ls) x r z -> map snd r = map t_ctx ls /\ dx_nodes z = dx_nodes x.
  Proof.
    induction ls as [|t ls IH]; intros x r z H; cbn [dp_line_nodes] in H.
    - apply runs_ret in H as [-> ->]. auto.
    - apply runs_bind_inv in H as (nodes & y & H1 & H); [|apply text_quiet]. apply runs_bind_inv in H as (rest & y2 & H2 & H); [|apply line_nodes_quiet]. apply runs_ret in H as [-> ->].
      apply runs_text in H1 as (a & b & c & ->). apply IH in H2 as [E1 E2]. cbn [map snd]. rewrite E1. split; [reflexivity|exact E2].
  Qed.
  Lemma paragraph_frame ls x z n : runs (dp_do_paragraph cf ls) x true z -> adds x z n -> framed (EParagraph ls) n.
  Proof.
    intros H Ha. unfold dp_do_paragraph in H. apply runs_bind_inv in H as (lines & y & H1 & H); [|apply line_nodes_quiet]. apply line_nodes_ctx in H1 as [E1 E2].
    apply runs_pop_args in H. apply runs_first_last in H as (f & r & E & H). apply runs_pop_labels in H. apply finish_adds with (m := n) in H; [|unfold adds in *; cbn [set_labels set_args dx_nodes]; rewrite E2; exact Ha].
    destruct ls as [|t ls]; [subst lines; discriminate E1|]. destruct (last_split (t :: ls) t ls eq_refl) as [before Eb]. destruct (last_split lines f r E) as [before' Eb'].
    assert (K1 : snd f = t_ctx t) by (subst lines; cbn in E1; congruence).
    assert (K2 : snd (last lines f) = t_ctx (last (t :: ls) t)).
    { rewrite Eb, Eb', !map_app in E1. cbn [map] in E1. apply app_inj_tail in E1 as [_ E1]. exact E1. }
    exists lines. eexists. exists t, (last (t :: ls) t), before. split; [exact H|]. split; [exact E1|]. split; [reflexivity|]. split; [exact Eb|]. subst n. cbn [dnode_ctx at_ctx fst snd]. rewrite K1, K2. split; [reflexivity|apply merge_least].
  Qed.
  Lemma header_frame h t x z n : runs (dp_do_header cf h t) x true z -> adds x z n -> framed (EHeader h t) n.
  Proof.
    intros H Ha. unfold dp_do_header in H. apply runs_fresh in H. apply runs_bind_inv in H as (nodes & y & H1 & H); [|apply text_quiet].
    apply runs_text in H1 as (ms & hs & next & ->). apply runs_pop_args in H. cbn [pop_arg] in H. apply runs_first_last in H as (u & r & E & H).
    apply runs_pop_labels in H. apply runs_admitted in H as (ok & Hok & H). destruct ok; [|apply runs_ret in H as [_ ->]; destruct (not_more _ _ Ha)].
    match type of H with context [DHeader ?h0] => remember h0 as hh eqn:Eh end.
    assert (K : n = DHeader hh).
    { apply runs_bind_inv in H as (v & y & H1 & H).
      2:{ destruct (dget (lit "name") _) as [[|c nm]|]; try (apply quiet_ret). quiet. apply quiet_lift, hm_add_fine. }
      apply runs_pmod in H. unfold dp_save in H. apply runs_pmod in H. apply runs_ret in H as [_ ->]. unfold adds in Ha. cbn [set_nodes set_toc dx_nodes] in Ha.
      assert (Ey : dx_nodes y = dx_nodes x).
      { destruct (dget (lit "name") _) as [[|c nm]|]; [apply runs_ret in H1 as [_ ->]; reflexivity| |apply runs_ret in H1 as [_ ->]; reflexivity].
        apply runs_pget in H1. apply runs_lift in H1 as (m & _ & H1). specialize (H1 []). unfold pmod in H1. injection H1 as H1 _. rewrite <- H1. reflexivity. }
      rewrite Ey in Ha. symmetry. exact (one_more _ _ _ Ha). }
    destruct (last_split nodes u r E) as [before Eb]. exists hh, (last nodes u), before. split; [exact K|]. assert (Ec : h_content hh = nodes) by (subst hh; reflexivity). rewrite Ec. split; [exact Eb|].
    assert (Ex : dnode_ctx n = merge_contexts (t_ctx h) (merge_contexts (inode_ctx u) (inode_ctx (last nodes u)))) by (subst n hh; reflexivity). rewrite Ex. split; [reflexivity|]. exists u. split; [rewrite E; reflexivity|apply merge_least3].
  Qed.
  Lemma engine_node en ctx c cl a x node a' nctx z : runs (dp_engine run en ctx c cl a) x (node, a', nctx) z -> dx_nodes z = dx_nodes x /\ forall b, dnode_ctx (node b) = at_ctx b.
  Proof.
    intros H. pose proof (engine_inv run run_ok _ _ _ _ _ _ _ _ _ _ H) as Inv. split.
    - destruct Inv as [[-> _]|(_ & t & y & _ & _ & _ & -> & _)]; [reflexivity|]. unfold after_child. destruct (isolated a); reflexivity.
    - unfold dp_engine in H. destruct (str_eqb_spec en (lit "default")) as [->|_].
      + destruct Inv as [[_ K]|(_ & t & y & _ & _ & _ & _ & _ & -> & _)]; [destruct (K eq_refl) as (_ & _ & -> & _)|]; intros b; reflexivity.
      + destruct (str_eqb en (lit "raw")); [apply runs_ret in H as [E _]; apply pair_equal_spec in E as [E _]; apply pair_equal_spec in E as [-> _]; intros b; reflexivity|].
        destruct (str_eqb en (lit "source")); [|destruct (runs_raise _ _ _ _ H)].
        assert (S : forall cl', runs (pret (DSource cl' None [], a, empty_context)) x (node, a', nctx) z -> forall b, dnode_ctx (node b) = at_ctx b) by (intros cl' K; apply runs_ret in K as [E _]; apply pair_equal_spec in E as [E _]; apply pair_equal_spec in E as [-> _]; intros b; reflexivity).
        destruct c as [t|]; [|exact (S _ H)]. destruct (token_truthy t); [|exact (S _ H)]. apply runs_pget in H. apply runs_lift in H as ([[lg lines] a3] & _ & H). apply runs_ret in H as [E _]. apply pair_equal_spec in E as [E _]; apply pair_equal_spec in E as [-> _]; intros b; reflexivity.
  Qed.
  Lemma block_frame o t c x z n : runs (dp_do_block run o t c) x true z -> adds x z n -> framed (EBlock o t c) n.
  Proof.
    intros H Ha. apply (do_block_inv run run_ok) in H as (node & a & nctx & y & H1 & H). apply engine_node in H1 as [E1 E2].
    assert (K : forall l, n = node (mkAttrs a l (merge_contexts (t_ctx o) (t_ctx c))) -> framed (EBlock o t c) n) by (intros l ->; cbn [framed]; rewrite E2; split; [reflexivity|apply merge_least]).
    cbn [set_args dx_nodes] in E1. unfold adds in Ha.
    destruct (nonempty (dget (lit "footnote") _)) as [name|]; [destruct H as (m & _ & ->); cbn [set_foot set_labels dx_nodes] in Ha; rewrite E1 in Ha; destruct (not_more _ _ Ha)|].
    assert (F : (exists ok, admitted (set_labels y []) ok /\
      z = (if ok then set_nodes (set_control (set_labels y []) None) (dx_nodes y ++ [node (mkAttrs a (dx_labels y) (merge_contexts (t_ctx o) (t_ctx c)))]) else set_control (set_labels y []) None)) -> framed (EBlock o t c) n).
    { intros (ok & _ & ->). destruct ok; cbn [set_nodes set_control set_labels dx_nodes] in Ha; rewrite E1 in Ha; [|destruct (not_more _ _ Ha)]. apply (K (dx_labels y)). symmetry. exact (one_more _ _ _ Ha). }
    destruct (nonempty (dget (lit "group") _)) as [g|]; [|exact (F H)]. destruct (nonempty (dget (lit "position") _)) as [p|]; [|exact (F H)].
    destruct H as (m & _ & ->). cbn [set_groups set_labels dx_nodes] in Ha. rewrite E1 in Ha. destruct (not_more _ _ Ha).
  Qed.
  Lemma include_node_ctx ty ctx a x node a' z : runs (include_node cf run ty ctx a) x (node, a') z -> forall b, dnode_ctx (node b) = at_ctx b.
  Proof.
    assert (P : forall (f : attrs -> dnode) (a0 : node_args), (forall b, dnode_ctx (f b) = at_ctx b) -> (node, a') = (f, a0) -> forall b, dnode_ctx (node b) = at_ctx b) by (intros f a0 Hf E; apply pair_equal_spec in E as [-> _]; exact Hf).
    intros H. unfold include_node in H. destruct (str_eqb _ _).
    { unfold dp_image in H. cbn [pop_arg] in H. apply runs_need_uri in H as (uri & _ & _ & H). apply runs_ret in H as [E _]. refine (P _ _ _ E). reflexivity. }
    destruct (str_eqb _ _).
    { apply mau_inv in H as (uri & text & e & y & _ & _ & _ & _ & _ & -> & _). intros b; reflexivity. }
    destruct (str_eqb _ _).
    { unfold dp_include_raw in H. cbn [pop_arg] in H. apply runs_need_uri in H as (uri & _ & _ & H). apply runs_read in H as (t & _ & H). apply runs_ret in H as [E _]. refine (P _ _ _ E). reflexivity. }
    destruct (str_eqb _ _).
    { apply runs_bind_inv in H as (f & y & H1 & H); [|unfold dp_toc; apply quiet_bind; [apply fresh_quiet|]; intros id; quiet].
      unfold dp_toc in H1. apply runs_fresh in H1. apply runs_pmod in H1. apply runs_ret in H1 as [-> ->]. apply runs_ret in H as [E _]. refine (P _ _ _ E). reflexivity. }
    destruct (str_eqb _ _).
    { apply runs_bind_inv in H as (f & y & H1 & H); [|unfold dp_footnotes; apply quiet_bind; [apply fresh_quiet|]; intros id; quiet].
      unfold dp_footnotes in H1. apply runs_fresh in H1. apply runs_pmod in H1. apply runs_ret in H1 as [-> ->]. apply runs_ret in H as [E _]. refine (P _ _ _ E). reflexivity. }
    destruct (str_eqb _ _); [|apply runs_ret in H as [E _]; refine (P _ _ _ E); reflexivity].
    unfold dp_blockgroup in H. cbn [pop_arg] in H. destruct (dget (lit "group") _) as [g|]; [|destruct (runs_raise _ _ _ _ H)].
    apply runs_fresh in H. apply runs_pmod in H. apply runs_ret in H as [E _]. refine (P _ _ _ E). reflexivity.
  Qed.
  Lemma include_el_frame o ty args x z n : runs (do_element cf run (EInclude o ty args)) x true z -> adds x z n -> framed (EInclude o ty args) n.
  Proof.
    intros H Ha. apply element_include_inv in H as (a & _ & H). apply (do_include_inv cf run run_ok) in H as (node & a' & y & ok & H1 & _ & _ & ->).
    unfold adds in Ha. destruct ok; cbn [set_nodes set_control set_labels set_args dx_nodes] in Ha.
    - apply one_more in Ha. subst n. cbn [framed]. rewrite (include_node_ctx _ _ _ _ _ _ _ H1). cbn [at_ctx]. split; [reflexivity|apply merge_least].
    - pose proof (include_node_frame cf run _ _ _ _ _ _ H1) as (F & _). cbn [set_args dx_nodes] in F. rewrite F in Ha. destruct (not_more _ _ Ha).
  Qed.

  (* the items of a list *)
  Definition marked (i : item) : Prop := covers (dnode_ctx (snd i)) (t_ctx (fst (fst i))) /\ c_source (dnode_ctx (snd i)) = c_source (t_ctx (fst (fst i))).
  Lemma items_marked items x its z : reads_items cf items x its z -> map fst its = items /\ Forall marked its /\ dx_nodes z = dx_nodes x.
  Proof.
    intros H. induction H as [x|h t r x n x1 its x2 H1 _ (I1 & I2 & I3)]; [auto|]. unfold dp_do_item in H1. apply runs_bind_inv in H1 as (c & y & H2 & H1); [|apply text_quiet].
    apply runs_text in H2 as (a & b & k & ->). apply runs_first_last in H1 as (u & l & E & H1). apply runs_ret in H1 as [-> ->]. cbn [map fst]. rewrite I1, I3. split; [reflexivity|]. split; [|reflexivity]. constructor; [|exact I2].
    unfold marked. cbn [snd fst dnode_ctx]. split; [apply (C10_merge_covers_both (t_ctx h))|reflexivity].
  Qed.
  (* the last node covers the last marker *)
  Lemma nested_last l its nodes : nested l its nodes -> Forall marked its -> forall d i0, covers (dnode_ctx d) (t_ctx (fst (fst i0))) -> covers (dnode_ctx (last (d :: nodes) d)) (t_ctx (fst (fst (last (i0 :: its) i0)))).
  Proof.
    assert (L : forall A (a b : A) r d, last (a :: b :: r) d = last (b :: r) b).
    { intros A a b r d. change (last (a :: b :: r) d) with (last (b :: r) d). revert b d. induction r as [|c r IH]; intros b d; [reflexivity|]. change (last (c :: r) d = last (c :: r) b). clear. revert c d b. induction r as [|e r IH]; intros c d b; [reflexivity|]. exact (IH e d b). }
    intros H. induction H as [l|l i its nodes _ _ IH|l i subs its inr nodes _ _ _ _ IH1 _ IH2]; intros Hm d i0 Hd; [exact Hd| |].
    - inversion Hm as [|? ? M1 M2]; subst. rewrite !L. apply (IH M2). apply M1.
    - inversion Hm as [|? ? M1 M2]; subst. apply Forall_app in M2 as [M2 M3]. rewrite !L.
      match goal with |- covers (dnode_ctx (last (?s :: nodes) ?s)) _ => set (sub := s) end.
      assert (Hs : covers (dnode_ctx sub) (t_ctx (fst (fst (last (i :: subs) i))))).
      { unfold sub. cbn [dnode_ctx at_ctx]. eapply covers_trans; [apply covers_r|]. apply (IH1 M2). apply M1. }
      specialize (IH2 M3 sub (last (i :: subs) i) Hs).
      assert (E : last (i :: subs ++ its) i = last (last (i :: subs) i :: its) (last (i :: subs) i)); [|rewrite E; exact IH2].
      clear. destruct its as [|j r]; [rewrite app_nil_r; reflexivity|]. change (i :: subs ++ j :: r) with ((i :: subs) ++ j :: r).
      assert (G : forall (a : list item) d, last (a ++ j :: r) d = last (j :: r) j). { clear. induction a as [|k a IH]; intros d; [cbn [app]; revert j d; induction r as [|e r IH]; intros j d; [reflexivity|]; change (last (e :: r) d = last (e :: r) j); rewrite (IH e d), <- (IH e j); reflexivity|]. cbn [app]. destruct (a ++ j :: r) as [|q t] eqn:E; [destruct a; discriminate E|]. change (last (q :: t) d = last (j :: r) j). apply IH. }
      rewrite G. symmetry. apply (G [last (i :: subs) i]).
  Qed.
  Lemma list_frame items x z n : acts cf run (EItems items) x z -> adds x z n -> framed (EItems items) n.
  Proof.
    intros (i & its & nodes & x1 & H1 & H2 & H3) Ha. apply items_marked in H1 as (E1 & M & E2). inversion M as [|? ? M1 M2]; subst.
    assert (K : exists o m s a, n = DList o m s (snd i :: nodes) a /\ at_ctx a = merge_contexts (dnode_ctx (snd i)) (dnode_ctx (last (snd i :: nodes) (snd i)))).
    { unfold dp_do_list in H3. cbv zeta in H3. apply runs_pop_args in H3. apply runs_pget in H3.
      match type of H3 with runs (pbind ?m _) _ _ _ => assert (Q : quiet m) end.
      { destruct (dget _ _) as [v|]; [|quiet]. destruct (str_eqb _ _); [quiet|]. apply quiet_bind; [|intros; quiet]. apply quiet_lift, py_int_fine. }
      apply runs_bind_inv in H3 as (start & y & H4 & H3); [|exact Q]. clear Q.
      assert (Ey : dx_nodes y = dx_nodes x).
      { rewrite <- E2. destruct (dget _ _) as [v|].
        - destruct (str_eqb _ _); [apply runs_pmod in H4; apply runs_ret in H4 as [_ ->]; reflexivity|]. apply runs_lift in H4 as (z0 & _ & H4). apply runs_pmod in H4; apply runs_ret in H4 as [_ ->]; reflexivity.
        - apply runs_pmod in H4; apply runs_ret in H4 as [_ ->]; reflexivity. }
      apply runs_pop_labels in H3. apply finish_adds with (m := n) in H3; [|unfold adds in *; cbn [set_labels dx_nodes]; rewrite Ey; exact Ha]. subst n. do 4 eexists. split; [reflexivity|reflexivity]. }
    destruct K as (o & m & s & a & -> & Ec). cbn [framed]. destruct (last_split (snd i :: nodes) _ _ eq_refl) as [before Eb]. exists o, m, s, (snd i :: nodes), a, (snd i), (last (snd i :: nodes) (snd i)), before.
    split; [reflexivity|]. split; [reflexivity|]. split; [exact Eb|]. cbn [dnode_ctx]. rewrite Ec. split; [apply merge_least|].
    destruct (last_split (i :: its) _ _ eq_refl) as [before' Eb']. exists (fst i), (fst (last (i :: its) i)), (map fst before'). split; [reflexivity|]. split; [rewrite Eb' at 1; rewrite map_app; reflexivity|].
    destruct M1 as [M1 M3]. split; [exact M3|]. split; [eapply covers_trans; [apply covers_l|exact M1]|].
    eapply covers_trans; [apply covers_r|]. exact (nested_last _ _ _ H2 M2 _ i M1).
  Qed.
End Frames.

(* C84: the node of an element is in the least box that covers the first and the last part
   of the element. *)
Theorem C84_element cf n el x x' node : acts cf (dp_run n cf) el x x' -> adds x x' node -> framed el node.
Proof.
  assert (R : forall e n0 d f t o, fine_res (dp_run n cf e n0 d f t o)) by (intros; apply dp_run_fine).
  intros H Ha. destruct el as [t|t|o nm c v|r t|o op c|o t c|h t|o content c|o ty args|items|ls]; [..|exact (list_frame cf (dp_run n cf) _ _ _ _ H Ha)|exact (paragraph_frame cf _ _ _ _ H Ha)]; cbn [acts do_element] in H.
  - apply runs_ret in H as [_ ->]. destruct (not_more _ _ Ha).
  - apply do_rule_inv in H as (ok & _ & ->). destruct ok; [|destruct (not_more _ _ Ha)]. apply one_more in Ha. subst node. reflexivity.
  - apply do_variable_inv in H as (k & s & _ & ->). destruct (not_more _ _ Ha).
  - apply do_label_inv in H as (nodes & ms & hs & next & ->). destruct (not_more _ _ Ha).
  - apply do_control_inv in H as (k & _ & ->). destruct (not_more _ _ Ha).
  - apply do_arguments_inv in H as (p & _ & ->). destruct (not_more _ _ Ha).
  - exact (header_frame cf _ _ _ _ _ H Ha).
  - exact (block_frame (dp_run n cf) R _ _ _ _ _ _ H Ha).
  - exact (include_el_frame cf (dp_run n cf) R _ _ _ _ _ _ H Ha).
Qed.

(* ---- the lines of a node *)
Lemma last_any {A} (a : A) l d d' : last (a :: l) d = last (a :: l) d'.
Proof. revert a. induction l as [|b l IH]; intros a; [reflexivity|]. exact (IH b). Qed.
Lemma order_last src ts : forall from post d, ts <> [] -> in_order src from (ts ++ post) -> in_order src (c_end_line (t_ctx (last ts d))) post.
Proof.
  induction ts as [|t r IH]; intros from post d Hne H; [congruence|]. cbn [app in_order] in H. destruct H as (_ & _ & _ & _ & H). destruct r as [|u r]; [exact H|].
  change (last (t :: u :: r) d) with (last (u :: r) d). eapply IH; [discriminate|exact H].
Qed.
Lemma element_news cf n e next dn forb text o toks x0 els el rest x a r :
  calm_env e -> lex_document (buffer text o) = Ok toks -> dp_init e next dn forb = Ok x0 ->
  begins toks els (tokens_of el ++ rest) -> act_all cf (dp_run n cf) els x0 x -> shaped el -> tokens_of el = a :: r ->
  nameless cf (S n) e next dn forb text o \/
  forall x', acts cf (dp_run n cf) el x x' -> news (o_source o) (c_start_line (t_ctx a)) (c_end_line (t_ctx (last (tokens_of el) a))) (dx_nodes x) x'.
Proof.
  intros He El Ei Hb Ha Hsh Et. pose (W := fun _ : context => True). assert (WF : with_files W cf) by (intros ? ? ? ? ?; exact I). assert (HW : forall c, within (o_source o) (o_line o) (last_line text (o_line o)) c -> W c) by (intros ? ?; exact I). pose proof (PlaceNodes.done_any dn) as Hdn. change (fun _ : context => True) with W in Hdn.
  destruct (reach W cf WF n (run_places W cf n WF) e next dn forb text o toks x0 HW Hdn He El Ei _ _ _ Hb Ha) as [K|Hx]; [left; exact K|].
  destruct (begins_tokens _ _ _ Hb) as [pre Epre]. pose proof (lexed_order text o toks El) as Ho. rewrite Epre in Ho. destruct (order_app _ _ _ _ Ho) as [from Ho2]. rewrite Et in Ho2. cbn [app] in Ho2. apply order_start in Ho2. change (a :: r ++ rest) with ((a :: r) ++ rest) in Ho2. rewrite <- Et in Ho2.
  assert (Hne : tokens_of el <> []) by (rewrite Et; discriminate). destruct (order_on _ _ _ _ a Hne Ho2) as [Hon _].
  pose proof (toks_on text o toks El el pre rest Hsh Epre) as Hp. rewrite Forall_forall in Hp.
  assert (P1 : o_line o <= c_start_line (t_ctx a)) by (apply Hp; rewrite Et; left; reflexivity).
  assert (P2 : c_end_line (t_ctx (last (tokens_of el) a)) <= last_line text (o_line o)).
  { apply Hp. rewrite Et. clear. revert a. induction r as [|b r IH]; intros a; [left; reflexivity|]. right. change (last (a :: b :: r) a) with (last (b :: r) a). rewrite (last_any b r a b). apply IH. }
  destruct (step_places W cf WF n (run_places W cf n WF) e next dn forb text o toks x0 HW El Ei _ _ els el rest x P1 P2 Hon Hb Ha Hsh Hx) as [K|[K _]]; [left; exact K|right]. intros x' Hx'. apply (K x' Hx').
Qed.
(* the first token of an element is in its node *)
Lemma framed_first el node a r : framed el node -> tokens_of el = a :: r -> covers (dnode_ctx node) (t_ctx a).
Proof.
  destruct el as [t|t|o nm c v|rr t|o op c|o t c|h t|o content c|o ty args|items|ls]; cbn [framed tokens_of app]; try contradiction; intros F E.
  - assert (a = t) as -> by congruence. rewrite F. apply covers_refl.
  - destruct F as (hd & final & before & _ & _ & _ & first & _ & F & _). assert (a = h) as -> by congruence. inversion F; assumption.
  - destruct F as (_ & F & _). assert (a = o) as -> by congruence. inversion F; assumption.
  - destruct F as (_ & F & _). assert (a = o) as -> by congruence. inversion F; assumption.
  - destruct F as (o & m & s & content & at_ & first & final & before & _ & _ & _ & _ & it1 & it2 & before' & E1 & _ & _ & F & _). destruct items as [|it items]; [discriminate E1|]. cbn [flat_map app] in E. assert (a = fst it1) as -> by (cbn in E1; congruence). exact F.
  - destruct F as (lines & at_ & first & final & before & _ & _ & E1 & _ & _ & F & _). assert (a = first) as -> by (subst ls; cbn in E1; congruence). inversion F; assumption.
Qed.
(* elements whose node ends with the last token *)
Definition closed_by_token (el : element) : Prop := match el with ERule _ | EBlock _ _ _ | EParagraph _ => True | _ => False end.
Lemma framed_last el node d : framed el node -> closed_by_token el -> covers (dnode_ctx node) (t_ctx (last (tokens_of el) d)).
Proof.
  destruct el as [t|t|o nm c v|rr t|o op c|o t c|h t|o content c|o ty args|items|ls]; cbn [framed tokens_of closed_by_token]; try contradiction; intros F _.
  - rewrite F. apply covers_refl.
  - destruct F as (_ & F & _). inversion F as [|? ? _ F']; subst. inversion F' as [|? ? F2 _]; subst. destruct content; cbn [opt_list app last]; exact F2.
  - destruct F as (lines & at_ & first & final & before & _ & _ & _ & E2 & _ & F & _). inversion F as [|? ? _ F']; subst. inversion F' as [|? ? F2 _]; subst. rewrite last_last. exact F2.
Qed.

(* C84: the node starts on the line where its element starts, in the same source, and ends
   where it ends (or on the next line: a variable may end with a backslash, see below). *)
Theorem C84_lines cf n e next dn forb text o toks x0 els el rest x x' node a r :
  calm_env e -> lex_document (buffer text o) = Ok toks -> dp_init e next dn forb = Ok x0 ->
  begins toks els (tokens_of el ++ rest) -> act_all cf (dp_run n cf) els x0 x -> shaped el -> tokens_of el = a :: r ->
  acts cf (dp_run n cf) el x x' -> adds x x' node ->
  nameless cf (S n) e next dn forb text o \/
  (c_source (dnode_ctx node) = o_source o /\ c_start_line (dnode_ctx node) = c_start_line (t_ctx a) /\
   c_end_line (dnode_ctx node) <= S (c_end_line (t_ctx (last (tokens_of el) a))) /\
   (closed_by_token el -> c_end_line (t_ctx (last (tokens_of el) a)) <= c_end_line (dnode_ctx node))).
Proof.
  intros He El Ei Hb Ha Hsh Et H Hadd. destruct (element_news cf n e next dn forb text o toks x0 els el rest x a r He El Ei Hb Ha Hsh Et) as [K|K]; [left; exact K|right].
  destruct (K x' H) as (l & E & Hl). unfold adds in Hadd. rewrite Hadd in E. apply app_inv_head in E. subst l. inversion Hl as [|? ? (Q1 & Q2 & Q3) _]; subst.
  pose proof (C84_element cf n el x x' node H Hadd) as F. destruct (framed_first _ _ _ _ F Et) as (C1 & _). split; [exact Q1|]. split; [lia|]. split; [lia|].
  intros Hc. apply (framed_last _ _ a F Hc).
Qed.

(* ---- the order of the nodes *)
Lemma sorted_app {A} (R : A -> A -> Prop) l l' : StronglySorted R l -> StronglySorted R l' -> (forall a b, In a l -> In b l' -> R a b) -> StronglySorted R (l ++ l').
Proof.
  intros H H' K. induction H as [|a l H IH Hf]; [exact H'|]. cbn [app]. constructor; [apply IH; intros; apply K; [right; assumption|assumption]|].
  apply Forall_app. split; [exact Hf|]. apply Forall_forall. intros b Hb. apply K; [left; reflexivity|exact Hb].
Qed.
Definition above (n m : dnode) : Prop := c_start_line (dnode_ctx n) <= c_start_line (dnode_ctx m).

(* an element adds one node or none *)
Lemma finish_nodes n x b z : runs (dp_finish n) x b z -> dx_nodes z = dx_nodes x \/ exists m, dx_nodes z = dx_nodes x ++ [m].
Proof. intros H. apply runs_finish in H as (ok & _ & ->). destruct ok; [right; eexists; reflexivity|left; reflexivity]. Qed.
Lemma acts_nodes cf n el x z : acts cf (dp_run n cf) el x z -> dx_nodes z = dx_nodes x \/ exists m, dx_nodes z = dx_nodes x ++ [m].
Proof.
  assert (R : forall e n0 d f t o, fine_res (dp_run n cf e n0 d f t o)) by (intros; apply dp_run_fine).
  intros H. destruct el as [t|t|o nm c v|r t|o op c|o t c|h t|o content c|o ty args|items|ls]; cbn [acts do_element] in H.
  - apply runs_ret in H as [_ ->]. left; reflexivity.
  - apply do_rule_inv in H as (ok & _ & ->). destruct ok; [right; eexists; reflexivity|left; reflexivity].
  - apply do_variable_inv in H as (k & s & _ & ->). left; reflexivity.
  - apply do_label_inv in H as (nodes & ms & hs & next & ->). left; reflexivity.
  - apply do_control_inv in H as (k & _ & ->). left; reflexivity.
  - apply do_arguments_inv in H as (p & _ & ->). left; reflexivity.
  - unfold dp_do_header in H. apply runs_fresh in H. apply runs_bind_inv in H as (nodes & y & H1 & H); [|apply text_quiet].
    apply runs_text in H1 as (ms & hs & next & ->). apply runs_pop_args in H. cbn [pop_arg] in H. apply runs_first_last in H as (u & r & E & H).
    apply runs_pop_labels in H. apply runs_admitted in H as (ok & Hok & H). destruct ok; [|apply runs_ret in H as [_ ->]; left; reflexivity].
    match type of H with context [DHeader ?h0] => remember h0 as hh eqn:Eh end.
    apply runs_bind_inv in H as (v & y & H1 & H).
    2:{ destruct (dget (lit "name") _) as [[|c nm]|]; try (apply quiet_ret). quiet. apply quiet_lift, hm_add_fine. }
    apply runs_pmod in H. unfold dp_save in H. apply runs_pmod in H. apply runs_ret in H as [_ ->]. right. exists (DHeader hh). cbn [set_nodes set_toc dx_nodes].
    assert (Ey : dx_nodes y = dx_nodes x); [|rewrite Ey; reflexivity].
    destruct (dget (lit "name") _) as [[|c nm]|]; [apply runs_ret in H1 as [_ ->]; reflexivity| |apply runs_ret in H1 as [_ ->]; reflexivity].
    apply runs_pget in H1. apply runs_lift in H1 as (m & _ & H1). specialize (H1 []). unfold pmod in H1. injection H1 as H1 _. rewrite <- H1. reflexivity.
  - apply (do_block_inv (dp_run n cf) R) in H as (node & a & nctx & y & H1 & H). apply (engine_node (dp_run n cf) R) in H1 as [E1 _]. cbn [set_args dx_nodes] in E1.
    assert (F : (exists ok, admitted (set_labels y []) ok /\
      z = (if ok then set_nodes (set_control (set_labels y []) None) (dx_nodes y ++ [node (mkAttrs a (dx_labels y) (merge_contexts (t_ctx o) (t_ctx c)))]) else set_control (set_labels y []) None)) -> dx_nodes z = dx_nodes x \/ exists m, dx_nodes z = dx_nodes x ++ [m]).
    { intros (ok & _ & ->). rewrite <- E1. destruct ok; [right; eexists; reflexivity|left; reflexivity]. }
    destruct (nonempty (dget (lit "footnote") _)) as [name|]; [destruct H as (m & _ & ->); left; exact E1|].
    destruct (nonempty (dget (lit "group") _)) as [g|]; [|exact (F H)]. destruct (nonempty (dget (lit "position") _)) as [p|]; [|exact (F H)].
    destruct H as (m & _ & ->). left; exact E1.
  - apply element_include_inv in H as (a & _ & H). apply (do_include_inv cf (dp_run n cf) R) in H as (node & a' & y & ok & H1 & _ & _ & ->).
    pose proof (include_node_frame cf (dp_run n cf) _ _ _ _ _ _ H1) as (F & _). cbn [set_args dx_nodes] in F.
    destruct ok; cbn [set_nodes set_control set_labels set_args dx_nodes]; [right; eexists; reflexivity|left; exact F].
  - destruct H as (i & its & nodes & x1 & H1 & H2 & H3). apply items_marked in H1 as (_ & _ & E2).
    unfold dp_do_list in H3. cbv zeta in H3. apply runs_pop_args in H3. apply runs_pget in H3.
    match type of H3 with runs (pbind ?m _) _ _ _ => assert (Q : quiet m) end.
    { destruct (dget _ _) as [v|]; [|quiet]. destruct (str_eqb _ _); [quiet|]. apply quiet_bind; [|intros; quiet]. apply quiet_lift, py_int_fine. }
    apply runs_bind_inv in H3 as (start & y & H4 & H3); [|exact Q]. clear Q.
    assert (Ey : dx_nodes y = dx_nodes x).
    { rewrite <- E2. destruct (dget _ _) as [v|].
      - destruct (str_eqb _ _); [apply runs_pmod in H4; apply runs_ret in H4 as [_ ->]; reflexivity|]. apply runs_lift in H4 as (z0 & _ & H4). apply runs_pmod in H4; apply runs_ret in H4 as [_ ->]; reflexivity.
      - apply runs_pmod in H4; apply runs_ret in H4 as [_ ->]; reflexivity. }
    apply runs_pop_labels in H3. apply finish_nodes in H3. cbn [set_labels dx_nodes] in H3. rewrite Ey in H3. exact H3.
  - unfold dp_do_paragraph in H. apply runs_bind_inv in H as (lines & y & H1 & H); [|apply line_nodes_quiet]. apply line_nodes_ctx in H1 as [_ E2].
    apply runs_pop_args in H. apply runs_first_last in H as (f & r & E & H). apply runs_pop_labels in H. apply finish_nodes in H. cbn [set_labels set_args dx_nodes] in H. rewrite E2 in H. exact H.
Qed.

Section Order.
  Context (cf : config) (n : nat) (e : env) (next : nat) (dn : list assign) (forb : list (option str)) (text : str) (o : origin) (toks : list token) (x0 : dx).
  Context (He : calm_env e) (El : lex_document (buffer text o) = Ok toks) (Ei : dp_init e next dn forb = Ok x0).
  Lemma order_from els2 y z : act_all cf (dp_run n cf) els2 y z -> forall els1 rest1 rest2 from, begins toks els1 rest1 -> begins rest1 els2 rest2 -> act_all cf (dp_run n cf) els1 x0 y ->
    in_order (o_source o) from rest1 -> StronglySorted above (dx_nodes y) -> Forall (fun m => c_start_line (dnode_ctx m) <= from) (dx_nodes y) ->
    nameless cf (S n) e next dn forb text o \/ StronglySorted above (dx_nodes z).
  Proof.
    intros H. induction H as [y|el els2 y w z H1 H2 IH2]; intros els1 rest1 rest2 from B1 B2 A1 Ho Hs Hf; [right; exact Hs|].
    inversion B2 as [|? toks' ? ? Hsh Hmax B3]; subst.
    assert (Hne : exists a r, tokens_of el = a :: r).
    { destruct el as [t|t|o0 nm c v|rr t|o0 op c|o0 t c|h t|o0 content c|o0 ty args|items|ls]; cbn [tokens_of app]; try (do 2 eexists; reflexivity); [destruct items as [|it items]|destruct ls as [|t ls]]; try (do 2 eexists; reflexivity); destruct Hsh as [Hsh _]; congruence. }
    destruct Hne as (a & r & Et). destruct (element_news cf n e next dn forb text o toks x0 els1 el toks' y a r He El Ei B1 A1 Hsh Et) as [K|K]; [left; exact K|].
    destruct (K w H1) as (l & E & Hl). rewrite Et in Ho, Hl. cbn [app] in Ho.
    assert (Hst : from <= c_start_line (t_ctx a)) by (cbn [in_order] in Ho; lia).
    assert (Hone : length l <= 1).
    { assert (Hor : dx_nodes w = dx_nodes y \/ exists m, dx_nodes w = dx_nodes y ++ [m]).
      { pose proof (acts_nodes cf n el y w H1) as Hn. exact Hn. }
      destruct Hor as [Hor|[m Hor]]; rewrite Hor in E.
      - rewrite <- (app_nil_r (dx_nodes y)) in E at 1. apply app_inv_head in E. subst l. cbn. lia.
      - apply app_inv_head in E. subst l. cbn. lia. }
    change (a :: r ++ toks') with ((a :: r) ++ toks') in Ho. pose proof (order_last _ (a :: r) from toks' a ltac:(discriminate) Ho) as Ho'.
    pose proof (order_on _ (a :: r) from toks' a ltac:(discriminate) Ho) as [_ Hle].
    eapply (IH2 (els1 ++ [el]) toks'); [|exact B3| |exact Ho'| |].
    - eapply begins_more; [exact B1|]. constructor; [exact Hsh|exact Hmax|constructor].
    - eapply acts_more; [exact A1|]. econstructor; [exact H1|constructor].
    - rewrite E. apply sorted_app; [exact Hs| |].
      + destruct l as [|b [|]]; [constructor|constructor; constructor|cbn in Hone; lia].
      + intros b c Hb Hc. rewrite Forall_forall in Hf, Hl. specialize (Hf b Hb). destruct (Hl c Hc) as (_ & Q & _). unfold above. lia.
    - rewrite E. apply Forall_app. split; (eapply Forall_impl; [|eassumption]); cbn beta; [intros m Hm; lia|]. intros m (_ & Q & _). lia.
  Qed.
End Order.

(* C84: the nodes of a document are in the order of their lines. *)
Theorem C84_order cf n e text o x : calm_env e -> parse_document n cf e text o = Ok x ->
  nameless cf n e 0 [] [] text o \/ StronglySorted above (dx_nodes x).
Proof.
  intros He H. unfold parse_document in H. apply dp_run_inv in H as (m & toks & x0 & els & y & -> & El & Ei & M & A & Hf).
  assert (Ey : dx_nodes x = dx_nodes y).
  { unfold dp_finalise in Hf. apply rbind_ok in Hf as ([fl fs] & _ & Hf). apply rbind_ok in Hf as ([[t ids] tocs] & _ & Hf). apply rbind_ok in Hf as (hl & _ & Hf).
    apply rbind_ok in Hf as (gr & _ & Hf). apply Ok_inv in Hf. subst x. reflexivity. }
  rewrite Ey. clear Ey Hf x. assert (E0 : dx_nodes x0 = []). { unfold dp_init in Ei. destruct (not_callable _); [discriminate|]. apply Ok_inv in Ei. subst x0. reflexivity. }
  apply begins_made in M as [eof M].
  refine (order_from cf m e 0 [] [] text o toks x0 He El Ei els x0 y A [] toks [eof] (o_line o) _ M _ (lexed_order text o toks El) _ _); [constructor|constructor| |]; rewrite E0; constructor.
Qed.

(* C84: the place of the document starts on the line of the first node, and no node starts
   before it or after the last one. *)
Theorem C84_document cf n e text o x nodes c : calm_env e -> parse_document n cf e text o = Ok x -> document_of x = Some (nodes, c) ->
  nameless cf n e 0 [] [] text o \/
  exists first final before, nodes = before ++ [final] /\ hd_error nodes = Some first /\ least_box c [dnode_ctx first; dnode_ctx final] /\
    c_start_line c = c_start_line (dnode_ctx first) /\
    Forall (fun m => c_start_line c <= c_start_line (dnode_ctx m) <= c_start_line (dnode_ctx final)) nodes.
Proof.
  intros He H Hd. destruct (C84_order cf n e text o x He H) as [K|K]; [left; exact K|right]. unfold document_of in Hd. destruct (dx_nodes x) as [|f r] eqn:En; [discriminate|].
  assert (En' : nodes = f :: r) by congruence. assert (Ec : c = merge_contexts (dnode_ctx f) (dnode_ctx (last (f :: r) f))) by congruence. clear Hd En.
  destruct (last_split (f :: r) f r eq_refl) as [before Eb]. exists f, (last (f :: r) f), before. rewrite <- En' in Eb |- *. split; [exact Eb|]. rewrite En' at 1. split; [reflexivity|].
  assert (B : forall l z, StronglySorted above (l ++ [z]) -> forall a, In a (l ++ [z]) -> above a z).
  { clear. induction l as [|b l IH]; intros z H a Ha; cbn [app] in *.
    - destruct Ha as [->|[]]. unfold above. lia.
    - inversion H as [|? ? H1 H2]; subst. destruct Ha as [->|Ha]; [|apply IH; assumption]. rewrite Forall_forall in H2. apply H2. apply in_or_app. right. left. reflexivity. }
  rewrite <- En' in Ec, K. assert (Hl : forall a, In a nodes -> above a (last nodes f)) by (intros a Ha; rewrite Eb in K, Ha; exact (B _ _ K a Ha)).
  assert (Hf : forall a, In a nodes -> above f a).
  { intros a Ha. rewrite En' in Ha, K. inversion K as [|? ? _ K2]; subst. destruct Ha as [->|Ha]; [unfold above; lia|]. rewrite Forall_forall in K2. exact (K2 a Ha). }
  assert (Hs : c_start_line c = c_start_line (dnode_ctx f)).
  { assert (Q : above f (last nodes f)) by (apply Hl; rewrite En'; left; reflexivity). unfold above in Q. rewrite Ec. unfold merge_contexts. cbn [c_start_line]. lia. }
  split; [rewrite Ec; apply merge_least|]. split; [exact Hs|]. apply Forall_forall. intros a Ha. rewrite Hs. split; [apply Hf|apply Hl]; exact Ha.
Qed.

(* Two things that are false of the boxes. *)
Definition box_of (e : env) (s : string) : res (option (nat * nat * (nat * nat)) * list (nat * nat * (nat * nat))) :=
  let box c := (c_start_line c, c_start_column c, (c_end_line c, c_end_column c)) in
  rmap (fun x => (option_map (fun d => box (snd d)) (document_of x), map (fun m => box (dnode_ctx m)) (dx_nodes x))) (parse_document 5 cf_files1 e (mau s) (mkOrigin 0 0 (Some (lit "a")))).
(* The value of a variable may end with a backslash and a space: the text of the header is
   then over, for the lexer, on a line that does not exist (finding 43); the next node
   starts before it ends. *)
Theorem C84_refuted_line : exists e, calm_env e /\
  box_of e "= {v}" = Ok (Some (0, 0, (1, 3)), [(0, 0, (1, 3))]) /\ last_line (mau "= {v}") 0 = 0 /\
  box_of e "= {v}|para" = Ok (Some (0, 0, (1, 4)), [(0, 0, (1, 3)); (1, 0, (1, 4))]).
Proof. exists [(lit "v", EStr (lit "\ "))]. split; [repeat constructor; intros [H|[H|[]]]; discriminate H|]. vm_compute. auto. Qed.
(* The column is that of the longest of the two ends: there need not be one in the last
   line (which has 3 characters). *)
Theorem C84_refuted_column : box_of [] "= Title||a longer one|b||----|x|----||* i|* j" =
  Ok (Some (0, 0, (10, 7)), [(0, 0, (0, 7)); (2, 0, (3, 12)); (5, 0, (7, 4)); (9, 0, (10, 3))]).
Proof. vm_compute. reflexivity. Qed.

(* C84 for the documents that have no blocks and no includes *)
Theorem C84_simple cf text o n e x toks : calm_env e -> NoDup (keys e) -> dget [] e = None -> lex_document (buffer text o) = Ok toks -> simple_tokens toks ->
  parse_document n cf e text o = Ok x -> StronglySorted above (dx_nodes x).
Proof. intros He Hk H0 Hl Hs Hp. destruct (C84_order cf n e text o x He Hp) as [K|K]; [|exact K]. exfalso. exact (simple_named cf n e 0 [] [] text o toks Hl Hs Hk H0 K). Qed.

(* The hypotheses hold: after the header of this document comes a paragraph of two lines. *)
Definition o1 : origin := mkOrigin 0 0 (Some (lit "a")).
Definition tok1 (ty : token_type) (v : string) (a b c d : nat) : token := mkToken ty (lit v) (mkContext a b c d (Some (lit "a"))).
Definition head1 := EHeader (tok1 T_HEADER "=" 0 0 0 1) (tok1 T_TEXT "One" 0 2 0 5).
Definition lines1 := [tok1 T_TEXT "a" 1 0 1 1; tok1 T_TEXT "b" 2 0 2 1].
Definition par1 := EParagraph lines1.
Example C84_ex : exists eof x0 x x' node,
  lex_document (buffer (mau "= One|a|b") o1) = Ok (tokens_of head1 ++ tokens_of par1 ++ [eof]) /\ dp_init [] 0 [] [] = Ok x0 /\
  begins (tokens_of head1 ++ tokens_of par1 ++ [eof]) [head1] (tokens_of par1 ++ [eof]) /\ act_all cf0 (dp_run 3 cf0) [head1] x0 x /\
  shaped par1 /\ acts cf0 (dp_run 3 cf0) par1 x x' /\ adds x x' node /\ dnode_ctx node = mkContext 1 0 2 1 (Some (lit "a")) /\ closed_by_token par1.
Proof.
  pose (start := fun x0 : dx => snd (fst (dp_do_header cf0 (tok1 T_HEADER "=" 0 0 0 1) (tok1 T_TEXT "One" 0 2 0 5) ([], x0)))).
  pose (next := fun x0 : dx => snd (fst (dp_do_paragraph cf0 lines1 ([], start x0)))).
  exists (tok1 T_EOF "" 3 0 3 0). destruct (dp_init [] 0 [] []) as [x0|] eqn:E; [|exfalso; revert E; vm_compute; discriminate]. exists x0, (start x0), (next x0).
  vm_compute in E. apply Ok_inv in E. subst x0.
  eexists. split; [vm_compute; reflexivity|]. split; [reflexivity|]. split; [constructor; [split; reflexivity|exact I|constructor]|].
  split; [econstructor; [|constructor]; intros rem; vm_compute; reflexivity|]. split; [split; [discriminate|repeat constructor]|]. split; [intros rem; vm_compute; reflexivity|].
  split; [unfold adds; vm_compute; reflexivity|]. split; [reflexivity|exact I].
Qed.
