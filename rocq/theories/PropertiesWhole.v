(* PropertiesWhole.v -- C70: nothing is left unfilled *)
From Verif Require Import WholeFacts SpecGrammar PropertiesGrammar PropertiesManagers PropertiesRender.
#[local] Notation length := List.length.

(* ------------------------------------------------- the levels of the headers *)
Definition header_ok (tv : token_type * str) : Prop := fst tv = T_HEADER -> snd tv <> [].
Lemma opt_header s : Forall header_ok (opt_tok T_TEXT s).
Proof. destruct s; constructor; [intros E; discriminate E|constructor]. Qed.
Lemma reads_header l ts : reads l ts -> Forall header_ok ts.
Proof.
  intros H. destruct H; try (apply Forall_app; split; [|apply opt_header]); repeat constructor; intros E; try discriminate E; discriminate.
Qed.
Lemma lexed_header lines r : lexed lines r -> match r with inl ts => Forall header_ok ts | inr _ => True end.
Proof.
  induction 1 as [| |l ts rest r Hrd Hne H IH|c content rest r Hc Ha H IH|content rest r Ha H IH|c rest Hc Ha|rest Ha]; auto.
  - repeat constructor. intros E. discriminate E.
  - repeat constructor. intros E. discriminate E.
  - apply reads_header in Hrd. destruct r; [apply Forall_app; auto|exact I].
  - destruct r; [|exact I]. cbn [prepend]. apply Forall_app. split; [|exact IH]. unfold block_shape.
    constructor; [intros E; discriminate E|]. destruct content; repeat constructor; intros E; discriminate E.
Qed.
Definition head_ok (el : element) : Prop := match el with EHeader h _ => t_value h <> [] | _ => True end.
Lemma made_heads toks els : SpecDoc.made_of toks els -> Forall header_ok (map tv toks) -> Forall head_ok els.
Proof.
  induction 1 as [eof H|el rest els Hs Hm H IH]; intros Hf; [constructor|]. rewrite map_app in Hf. apply Forall_app in Hf as [H1 H2]. constructor; [|exact (IH H2)].
  destruct el; try exact I. cbn [tokens_of map] in H1. inversion H1 as [|? ? K _]. subst. apply K. exact (proj1 Hs).
Qed.

Definition levels0 (x : dx) : Prop := Forall (fun h => 0 < h_level h) (tm_headers (dx_toc x)).
Definition levels (x : dx) : Prop := levels0 x /\ tm_nested (dx_toc x) = [].
(* at the end of a parser *)
Definition levelled (y : dx) : Prop :=
  levels0 y /\ Forall (fun h => h_internal h <> None) (tm_headers (dx_toc y)) /\ (tm_headers (dx_toc y) = [] -> tm_nested (dx_toc y) = []).
Section Levels.
  Context (cf : config) (run : run_fn) (run_ok : forall e n d f t o, fine_res (run e n d f t o)).
  Context (run_levels : forall e n d f t o y, run e n d f t o = Ok y -> levels0 y).
  Lemma engine_levels en ctx c cl a x r z : runs (dp_engine run en ctx c cl a) x r z -> levels x -> levels z.
  Proof.
    intros H L. destruct r as [[node a'] nctx]. apply engine_inv in H as [[-> _]|(_ & t & y & _ & _ & Er & -> & _)]; [exact L| |exact run_ok].
    apply run_levels in Er. unfold levels, levels0, after_child in *. destruct (isolated a); [exact L|]. cbn. destruct L as [L1 L2]. split; [apply Forall_app; split; assumption|exact L2].
  Qed.
  Lemma include_nested ty ctx a x r z : runs (include_node cf run ty ctx a) x r z -> tm_nested (dx_toc z) = tm_nested (dx_toc x).
  Proof.
    intros H. unfold include_node in H. destruct (str_eqb _ _).
    { unfold dp_image in H. cbn [pop_arg] in H. apply runs_need_uri in H as (uri & _ & _ & H). apply runs_ret in H as [_ ->]. reflexivity. }
    destruct (str_eqb _ _).
    { destruct r as [node a']. apply mau_inv in H as (uri & text & e & y & _ & _ & _ & _ & _ & _ & ->). reflexivity. }
    destruct (str_eqb _ _).
    { unfold dp_include_raw in H. cbn [pop_arg] in H. apply runs_need_uri in H as (uri & _ & _ & H). apply runs_read in H as (t & _ & H).
      apply runs_ret in H as [_ ->]. reflexivity. }
    destruct (str_eqb _ _).
    { apply runs_bind_inv in H as (f & y & H1 & H); [|unfold dp_toc; apply quiet_bind; [apply fresh_quiet|]; intros id; quiet].
      unfold dp_toc in H1. apply runs_fresh in H1. apply runs_pmod in H1. apply runs_ret in H1 as [_ ->]. apply runs_ret in H as [_ ->]. reflexivity. }
    destruct (str_eqb _ _).
    { apply runs_bind_inv in H as (f & y & H1 & H); [|unfold dp_footnotes; apply quiet_bind; [apply fresh_quiet|]; intros id; quiet].
      unfold dp_footnotes in H1. apply runs_fresh in H1. apply runs_pmod in H1. apply runs_ret in H1 as [_ ->]. apply runs_ret in H as [_ ->]. reflexivity. }
    destruct (str_eqb _ _); [|apply runs_ret in H as [_ ->]; reflexivity].
    unfold dp_blockgroup in H. cbn [pop_arg] in H. destruct (dget (lit "group") _) as [g|]; [|destruct (runs_raise _ _ _ _ H)].
    apply runs_fresh in H. apply runs_pmod in H. apply runs_ret in H as [_ ->]. reflexivity.
  Qed.
  Lemma acts_levels el x z : head_ok el -> acts cf run el x z -> levels x -> levels z.
  Proof.
    intros Hh H L. unfold levels, levels0 in *. destruct el as [t|t|o n c v|r t|o op c|o t c|h t|o t c|o ty ar|items|ls]; cbn [acts] in H.
    - apply runs_ret in H as [_ ->]. exact L.
    - apply do_rule_inv in H as (ok & _ & ->). destruct ok; exact L.
    - apply do_variable_inv in H as (k & s & _ & ->). exact L.
    - apply do_label_inv in H as (nodes & ms & hs & next & ->). exact L.
    - apply do_control_inv in H as (k & _ & ->). exact L.
    - apply do_arguments_inv in H as (k & _ & ->). exact L.
    - apply do_header_inv in H as (nodes & ms & hs & next & ctx & ok & _ & _ & H). destruct ok; [|rewrite H; exact L]. destruct H as (links & _ & ->).
      cbn [set_nodes set_toc dx_toc tm_add_header tm_headers]. destruct L as [L1 L2]. split; [|exact L2]. apply Forall_app. split; [exact L1|]. constructor; [|constructor]. cbn [h_level]. cbn [head_ok] in Hh. destruct (t_value h); [contradiction|cbn; lia].
    - apply do_block_inv in H as (node & a' & nctx & y & He & H); [|exact run_ok]. apply engine_levels in He; [|exact L]. unfold levels, levels0 in He.
      destruct (nonempty (dget (lit "footnote") (na_named a'))) as [name|]; [destruct H as (m & _ & ->); exact He|].
      destruct (nonempty (dget (lit "group") (na_named a'))) as [g|]; [|destruct H as (ok & _ & ->); destruct ok; exact He].
      destruct (nonempty (dget (lit "position") (na_named a'))) as [p|]; [|destruct H as (ok & _ & ->); destruct ok; exact He].
      destruct H as (m & _ & ->). exact He.
    - apply element_include_inv in H as (ar' & _ & H). apply do_include_inv in H as (node & a' & y & ok & Hn & F & _ & Hz); [|exact run_ok].
      destruct F as (_ & _ & _ & _ & _ & _ & _ & F & _). apply include_nested in Hn. assert (E : tm_headers (dx_toc z) = tm_headers (dx_toc x)) by (rewrite Hz; destruct ok; exact F).
      assert (E2 : tm_nested (dx_toc z) = tm_nested (dx_toc x)) by (rewrite Hz; destruct ok; exact Hn). rewrite E, E2. exact L.
    - destruct H as (i & its & nodes & x1 & Hr & Hn & Hl). apply runs_items in Hr as (ms & hs & next & ->).
      apply do_list_inv in Hl as (start & latest & ctx & ok & _ & Hz & _). rewrite Hz. destruct ok; exact L.
    - apply do_paragraph_inv in H as (lines & ms & hs & next & ctx & ok & _ & Hz). rewrite Hz. destruct ok; exact L.
  Qed.
  Lemma act_all_levels els x z : act_all cf run els x z -> Forall head_ok els -> levels x -> levels z.
  Proof.
    induction 1 as [x|el els x y z H _ IH]; intros F L; [exact L|]. inversion F; subst. apply IH; [assumption|]. eapply acts_levels; eassumption.
  Qed.
End Levels.
Lemma finalise_levels cf e x y : dp_finalise cf e x = Ok y -> levels x -> levelled y.
Proof.
  intros H [L Ln]. unfold dp_finalise in H.
  match type of H with rbind (fm_process ?c ?i ?f) _ = _ => destruct (fm_process c i f) as [[flinks flists]|]; [|discriminate] end. cbn [rbind] in H.
  match type of H with rbind (tm_process ?i ?f) _ = _ => destruct (tm_process i f) as [[[toc ids] tocs]|] eqn:Et; [|discriminate] end. cbn [rbind] in H.
  destruct (hm_process (dx_links x)) as [hlinks|]; [|discriminate]. cbn [rbind] in H.
  destruct (gm_process (dx_groups x)) as [groups|]; [|discriminate]. cbn [rbind] in H.
  assert (E : dx_toc y = toc) by (apply Ok_inv in H; subst y; reflexivity). unfold levelled, levels0 in *. rewrite E. clear H E.
  unfold tm_process in Et. destruct (tm_headers (dx_toc x)) as [|h0 hs0] eqn:Ehs.
  - assert (dx_toc x = toc) as <- by congruence. rewrite Ehs. split; [exact L|]. split; [constructor|]. intros _. exact Ln.
  - rewrite <- Ehs in *. destruct (for_each _ (tm_headers (dx_toc x))) as [hs|] eqn:Egi; [|discriminate]. cbn [rbind] in Et.
    assert (mkTman hs (tm_nodes (dx_toc x)) (nest_headers hs) = toc) as <- by congruence. cbn [tm_headers tm_nested]. apply give_bare in Egi as (E & _ & Ei).
    assert (Em : map h_level hs = map h_level (tm_headers (dx_toc x))).
    { apply (f_equal (map h_level)) in E. rewrite !map_map in E. exact E. }
    split; [|split; [exact Ei|intros ->; reflexivity]].
    rewrite <- (Forall_map h_level (fun l => 0 < l)) in *. rewrite Em. exact L.
Qed.
Lemma run_levels n : forall cf e next done forb text o y, dp_run n cf e next done forb text o = Ok y -> levelled y.
Proof.
  induction n as [|n IH]; intros cf e next done forb text o y H; [discriminate|].
  apply dp_run_inv in H as (m & toks & x0 & els & x & En & El & Ei & Hm & Ha & Hf). injection En as <-.
  apply (finalise_levels _ _ _ _ Hf). apply (act_all_levels cf (dp_run n cf) (fun e n' d f t o => dp_run_fine n cf e n' d f t o) (fun e n' d f t o y H => proj1 (IH cf e n' d f t o y H)) _ _ _ Ha).
  - apply (made_heads _ _ Hm). pose proof (lexed_header _ _ (C59_grammar text (o_line o) (o_column o) (o_source o))) as K. unfold buffer in El. rewrite El in K. exact K.
  - unfold dp_init in Ei. destruct (not_callable _); [discriminate|]. apply Ok_inv in Ei. subst x0. split; [constructor|reflexivity].
Qed.

(* --------------------------------------------------------------------- C70 *)
(* Every header of the document has an id, every list of footnotes has been given the
   footnotes, every group its blocks: in the document, in the blocks of the groups and in
   the bodies of the footnotes. *)
Theorem C70_nothing_unfilled n cf e text o x : parse_document n cf e text o = Ok x ->
  (forall m, In m (flat_map dmarks (dx_nodes x)) -> filled (dx_done x) m) /\
  (forall b, In b (flat_map set_apart (dx_done x)) -> forall m, In m (dmarks b) -> filled (dx_done x) m).
Proof.
  intros H. destruct (run_whole _ _ _ _ _ _ _ _ _ H) as [(C1 & _ & C2 & _) _]; [intros b []|]. split; [|exact C2].
  intros m Hm. apply C1, in_or_app. left. exact Hm.
Qed.
(* Every table of contents has all the headers, in order and each under its parent: the
   last table given to it, if there is a header at all. *)
Theorem C70_contents_complete n cf e text o x i : parse_document n cf e text o = Ok x ->
  In i (flat_map toc_places (dx_nodes x)) -> flat_map toc_headers (dx_nodes x) <> [] ->
  exists before entries plain after, dx_done x = before ++ AToc i entries plain :: after /\
    (forall n' p', In (AToc i n' p') after -> n' = entries /\ p' = plain) /\
    flat_map preorder entries = plain /\
    (forall k, k < length plain -> exists p, nth_error (forest_parents None 0 entries) k = Some p /\ nearest_shallower plain k p) /\
    subseq (map bare (flat_map toc_headers (dx_nodes x))) (map bare plain).
Proof.
  intros H Hi Hh. destruct (run_whole _ _ _ _ _ _ _ _ _ H) as [(_ & _ & _ & C3 & C4) T]; [intros b []|].
  destruct T as [T|(T1 & before & after & T2 & T3)].
  { exfalso. apply Hh. rewrite T in C3. apply ss_in in C3. destruct (flat_map toc_headers (dx_nodes x)) as [|h hs]; [reflexivity|]. destruct (C3 (bare h)); left; reflexivity. }
  apply run_levels, proj1 in H. apply C4 in Hi. apply in_split in Hi as (l1 & l2 & E). rewrite E, map_app in T2. cbn [map] in T2.
  eexists (before ++ map _ l1), (tm_nested (dx_toc x)), (tm_headers (dx_toc x)), (map _ l2 ++ after). split; [rewrite T2, <- !app_assoc; reflexivity|]. split.
  - intros n' p' Hin. apply in_app_or in Hin as [Hin|Hin]; [|destruct (T3 _ _ _ Hin)]. apply in_map_iff in Hin as (k & Ek & _). split; congruence.
  - rewrite T1. split; [apply C34_every_header_once, H|]. split; [|exact C3]. intros k Hk. apply C34_entry_under_its_parent; assumption.
Qed.

(* The table of contents that the parser gives with the document (also when the
   document has no table of contents): the same, and every header has its id. *)
Theorem C70_contents_of_the_document n cf e text o x : parse_document n cf e text o = Ok x ->
  let plain := tm_headers (dx_toc x) in let entries := tm_nested (dx_toc x) in
  flat_map preorder entries = plain /\
  (forall k, k < length plain -> exists p, nth_error (forest_parents None 0 entries) k = Some p /\ nearest_shallower plain k p) /\
  Forall (fun h => h_internal h <> None) plain /\
  subseq (map bare (flat_map toc_headers (dx_nodes x))) (map bare plain).
Proof.
  intros H plain entries. destruct (run_whole _ _ _ _ _ _ _ _ _ H) as [(_ & _ & _ & C3 & C4) T]; [intros b []|].
  apply run_levels in H as (H & Hi & Hn). unfold plain, entries. destruct T as [T|(T1 & _)].
  - rewrite (Hn T). rewrite T in *. split; [reflexivity|]. split; [intros k K; cbn in K; lia|]. split; [constructor|exact C3].
  - rewrite T1. split; [apply C34_every_header_once, H|]. split; [|split; [exact Hi|exact C3]]. intros k Hk. apply C34_entry_under_its_parent; assumption.
Qed.

(* a document with a header and a table of contents in a block, and a group inside a group *)
Definition whole_document : string :=
  "= T||[isolate=false]|----|== U||<< toc|----||<< footnotes||<< toc||[group=g,position=p]|----|<< blockgroup:h||= V||[group=h,position=p]|++++|z|++++|----||<< blockgroup:g||".
Example C70_ex : exists x, parsed whole_document = Ok x /\
  map h_level (flat_map toc_headers (dx_nodes x)) = [1; 2] /\ flat_map toc_places (dx_nodes x) = [2; 4] /\
  map fst (flat_map dmarks (dx_nodes x)) = [0; 1; 2; 3; 4; 7] /\
  map assigned (dx_done x) = [1; 2; 6; 5; 3; 0; 1; 2; 4; 7] /\
  exists a b items c, dx_done x = a ++ [AGroup 7 b items] /\ map snd items = [c] /\ map fst (dmarks c) = [5; 6].
Proof.
  eexists. split; [vm_compute; reflexivity|]. split; [vm_compute; reflexivity|]. split; [vm_compute; reflexivity|]. split; [vm_compute; reflexivity|].
  split; [vm_compute; reflexivity|]. cbn [dx_done]. eexists [_; _; _; _; _; _; _; _; _], _, _, _. split; [reflexivity|]. split; reflexivity.
Qed.
