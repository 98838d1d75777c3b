(* PropertiesAttach.v -- C42, C43, C44: labels, arguments, conditions, isolated blocks *)
From Verif Require Import AttachFacts PropertiesDoc.

(* ------------------------------------------------------------------ C42 *)
(* what happens to an element that makes a node and is not kept apart *)
Definition node_in (el : element) (x x' : dx) : Prop :=
  dx_control x' = None /\
  ((exists n a, adds x x' n /\ given_args el x a /\ part_of (fst (node_attrs n)) a /\ snd (node_attrs n) = dx_labels x /\ allowed x (dx_env x')) \/
   (adds_nothing x x' /\ ~ allowed x (dx_env x'))).

Lemma node_in_finish el x y ok n z a : admitted y ok -> dx_control y = dx_control x -> dx_nodes y = dx_nodes x ->
  z = (if ok then set_nodes (set_control y None) (dx_nodes x ++ [n]) else set_control y None) ->
  given_args el x a -> part_of (fst (node_attrs n)) a -> snd (node_attrs n) = dx_labels x -> node_in el x z.
Proof.
  intros Ha Ec En -> Hg Hp Hl. apply admitted_allowed in Ha. unfold allowed in Ha. rewrite Ec in Ha. unfold node_in. destruct ok.
  - split; [reflexivity|]. left. exists n, a. split; [reflexivity|]. split; [exact Hg|]. split; [exact Hp|]. split; [exact Hl|]. apply Ha. reflexivity.
  - split; [reflexivity|]. right. split; [exact En|]. intros K. apply Ha in K. discriminate K.
Qed.
Lemma given_none x k : nonempty (pending_arg x k) = None <-> ~ arg_given x k.
Proof.
  unfold arg_given. destruct (pending_arg x k) as [[|c v]|]; cbn; split; try discriminate; auto.
  - intros _ (w & [= <-] & H). contradiction.
  - intros H. exfalso. apply H. eexists. split; [reflexivity|discriminate].
  - intros _ (w & [=] & _).
Qed.
Lemma given_some x k v : nonempty (pending_arg x k) = Some v -> arg_given x k.
Proof. unfold arg_given. destruct (pending_arg x k) as [[|c w]|]; cbn; try discriminate. intros _. eexists. split; [reflexivity|discriminate]. Qed.

Theorem C42_next_node_only_partial cf m el x x' : acts cf (dp_run m cf) el x x' -> is_node el ->
  dx_args x' = None /\ dx_labels x' = [] /\
  ((~ kept_apart el x /\ node_in el x x') \/
   (kept_apart el x /\ adds_nothing x x' /\ dx_control x' = dx_control x)).
Proof.
  intros H Hn. assert (R : forall e n d f t o, fine_res (dp_run m cf e n d f t o)) by (intros; apply dp_run_fine).
  destruct el as [t|t|o n c v|r t|o op c|o t c|h t|o t c|o ty args|items|ls]; cbn [is_node] in Hn; try destruct Hn; cbn [acts] in H.
  - apply do_rule_inv in H as (ok & Ha & E). split; [subst; destruct ok; reflexivity|]. split; [subst; destruct ok; reflexivity|]. left. split; [intros []|].
    eapply node_in_finish; [exact Ha|reflexivity|reflexivity|exact E|reflexivity|apply part_refl|reflexivity].
  - apply do_header_inv in H as (nodes & ms & hs & next & ctx & ok & _ & Ha & H).
    split; [destruct ok; [destruct H as (links & _ & ->)|subst]; reflexivity|]. split; [destruct ok; [destruct H as (links & _ & ->)|subst]; reflexivity|].
    left. split; [intros []|]. apply admitted_allowed in Ha. unfold allowed in Ha. cbn in Ha. destruct ok.
    + destruct H as (links & _ & ->). split; [reflexivity|]. left. do 2 eexists. split; [reflexivity|]. split; [reflexivity|]. split; [|split; [reflexivity|]].
      * cbn [node_attrs fst h_args]. eapply part_trans; [apply pop_part; used|apply pop_part; used].
      * apply Ha. reflexivity.
    + subst x'. split; [reflexivity|]. right. split; [reflexivity|]. intros K. apply Ha in K. discriminate K.
  - apply do_block_inv in H as (node & a & nctx & y & H1 & H); [|exact R].
    pose proof (engine_args _ R _ _ _ _ _ _ _ _ _ _ H1) as (Pa & Pn & Pk).
    assert (F : dx_args y = None /\ dx_labels y = dx_labels x /\ dx_control y = dx_control x /\ dx_nodes y = dx_nodes x).
    { apply engine_inv in H1 as [(-> & _)|(_ & t' & y' & _ & _ & _ & -> & _)]; [auto|unfold after_child; destruct (isolated _); auto|exact R]. }
    destruct F as (F1 & F2 & F3 & F4). rewrite F2 in H.
    assert (G : forall k, In k ["footnote"; "group"; "position"]%string -> dget (lit k) (na_named a) = pending_arg x k).
    { intros k Hk. rewrite pending_args, Pk, block_args_other; [reflexivity| | |]; cbn [In] in Hk; destruct Hk as [<-|[<-|[<-|[]]]]; cbn; intuition discriminate. }
    rewrite (G "footnote"%string), (G "group"%string), (G "position"%string) in H by (cbn; auto).
    destruct (nonempty (pending_arg x "footnote")) as [name|] eqn:Ef.
    { destruct H as (k & _ & ->). split; [exact F1|]. split; [reflexivity|]. right. split; [left; exact (given_some _ _ _ Ef)|]. split; [exact F4|exact F3]. }
    apply given_none in Ef.
    assert (K : (exists ok, admitted (set_labels y []) ok /\
              x' = (if ok then set_nodes (set_control (set_labels y []) None) (dx_nodes y ++ [node (mkAttrs a (dx_labels x) (merge_contexts (t_ctx o) (t_ctx c)))]) else set_control (set_labels y []) None)) ->
            ~ kept_apart (EBlock o t c) x -> 
            dx_args x' = None /\ dx_labels x' = [] /\ ((~ kept_apart (EBlock o t c) x /\ node_in (EBlock o t c) x x') \/ (kept_apart (EBlock o t c) x /\ adds_nothing x x' /\ dx_control x' = dx_control x))).
    { intros (ok & Ha & E) Hk. split; [subst; destruct ok; exact F1|]. split; [subst; destruct ok; reflexivity|]. left. split; [exact Hk|].
      rewrite F4 in E. eapply node_in_finish with (a := args_or (dx_args x)); [exact Ha|exact F3|exact F4|exact E|reflexivity|rewrite (proj1 (Pn _)); exact (part_trans _ _ _ Pa (block_args_part x))|rewrite (proj1 (Pn _)); reflexivity]. }
    destruct (nonempty (pending_arg x "group")) as [g|] eqn:Eg.
    2: { apply K; [exact H|]. apply given_none in Eg. intros [L|[L _]]; contradiction. }
    destruct (nonempty (pending_arg x "position")) as [p|] eqn:Ep.
    2: { apply K; [exact H|]. apply given_none in Ep. intros [L|[_ L]]; contradiction. }
    destruct H as (k & _ & ->). split; [exact F1|]. split; [reflexivity|]. right. split; [right; split; [exact (given_some _ _ _ Eg)|exact (given_some _ _ _ Ep)]|].
    split; [exact F4|exact F3].
  - apply element_include_inv in H as (a & Hg & H). apply do_include_inv in H as (node & a' & y & ok & H1 & F & Ha & E); [|exact R].
    apply include_args in H1 as [Pa Pn]. destruct F as (F1 & F2 & F3 & F4 & _).
    split; [subst; destruct ok; exact F4|]. split; [subst; destruct ok; reflexivity|]. left. split; [intros []|].
    eapply node_in_finish with (a := a); [exact Ha|exact F3|exact F1|exact E| |rewrite Pn; exact Pa|rewrite Pn; reflexivity].
    destruct args as [[c t]|]; exact Hg.
  - destruct H as (i & its & nodes & x1 & H1 & _ & H). apply runs_items in H1 as (ms & hs & next & ->).
    apply do_list_inv in H as (start & latest & ctx & ok & Ha & E & _). split; [subst; destruct ok; reflexivity|]. split; [subst; destruct ok; reflexivity|].
    left. split; [intros []|]. eapply node_in_finish; [exact Ha|reflexivity|reflexivity|exact E|reflexivity|apply part_refl|reflexivity].
  - apply do_paragraph_inv in H as (lines & ms & hs & next & ctx & ok & Ha & E). split; [subst; destruct ok; reflexivity|]. split; [subst; destruct ok; reflexivity|].
    left. split; [intros []|]. eapply node_in_finish; [exact Ha|reflexivity|reflexivity|exact E|reflexivity|apply part_refl|reflexivity].
Qed.

(* the other elements: they only add what they say *)
Lemma keys_dset_in {A} k r (v : A) d : In r (keys (dset k v d)) <-> In r (keys d) \/ In r [k].
Proof.
  rewrite keys_dset. destruct (mem_str k (keys d)) eqn:E; [|apply in_app_iff]. split; [auto|]. intros [H|[<-|[]]]; [exact H|]. apply mem_str_In, E.
Qed.
Theorem C42_between cf m el x x' : acts cf (dp_run m cf) el x x' -> ~ is_node el ->
  adds_nothing x x' /\
  (forall r, In r (keys (dx_labels x')) <-> In r (keys (dx_labels x)) \/ In r (label_role el)) /\
  match el with
  | EArguments _ t _ => exists p, process_arguments_with_variables (dx_env x) t = Ok p /\ dx_args x' = Some (arguments_of p)
  | _ => dx_args x' = dx_args x
  end /\
  match el with
  | EControl o op c => exists k, make_control (dx_env x) o op c = Ok k /\ dx_control x' = Some k
  | _ => dx_control x' = dx_control x
  end.
Proof.
  intros H Hn. assert (Z : forall r l, In r l <-> In r l \/ In r (@nil str)) by (intros r l; cbn; tauto).
  destruct el as [t|t|o n c v|r t|o op c|o t c|h t|o t c|o ty args|items|ls]; cbn [is_node] in Hn; try (exfalso; exact (Hn I)); cbn [acts do_element] in H; cbn [label_role].
  - apply runs_ret in H as [_ ->]. split; [reflexivity|]. auto.
  - apply do_variable_inv in H as (k & s & _ & ->). split; [reflexivity|]. auto.
  - apply do_label_inv in H as (nodes & ms & hs & next & ->). split; [reflexivity|]. split; [|auto]. intros role. cbn [set_labels dx_labels]. apply keys_dset_in.
  - apply do_control_inv in H as (k & E & ->). split; [reflexivity|]. split; [auto|]. split; [reflexivity|]. exists k. auto.
  - apply do_arguments_inv in H as (p & E & ->). split; [reflexivity|]. split; [auto|]. split; [|reflexivity]. exists p. auto.
Qed.

(* After a node, the next one gets only what was written between them. *)
Theorem C42_never_a_later_node_partial cf m el x x1 mid x2 : acts cf (dp_run m cf) el x x1 -> is_node el ->
  act_all cf (dp_run m cf) mid x1 x2 -> Forall (fun el => ~ is_node el) mid ->
  (forall r, In r (keys (dx_labels x2)) <-> In r (flat_map label_role mid)) /\
  ((forall o t c, ~ In (EArguments o t c) mid) -> dx_args x2 = None) /\
  (~ kept_apart el x -> (forall o op c, ~ In (EControl o op c) mid) -> dx_control x2 = None) /\
  (kept_apart el x -> (forall o op c, ~ In (EControl o op c) mid) -> dx_control x2 = dx_control x).
Proof.
  intros H Hn Hm Hf. apply C42_next_node_only_partial in H as (E1 & E2 & E3); [|exact Hn].
  assert (K : (forall r, In r (keys (dx_labels x2)) <-> In r (keys (dx_labels x1)) \/ In r (flat_map label_role mid)) /\
    ((forall o t c, ~ In (EArguments o t c) mid) -> dx_args x2 = dx_args x1) /\ ((forall o op c, ~ In (EControl o op c) mid) -> dx_control x2 = dx_control x1)).
  { clear - Hm Hf. induction Hm as [x|el els x y z H _ IH]; [split; [intros r; cbn; tauto|auto]|]. inversion Hf as [|? ? Hel Hels]; subst.
    destruct (IH Hels) as (I1 & I2 & I3). apply C42_between in H as (_ & J1 & J2 & J3); [|exact Hel]. split; [|split].
    - intros r. rewrite I1, J1. cbn [flat_map]. rewrite in_app_iff. tauto.
    - intros Hno. rewrite I2 by (intros o t c Hin; exact (Hno o t c (or_intror Hin))).
      destruct el; try exact J2. exfalso. exact (Hno _ _ _ (or_introl eq_refl)).
    - intros Hno. rewrite I3 by (intros o t c Hin; exact (Hno o t c (or_intror Hin))).
      destruct el; try exact J3. exfalso. exact (Hno _ _ _ (or_introl eq_refl)). }
  destruct K as (K1 & K2 & K3). split; [intros r; rewrite K1, E2; cbn; tauto|]. split; [intros Hno; rewrite (K2 Hno); exact E1|]. split.
  - intros Hk Hno. rewrite (K3 Hno). destruct E3 as [(_ & E3 & _)|(E3 & _)]; [exact E3|contradiction].
  - intros Hk Hno. rewrite (K3 Hno). destruct E3 as [(E3 & _)|(_ & _ & E3)]; [contradiction|exact E3].
Qed.

(* The claim is false for the body of a footnote and for the blocks of a group: the
   condition written before them decides on the node after them. *)
Definition shapes (r : res (list dnode)) : res (list string) :=
  rmap (map (fun n => match n with
    | DRule _ => "rule" | DHeader _ => "header" | DParagraph _ _ => "paragraph" | DBlock _ _ _ => "block" | DRaw _ _ _ => "raw" | DSource _ _ _ _ => "source"
    | DList _ _ _ _ _ => "list" | DItem _ _ _ => "item" | DImage _ _ _ _ => "image" | DMau _ _ _ => "mau" | DIncludeRaw _ _ _ => "includeraw" | DToc _ _ => "toc"
    | DFootnotes _ _ => "footnotes" | DGroup _ _ _ => "group" | DInclude _ _ => "include" end)%string) r.
Theorem C42_refuted_footnote :
  shapes (doc ":f:on|@if f==off|[footnote=a]|----|body|----||one||two") = Ok ["paragraph"%string] /\
  shapes (doc ":f:on|[footnote=a]|----|body|----||one||two") = Ok ["paragraph"; "paragraph"]%string /\
  shapes (doc ":f:on|@if f==off|[group=g,position=p]|----|body|----||one||two") = Ok ["paragraph"%string].
Proof. vm_compute. auto. Qed.
Example C42_ex :
  shapes (doc ":f:on|@if f==off|. label|[a,k=v]|----|body|----||one||two") = Ok ["paragraph"; "paragraph"]%string /\
  rmap (map node_attrs) (doc ". label|[a,k=v]|one||two") =
    Ok [(mkArgs [lit "a"] [(lit "k", lit "v")] [] [] None, [(lit "title", [NText (lit "label") (mkContext 0 2 0 7 None)])]); (empty_args, [])].
Proof. vm_compute. auto. Qed.

(* ------------------------------------------------------------------ C43 *)
(* a block whose headers and footnotes are also those of the document *)
Definition merged (el : element) (x : dx) : Prop :=
  match el with EBlock _ _ _ => pending_arg x "isolate" = Some (lit "false") | _ => False end.
Lemma isolated_iff x : isolated (block_args x) = false <-> pending_arg x "isolate" = Some (lit "false").
Proof.
  unfold isolated. rewrite block_args_other by discriminate. rewrite pending_args. destruct (dget (lit "isolate") (na_named (args_or (dx_args x)))) as [v|]; cbn [or_else].
  - destruct (str_eqb_spec v (lit "false")) as [->|N].
    + split; intros _; reflexivity.
    + split; [discriminate|]. intros E. exfalso. apply N. congruence.
  - split; discriminate.
Qed.
Theorem C43_excluded_partial cf m el x x' : acts cf (dp_run m cf) el x x' -> is_node el -> ~ kept_apart el x -> ~ allowed x (dx_env x') ->
  adds_nothing x x' /\ hm_headers (dx_links x') = hm_headers (dx_links x) /\
  (~ merged el x -> tm_headers (dx_toc x') = tm_headers (dx_toc x) /\ fm_bodies (dx_foot x') = fm_bodies (dx_foot x)).
Proof.
  intros H Hn Hk Hx. pose proof (C42_next_node_only_partial _ _ _ _ _ H Hn) as (_ & _ & [(_ & _ & [(n & a & _ & _ & _ & _ & K)|(An & _)])|(K & _)]); try contradiction.
  split; [exact An|]. assert (R : forall e n d f t o, fine_res (dp_run m cf e n d f t o)) by (intros; apply dp_run_fine).
  destruct el as [t|t|o n c v|r t|o op c|o t c|h t|o t c|o ty args|items|ls]; cbn [is_node] in Hn; try destruct Hn; cbn [acts] in H.
  - apply do_rule_inv in H as (ok & Ha & ->). destruct ok; auto.
  - apply do_header_inv in H as (nodes & ms & hs & next & ctx & ok & _ & Ha & H). destruct ok.
    + exfalso. apply Hx. destruct H as (links & _ & ->). apply admitted_allowed in Ha. apply Ha. reflexivity.
    + subst x'. auto.
  - apply do_block_inv in H as (node & a & nctx & y & H1 & H); [|exact R].
    assert (E : hm_headers (dx_links y) = hm_headers (dx_links x) /\ (~ merged (EBlock o t c) x -> tm_headers (dx_toc y) = tm_headers (dx_toc x) /\ fm_bodies (dx_foot y) = fm_bodies (dx_foot x))).
    { apply engine_inv in H1 as [(-> & _)|(_ & t' & y' & _ & _ & _ & -> & _)]; [auto| |exact R]. unfold after_child. split; [destruct (isolated _); reflexivity|].
      intros Hm. destruct (isolated (block_args x)) eqn:Ei; [auto|]. exfalso. apply Hm, isolated_iff, Ei. }
    assert (G : forall z, (z = set_labels y [] \/ (exists l, z = set_nodes (set_control (set_labels y []) None) l) \/ z = set_control (set_labels y []) None \/ (exists g, z = set_groups (set_labels y []) g)) ->
       hm_headers (dx_links z) = hm_headers (dx_links x) /\ (~ merged (EBlock o t c) x -> tm_headers (dx_toc z) = tm_headers (dx_toc x) /\ fm_bodies (dx_foot z) = fm_bodies (dx_foot x))).
    { intros z [->|[(l & ->)|[->|(g & ->)]]]; exact E. }
    pose proof (engine_args _ R _ _ _ _ _ _ _ _ _ _ H1) as (_ & _ & Pk).
    destruct (nonempty (dget (lit "footnote") (na_named a))) eqn:Ef.
    { exfalso. apply Hk. left. rewrite Pk in Ef by (cbn; intuition discriminate). rewrite block_args_other in Ef by discriminate.
      rewrite <- (pending_args x "footnote") in Ef. exact (given_some _ _ _ Ef). }
    apply G. destruct (nonempty (dget (lit "group") (na_named a))); [|destruct H as ([|] & _ & ->); [right; left|right; right; left]; eauto].
    destruct (nonempty (dget (lit "position") (na_named a))); [|destruct H as ([|] & _ & ->); [right; left|right; right; left]; eauto].
    destruct H as (k & _ & ->). right. right. right. eauto.
  - apply element_include_inv in H as (a & _ & H). apply do_include_inv in H as (node & a' & y & ok & _ & F & _ & ->); [|exact R].
    destruct F as (_ & _ & _ & _ & F5 & _ & _ & F8 & _ & F10). destruct ok; cbn; rewrite F5, F8, F10; auto.
  - destruct H as (i & its & nodes & x1 & H1 & _ & H). apply runs_items in H1 as (ms & hs & next & ->).
    apply do_list_inv in H as (start & latest & ctx & ok & Ha & -> & _). destruct ok; auto.
  - apply do_paragraph_inv in H as (lines & ms & hs & next & ctx & ok & Ha & ->). destruct ok; auto.
Qed.

(* The headers of an excluded block with isolate=false are in the table of contents;
   a footnote mentioned in an excluded paragraph must exist; a block can change the
   variable its own condition reads. *)
Definition headers_of (s : string) : res nat := rmap (fun y => length (tm_headers (dx_toc y))) (parse_document 5 cf0 env_empty (mau s) (mkOrigin 0 0 None)).
Definition failing {A} (r : res A) : Prop := exists c, r = Exc (parser_error "Footnote has not been defined." c).
Theorem C43_refuted_merged_block :
  shapes (doc ":f:on|@if f==off|[isolate=false]|----|= A|----||end") = Ok ["paragraph"%string] /\
  headers_of ":f:on|@if f==off|[isolate=false]|----|= A|----||end" = Ok 1 /\
  headers_of ":f:on|@if f==off|= A|" = Ok 0.
Proof. vm_compute. auto. Qed.
Theorem C43_refuted_mention : failing (doc ":f:on|@if f==off|text [footnote](a)||end").
Proof. vm_compute. eauto. Qed.
Theorem C43_block_changes_its_condition :
  shapes (doc ":f:on|@if f==off|----|:f:off|----||end") = Ok ["block"; "paragraph"]%string.
Proof. vm_compute. reflexivity. Qed.
Example C43_ex : shapes (doc ":f:on|@if f==off|= A||end") = Ok ["paragraph"%string].
Proof. vm_compute. reflexivity. Qed.

(* ------------------------------------------------------------------ C44 *)
(* x' after a block of Mau text whose own parser ended in the state y *)
Theorem C44_isolation cf m o t c x x' : acts cf (dp_run m cf) (EBlock o (Some t) c) x x' -> t_value t <> [] ->
  (pending_arg x "engine" = None \/ pending_arg x "engine" = Some (lit "default")) ->
  exists y, dp_run m cf (dx_env x) (dx_next x) (dx_done x) [] (t_value t) (origin_of t) = Ok y /\
    (pending_arg x "isolate" = Some (lit "false") ->
       tm_headers (dx_toc x') = tm_headers (dx_toc x) ++ tm_headers (dx_toc y) /\
       fm_macros (dx_foot x') = fm_macros (dx_foot x) ++ fm_macros (dx_foot y) /\
       (forall k, ~ arg_given x "footnote" -> dget k (fm_bodies (dx_foot x')) = dget k (dupd (fm_bodies (dx_foot x)) (fm_bodies (dx_foot y))))) /\
    (pending_arg x "isolate" <> Some (lit "false") ->
       tm_headers (dx_toc x') = tm_headers (dx_toc x) /\
       fm_macros (dx_foot x') = fm_macros (dx_foot x) /\
       (~ arg_given x "footnote" -> fm_bodies (dx_foot x') = fm_bodies (dx_foot x))).
Proof.
  intros H Ht He. assert (R : forall e n d f t o, fine_res (dp_run m cf e n d f t o)) by (intros; apply dp_run_fine).
  cbn [acts do_element] in H. apply do_block_inv in H as (node & a & nctx & y0 & H1 & H); [|exact R].
  pose proof (engine_args _ R _ _ _ _ _ _ _ _ _ _ H1) as (_ & _ & Pk).
  assert (En : block_engine x = lit "default").
  { unfold block_engine. cbn [pop_arg fst snd na_named]. rewrite dget_ddel_ne by discriminate. rewrite !pending_args in He.
    destruct He as [->| ->]; reflexivity. }
  rewrite En in H1. apply engine_inv in H1 as [(_ & K)|(_ & t' & y & Et & _ & Ey & -> & _)]; [| |exact R].
  { exfalso. destruct (K eq_refl) as ([K'|(t' & E & K')] & _); [discriminate K'|]. injection E as <-. contradiction. }
  injection Et as <-. exists y. split; [exact Ey|].
  assert (G : dx_toc x' = dx_toc (after_child (set_args x None) y (isolated (block_args x))) /\ fm_macros (dx_foot x') = fm_macros (dx_foot (after_child (set_args x None) y (isolated (block_args x)))) /\
      (~ arg_given x "footnote" -> dx_foot x' = dx_foot (after_child (set_args x None) y (isolated (block_args x))))).
  { set (y1 := after_child (set_args x None) y (isolated (block_args x))) in *. destruct (nonempty (dget (lit "footnote") (na_named a))) eqn:Ef.
    - rewrite Pk in Ef by (cbn; intuition discriminate). rewrite block_args_other in Ef by discriminate. rewrite <- (pending_args x "footnote") in Ef.
      destruct H as (m' & E & ->). split; [reflexivity|]. split; [|intros N; exfalso; exact (N (given_some _ _ _ Ef))].
      unfold fm_add_body in E. destruct (dmem _ _); [discriminate E|]. apply Ok_inv in E. subst m'. reflexivity.
    - assert (F : forall z, (exists l, z = set_nodes (set_control (set_labels y1 []) None) l) \/ z = set_control (set_labels y1 []) None \/ (exists g, z = set_groups (set_labels y1 []) g) ->
          dx_toc z = dx_toc y1 /\ fm_macros (dx_foot z) = fm_macros (dx_foot y1) /\ (~ arg_given x "footnote" -> dx_foot z = dx_foot y1)).
      { intros z [(l & ->)|[->|(g & ->)]]; auto. }
      apply F. destruct (nonempty (dget (lit "group") (na_named a))); [|destruct H as ([|] & _ & ->); eauto].
      destruct (nonempty (dget (lit "position") (na_named a))); [|destruct H as ([|] & _ & ->); eauto]. destruct H as (k & _ & ->). eauto. }
  destruct G as (G1 & G2 & G3). split.
  - intros Hi. apply isolated_iff in Hi. rewrite Hi in *. rewrite G1, G2. split; [reflexivity|]. split; [reflexivity|]. intros k Hf. rewrite (G3 Hf). reflexivity.
  - intros Hi. destruct (isolated (block_args x)) eqn:Ei; [|exfalso; apply Hi, isolated_iff, Ei]. rewrite G1, G2. split; [reflexivity|]. split; [reflexivity|].
    intros Hf. rewrite (G3 Hf). reflexivity.
Qed.
Example C44_ex : headers_of "= A|[isolate=false]|----|= B|== C|----|" = Ok 3 /\ headers_of "= A|----|= B|== C|----|" = Ok 1.
Proof. vm_compute. auto. Qed.
