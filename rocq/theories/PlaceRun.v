(* PlaceRun.v -- the errors of a document and of what it includes *)
From Verif Require Import SimFacts LexerThms InlineInst ParseFacts RunFacts TermFacts TermText DocFacts MonoFacts ErrDoc DocLexerProps.
From Verif Require Export PlaceDoc.
#[local] Notation length := List.length.

(* ------------------------------------------------- the parsers inside *)
(* m uses its parser at most once, with the given arguments, when it starts from s *)
Definition uses (m : run_fn -> D bool) (x : dx) (e : env) (n : nat) (d : list assign) (f : list (option str)) (t : str) (o : origin) : Prop :=
  forall run rem, match run e n d f t o with
    | Ok y => m run (rem, x) = m (fun _ _ _ _ _ _ => Ok y) (rem, x)
    | Exc ex => snd (m run (rem, x)) = Exc ex
    end.
Definition ignores (m : run_fn -> D bool) (x : dx) : Prop := forall run run' rem, m run (rem, x) = m run' (rem, x).

Lemma uses_once m x e n d f t o : (exists K st, forall run rem, m run (rem, x) = match run e n d f t o with Ok y => K y rem | Exc ex => (st rem ex, Exc ex) end) -> uses m x e n d f t o.
Proof. intros (K & st & H) run rem. pose proof (H run rem) as E. destruct (run e n d f t o); rewrite E; [rewrite H; reflexivity|reflexivity]. Qed.

Lemma block_shape o content c x : ignores (fun run => dp_do_block run o content c) x \/
  exists t, content = Some t /\ uses (fun run => dp_do_block run o content c) x (dx_env x) (dx_next x) (dx_done x) [] (t_value t) (origin_of t).
Proof.
  set (a := match dx_args x with Some a => a | None => empty_args end).
  assert (E : forall run rem, dp_do_block run o content c (rem, x) =
    (let ctx := merge_contexts (t_ctx o) (t_ctx c) in
     let '(classes, a) := pop_arg a (lit "classes") in
     let classes := match nonempty classes with None => [] | Some s => split_on COMMA s end in
     let '(engine, a) := pop_arg a (lit "engine") in
     let* r := dp_engine run (or_else engine (lit "default")) ctx content classes a in
     let '(node, a, nctx) := r in
     let* l := dp_pop_labels in
     match nonempty (dget (lit "footnote") (na_named a)) with
     | Some name =>
         let* x := pget in
         let* m := plift (fm_add_body (dx_foot x) name (node (mkAttrs empty_args l nctx)) nctx) in
         pmod (fun x => set_foot x m) ;;; pret true
     | None =>
         let n := node (mkAttrs a l ctx) in
         match nonempty (dget (lit "group") (na_named a)), nonempty (dget (lit "position") (na_named a)) with
         | Some group, Some position =>
             let* x := pget in
             let* m := plift (gm_add_block (dx_groups x) group position n ctx) in
             pmod (fun x => set_groups x m) ;;; pret true
         | _, _ => dp_finish n
         end
     end) (rem, set_args x None)) by reflexivity.
  cbv zeta in E. destruct (pop_arg a (lit "classes")) as [classes a1]. destruct (pop_arg a1 (lit "engine")) as [engine a2].
  unfold dp_engine in E. destruct (str_eqb (or_else engine (lit "default")) (lit "default")).
  2:{ left. intros run run' rem. rewrite !E. reflexivity. }
  unfold dp_default_engine in E. destruct content as [t|]; [|left; intros run run' rem; rewrite !E; reflexivity].
  destruct (token_truthy t); [|left; intros run run' rem; rewrite !E; reflexivity].
  right. exists t. split; [reflexivity|]. apply uses_once. do 2 eexists. intros run rem. rewrite E. unfold pbind, pget, plift. cbn [fst snd].
  change (dx_env (set_args x None)) with (dx_env x). change (dx_next (set_args x None)) with (dx_next x). change (dx_done (set_args x None)) with (dx_done x).
  destruct (run (dx_env x) (dx_next x) (dx_done x) [] (t_value t) (origin_of t)) as [y|ex]; reflexivity.
Qed.

Lemma include_shape cf ty ctx a x : calm_env (dx_env x) -> calm_args a -> ignores (fun run => dp_do_include cf run ty ctx a) x \/
  exists e n d f t uri, uses (fun run => dp_do_include cf run ty ctx a) x e n d f t (mkOrigin 0 0 (Some uri)) /\ cf_files cf uri = File t /\ calm_env e /\ d = dx_done x.
Proof.
  intros He Ha. unfold dp_do_include. destruct (str_eqb ty (lit "image")); [left; intros run run' rem; reflexivity|].
  destruct (str_eqb ty (lit "mau")); [|left; intros run run' rem; reflexivity].
  unfold dp_mau. apply (fun H => calm_names _ [lit "uri"] H) in Ha.
  pose proof (calm_pop _ (lit "uri") Ha) as [Ha1 _]. destruct (pop_arg (args_set_names a _) _) as [uri a1]. cbn [snd] in Ha1.
  pose proof (calm_pop _ (lit "pass_environment") Ha1) as [Ha2 _]. destruct (pop_arg a1 _) as [pass a2]. cbn [snd] in Ha2.
  unfold need_uri. destruct (nonempty uri) as [u|]; [|left; intros run run' rem; reflexivity].
  destruct (source_in (Some u) (add_source (c_source ctx) (dx_forbidden x))) eqn:Es.
  { left. intros run run' rem. unfold pbind, pget, pmod, pret. cbn [fst snd set_forbidden dx_forbidden]. rewrite !Es. reflexivity. }
  unfold dp_read. destruct (cf_files cf u) as [text| |cls] eqn:Ef.
  2,3: left; intros run run' rem; unfold pbind, pget, pmod, pret; cbn [fst snd set_forbidden dx_forbidden]; rewrite !Es; rewrite ?Ef; reflexivity.
  set (calls := filter (fun kv : str * str => startswith CALL (fst kv)) (na_named a2)). set (call_args := fold_left (fun d (kv : str * str) => dset (removeprefix CALL (fst kv)) (snd kv) d) calls []).
  assert (Hcall : calm_env (map (fun kv : str * str => (fst kv, EStr (snd kv))) call_args)).
  { assert (K : Forall (fun kv : str * str => one_line (snd kv)) call_args).
    { unfold call_args. assert (Hc : Forall (fun kv : str * str => one_line (snd kv)) calls) by (apply all_filter, Ha2). revert Hc. generalize calls as l, (@nil (str * str)) as acc, (Forall_nil (fun kv : str * str => one_line (snd kv))). clear. induction l as [|kv l IH]; intros acc Hacc Hc; [exact Hacc|]. inversion Hc; subst. cbn [fold_left]. apply IH; [|assumption]. apply (all_dset one_line); assumption. }
    unfold calm_env. induction K; constructor; auto. }
  set (f1 := add_source (Some u) (add_source (c_source ctx) (dx_forbidden x))).
  assert (E1 : forall (e0 : env), calm_env e0 -> calm_env (env_dupdate e0 (map (fun kv : str * str => (fst kv, EStr (snd kv))) call_args) None)) by (intros e0 He0; apply calm_dupdate; assumption).
  destruct (str_eqb (or_else pass (lit "true")) (lit "true")) eqn:Ep.
  - destruct (env_from_environment (dx_env x) None) as [e0|ex] eqn:Ee.
    + right. exists (env_dupdate e0 (map (fun kv : str * str => (fst kv, EStr (snd kv))) call_args) None), (dx_next x), (dx_done x), f1, text, u. split; [|split; [exact Ef|split; [apply E1, (calm_from_environment (dx_env x) None); assumption|reflexivity]]].
      apply uses_once. do 2 eexists. intros run rem. unfold pbind, pget, pmod, pret, plift. cbn [fst snd set_forbidden dx_forbidden]. rewrite Es, Ef. cbn [fst snd].
      change (dx_env (set_forbidden (set_forbidden x (add_source (c_source ctx) (dx_forbidden x))) f1)) with (dx_env x). rewrite ?Ep. cbn [fst snd set_forbidden dx_forbidden dx_env dx_next dx_done]. rewrite Ee. cbn [fst snd].
      fold call_args. fold f1. match goal with |- context [run ?a ?b ?c ?d ?e ?f] => destruct (run a b c d e f) as [y|ex] end; reflexivity.
    + left. intros run run' rem. unfold pbind, pget, pmod, pret, plift. cbn [fst snd set_forbidden dx_forbidden]. rewrite !Es, !Ef. cbn [fst snd set_forbidden dx_forbidden dx_env]. rewrite ?Ep, !Ee. reflexivity.
  - right. exists (env_dupdate env_empty (map (fun kv : str * str => (fst kv, EStr (snd kv))) call_args) None), (dx_next x), (dx_done x), f1, text, u. split; [|split; [exact Ef|split; [apply E1; constructor|reflexivity]]].
    apply uses_once. do 2 eexists. intros run rem. unfold pbind, pget, pmod, pret, plift. cbn [fst snd set_forbidden dx_forbidden]. rewrite Es, Ef, ?Ep. cbn [fst snd set_forbidden dx_forbidden dx_env dx_next dx_done].
    fold call_args. fold f1. match goal with |- context [run ?a ?b ?c ?d ?e ?f] => destruct (run a b c d e f) as [y|ex] end; reflexivity.
Qed.

(* ---------------------------------------------------------- one element *)
Section Element.
  Context (W : context -> Prop) (cf : config) (src : option str) (plo phi lo hi : nat) (Hlo : plo <= lo) (Hhi : hi <= phi) (HW : forall c, within src plo phi c -> W c).
  Definition fine (run : run_fn) (el : element) (x : dx) : Prop :=
    (forall x', acts cf run el x x' -> sound W src plo phi x' /\ news src lo hi (dx_nodes x) x') /\
    (forall m, element_fails cf run el x (ExMau m) -> own src lo hi (dx_control x) m).
  Definition listed (el : element) : Prop := exists items, el = EItems items.
  Lemma fine_of run run' el x : ~ listed el -> (forall rem, do_element cf run el (rem, x) = do_element cf run' el (rem, x)) ->
    wq src lo hi (dx_control x) (done W src plo phi lo hi (dx_nodes x)) (do_element cf run' el) ([], x) -> fine run el x.
  Proof.
    intros Hl E Wq. unfold wq in Wq. rewrite <- E in Wq. split.
    - intros x' H. assert (R : runs (do_element cf run el) x true x') by (destruct el; try exact H; destruct Hl; eexists; reflexivity). rewrite (R []) in Wq. exact Wq.
    - intros m H. assert (R : fails (do_element cf run el) x (ExMau m)) by (destruct el; try exact H; destruct Hl; eexists; reflexivity). specialize (R []). destruct (do_element cf run el ([], x)) as [s' r]. cbn [snd] in R. subst r. exact Wq.
  Qed.
  Lemma J_start x : sound W src plo phi x -> J W src plo phi lo hi (dx_control x) (dx_nodes x) x.
  Proof. intros H. split; [exact H|]. split; [auto|]. exists []. rewrite app_nil_r. split; [reflexivity|constructor]. Qed.

  (* the outcome of an element: it has no parser inside, or it has one *)
  Definition outcome (el : element) (x : dx) : Prop :=
    (forall run, fine run el x) \/
    exists e n d f t o, ~ listed el /\ asks cf el x e n d f t o /\ calm_env e /\ Forall (assign_ok W) d /\
      ((o_source o = src /\ lo <= o_line o /\ last_line t (o_line o) <= hi /\ (forall run y, run e n d f t o = Ok y -> sound W src plo phi y -> fine run el x)) \/
       (exists uri, cf_files cf uri = File t /\ o = mkOrigin 0 0 (Some uri) /\ (forall run y, run e n d f t o = Ok y -> stored W (within (Some uri) 0 (last_line t 0)) y -> (forall c, within (Some uri) 0 (last_line t 0) c -> W c) -> fine run el x))).

  Notation quiet_run := (fun _ _ _ _ _ _ => Exc (ExPy "")).
  Lemma plain el x : ~ listed el -> (forall run run' rem, do_element cf run el (rem, x) = do_element cf run' el (rem, x)) ->
    wq src lo hi (dx_control x) (done W src plo phi lo hi (dx_nodes x)) (do_element cf quiet_run el) ([], x) -> outcome el x.
  Proof. intros H1 H2 H3. left. intros run. apply (fine_of run quiet_run); [exact H1| |exact H3]. intros rem. apply H2. Qed.

  (* an include, after its arguments *)
  Lemma include_outcome el ty ctx a x x' : ~ listed el -> (forall run rem, do_element cf run el (rem, x) = dp_do_include cf run ty ctx a (rem, x')) ->
    within src lo hi ctx -> calm_args a -> sound W src plo phi x' -> dx_control x' = dx_control x -> dx_nodes x' = dx_nodes x -> outcome el x.
  Proof.
    intros Hl E Hctx Ha Hs Hc Hnd. destruct (include_shape cf ty ctx a x' (proj1 Hs) Ha) as [H|(e & n & d & f & t & uri & H & Hf & He & Hd)].
    - apply plain; [exact Hl| |].
      + intros run run' rem. rewrite !E. apply H.
      + unfold wq. rewrite E. apply (include_places W cf src plo phi lo hi Hlo Hhi (dx_control x) (dx_nodes x) HW quiet_run); [discriminate|discriminate|exact Hctx|]. rewrite <- Hc, <- Hnd. apply J_start, Hs.
    - right. exists e, n, d, f, t, (mkOrigin 0 0 (Some uri)). split; [exact Hl|]. split; [|split; [exact He|split; [rewrite Hd; apply Hs|]]].
      + intros run ex R. assert (K : fails (do_element cf run el) x ex). { intros rem. rewrite E. specialize (H run rem). rewrite R in H. exact H. }
        destruct el; try exact K. destruct Hl. eexists; reflexivity.
      + right. exists uri. split; [exact Hf|]. split; [reflexivity|]. intros run y R Hy HF. apply (fine_of run (fun _ _ _ _ _ _ => Ok y)); [exact Hl| |].
        * intros rem. rewrite !E. specialize (H run rem). rewrite R in H. exact H.
        * unfold wq. rewrite E. apply (include_places W cf src plo phi lo hi Hlo Hhi (dx_control x) (dx_nodes x) HW (fun _ _ _ _ _ _ => Ok y)); [discriminate| |exact Hctx|]; [intros e1 n1 d1 f1 t1 o1 y1 E1; assert (y1 = y) as -> by congruence; exists (within (Some uri) 0 (last_line t 0)); split; [exact Hy|intros c1 c2 M1 M2; apply HF, merge_l; [exact M1|apply within_near, M2]]|]. rewrite <- Hc, <- Hnd. apply J_start, Hs.
  Qed.
  Lemma sound_noargs x : sound W src plo phi x -> sound W src plo phi (set_args x None).
  Proof. intros (A & B & C & D). split; [exact A|]. split; [discriminate|]. split; [exact C|exact D]. Qed.

  Definition item_ok (i : item) : Prop := tok_on src lo hi (fst (fst i)) /\ within src lo hi (dnode_ctx (snd i)) /\ inner W (snd i).
  Lemma nested_ok l its nodes : nested l its nodes -> Forall item_ok its -> Forall (fun n => within src lo hi (dnode_ctx n) /\ inner W n) nodes.
  Proof.
    intros H. induction H as [l|l i its nodes _ _ IH|l i subs its inr nodes _ _ _ _ IH1 _ IH2]; intros Hi; [constructor| |].
    - inversion Hi as [|? ? (_ & H1) H2]; subst. constructor; [exact H1|apply IH, H2].
    - inversion Hi as [|? ? (H0 & H1) H2]; subst. apply Forall_app in H2 as [H2 H3]. constructor; [|apply IH2, H3]. pose proof (IH1 H2) as K.
      cbn [dnode_ctx at_ctx inner]. split; [|split; [|constructor]].
      + apply merge_l; [exact (on_within src plo phi lo hi Hlo Hhi _ H0)|]. apply within_near. exact (proj1 (last_in (fun n => within src lo hi (dnode_ctx n) /\ inner W n) _ _ H1 K)).
      + apply (proj1 (inner_list W (snd i :: inr))). assert (G : forall n, within src lo hi (dnode_ctx n) /\ inner W n -> node_ok W n) by (intros n [G1 G2]; split; [apply HW; eapply within_wider; [| |exact G1]; assumption|exact G2]).
        constructor; [apply G, H1|]. eapply Forall_impl; [exact G|exact K].
  Qed.
  Lemma items_sound c0 old items : forall x its z, reads_items cf items x its z -> Forall (tok_on src lo hi) (flat_map (fun it => [fst it; snd it]) items) ->
    J W src plo phi lo hi c0 old x -> dget [] (dx_env x) = None -> J W src plo phi lo hi c0 old z /\ dget [] (dx_env z) = None /\ Forall item_ok its.
  Proof.
    intros x its z H. induction H as [x|h t r x n x1 its x2 H1 H2 IH]; intros Ht Hx H0; [split; [exact Hx|split; [exact H0|constructor]]|]. cbn [flat_map app fst snd] in Ht. inversion Ht as [|? ? Th Ht1]; subst. inversion Ht1 as [|? ? Tt Ht2]; subst.
    pose proof (item_places W cf src plo phi lo hi Hlo Hhi c0 old HW h t ([], x) Th Tt Hx H0) as Wq. unfold wq in Wq. rewrite (H1 []) in Wq. cbn [snd] in Wq. destruct Wq as (W1 & W2 & W3). destruct (IH Ht2 W1 ltac:(rewrite W2; exact H0)) as (I1 & I2 & I3). split; [exact I1|]. split; [exact I2|]. constructor; [split; [exact Th|exact W3]|exact I3].
  Qed.

  Lemma element_outcome el x : Forall (tok_on src lo hi) (tokens_of el) -> sound W src plo phi x -> dget [] (dx_env x) = None -> outcome el x.
  Proof.
    intros Ht Hs H0. pose proof (J_start x Hs) as HJ.
    destruct el as [t|t|o nm c v|r t|o op c|o t c|h t|o content c|o ty args|items|ls]; cbn [tokens_of app] in Ht.
    - apply plain; [intros [? ?]; discriminate|reflexivity|]. exact (conj Hs (proj2 (proj2 HJ))).
    - apply plain; [intros [? ?]; discriminate|reflexivity|]. inversion Ht; subst. apply rule_places; assumption.
    - apply plain; [intros [? ?]; discriminate|reflexivity|]. apply variable_places; assumption.
    - apply plain; [intros [? ?]; discriminate|reflexivity|]. inversion Ht as [|? ? T1 Ht1]; subst. inversion Ht1; subst. apply label_places; assumption.
    - apply plain; [intros [? ?]; discriminate|reflexivity|]. inversion Ht as [|? ? T1 Ht1]; subst. inversion Ht1 as [|? ? T2 Ht2]; subst. inversion Ht2; subst. apply control_places; assumption.
    - apply plain; [intros [? ?]; discriminate|reflexivity|]. inversion Ht as [|? ? T1 Ht1]; subst. inversion Ht1 as [|? ? T2 Ht2]; subst. apply arguments_places; assumption.
    - apply plain; [intros [? ?]; discriminate|reflexivity|]. inversion Ht as [|? ? T1 Ht1]; subst. inversion Ht1 as [|? ? T2 Ht2]; subst. apply header_places; assumption.
    - assert (Hl : ~ listed (EBlock o content c)) by (intros [? ?]; discriminate). destruct (block_shape o content c x) as [H|(t & -> & H)].
      + apply plain; [exact Hl|exact H|]. apply block_places; try assumption; discriminate.
      + assert (Tt : tok_on src lo hi t). { inversion Ht as [|? ? T1 Ht1]; subst. inversion Ht1; assumption. }
        right. exists (dx_env x), (dx_next x), (dx_done x), [], (t_value t), (origin_of t). split; [exact Hl|]. split; [|split; [apply Hs|split; [apply Hs|]]].
        * intros run ex R rem. specialize (H run rem). rewrite R in H. exact H.
        * left. destruct Tt as (T1 & T2 & T3 & T4). split; [exact T1|]. split; [cbn; lia|]. split; [exact T4|]. intros run y R Hy. apply (fine_of run (fun _ _ _ _ _ _ => Ok y)); [exact Hl| |].
          -- intros rem. specialize (H run rem). rewrite R in H. exact H.
          -- apply block_places; try assumption; [discriminate|]. intros. congruence.
    - assert (Hl : ~ listed (EInclude o ty args)) by (intros [? ?]; discriminate). inversion Ht as [|? ? To Ht1]; subst. inversion Ht1 as [|? ? Tty Ht2]; subst.
      pose proof (on_merge src plo phi lo hi Hlo Hhi _ _ To Tty) as Hctx. destruct args as [[c t]|].
      + inversion Ht2 as [|? ? Tc Ht3]; subst. inversion Ht3 as [|? ? Tt _]; subst. destruct (dx_args x) as [b|] eqn:Eb.
        { apply plain; [exact Hl| |].
          - intros run run' rem. cbn [do_element]. unfold dp_pop_args_opt, pbind, pget, pmod, pret. cbn [fst snd]. rewrite Eb. reflexivity.
          - cbn [do_element]. unfold wq, dp_pop_args_opt, pbind, pget, pmod, pret. cbn [fst snd]. rewrite Eb. left. exact Hctx. }
        pose proof (with_variables_places (dx_env x) t (proj1 Hs)) as K. destruct Tt as (T1 & T2 & T3 & T4). rewrite T1 in K.
        destruct (process_arguments_with_variables (dx_env x) t) as [p|ex] eqn:Ep.
        * apply (include_outcome (EInclude o ty (Some (c, t))) (t_value ty) (merge_contexts (t_ctx o) (t_ctx ty)) (arguments_of p) x (set_args x None)); [exact Hl| |exact Hctx|exact K|apply sound_noargs, Hs|reflexivity|reflexivity].
          intros run rem. cbn [do_element]. unfold dp_inline_args, dp_pop_args_opt, pbind, pget, pmod, pret, plift. cbn [fst snd]. rewrite Eb. cbn [fst snd set_args dx_env]. rewrite Ep. reflexivity.
        * apply plain; [exact Hl| |].
          -- intros run run' rem. cbn [do_element]. unfold dp_inline_args, dp_pop_args_opt, pbind, pget, pmod, pret, plift. cbn [fst snd]. rewrite Eb. cbn [fst snd set_args dx_env]. rewrite Ep. reflexivity.
          -- cbn [do_element]. unfold wq, dp_inline_args, dp_pop_args_opt, pbind, pget, pmod, pret, plift. cbn [fst snd]. rewrite Eb. cbn [fst snd set_args dx_env]. rewrite Ep. destruct ex; try exact I. left. cbn [at_text] in K. eapply placed_wider; [| |exact K]; lia.
      + apply (include_outcome (EInclude o ty None) (t_value ty) (merge_contexts (t_ctx o) (t_ctx ty)) (match dx_args x with Some a => a | None => empty_args end) x (set_args x None)); [exact Hl|reflexivity|exact Hctx| |apply sound_noargs, Hs|reflexivity|reflexivity].
        destruct (dx_args x) as [a|] eqn:Ea; [apply Hs; exact Ea|apply calm_empty].
    - left. intros run. split.
      + intros x' (i & its & nodes & x1 & H1 & H2 & H3). destruct (items_sound _ _ _ _ _ _ H1 Ht HJ H0) as (K1 & K2 & K3). inversion K3 as [|? ? K4 K5]; subst. pose proof (list_places W src plo phi lo hi Hlo Hhi (dx_control x) (dx_nodes x) HW (fst (fst i)) (snd i) nodes ([], x1) (Forall_cons _ (proj2 K4) (nested_ok _ _ _ H2 K5)) K1) as Wq. unfold wq in Wq. rewrite (H3 []) in Wq. exact Wq.
      + intros m [(before & h & t & after & its & x1 & -> & H1 & H2)|(i & its & nodes & x1 & H1 & H2 & H3)].
        * rewrite flat_map_app in Ht. apply Forall_app in Ht as [Ht1 Ht2]. cbn [flat_map app fst snd] in Ht2. inversion Ht2 as [|? ? Th Ht3]; subst. inversion Ht3 as [|? ? Tt _]; subst.
          destruct (items_sound _ _ _ _ _ _ H1 Ht1 HJ H0) as (K1 & K2 & _). pose proof (item_places W cf src plo phi lo hi Hlo Hhi (dx_control x) (dx_nodes x) HW h t ([], x1) Th Tt K1 K2) as Wq. unfold wq in Wq. specialize (H2 []). destruct (dp_do_item cf h t ([], x1)) as [s' rr]. cbn [snd] in H2. subst rr. exact Wq.
        * destruct (items_sound _ _ _ _ _ _ H1 Ht HJ H0) as (K1 & K2 & K3). inversion K3 as [|? ? K4 K5]; subst. pose proof (list_places W src plo phi lo hi Hlo Hhi (dx_control x) (dx_nodes x) HW (fst (fst i)) (snd i) nodes ([], x1) (Forall_cons _ (proj2 K4) (nested_ok _ _ _ H2 K5)) K1) as Wq. unfold wq in Wq. specialize (H3 []). destruct (dp_do_list _ _ _ ([], x1)) as [s' rr]. cbn [snd] in H3. subst rr. exact Wq.
    - apply plain; [intros [? ?]; discriminate|reflexivity|]. apply paragraph_places; assumption.
  Qed.
End Element.

(* ----------------------------------------------------- the whole document *)
Lemma accounted_wider cf src lo hi lo' hi' m : lo' <= lo -> hi <= hi' -> accounted cf src lo hi m -> accounted cf src lo' hi' m.
Proof. intros H1 H2 [H|H]; [left; eapply placed_wider; eassumption|right; exact H]. Qed.

Lemma begins_tokens toks els rest : begins toks els rest -> exists pre, toks = pre ++ rest.
Proof. intros H. induction H as [toks|el toks els rest _ _ _ [pre ->]]; [exists []; reflexivity|]. exists (tokens_of el ++ pre). rewrite app_assoc. reflexivity. Qed.
Lemma begins_more toks els rest els2 rest2 : begins toks els rest -> begins rest els2 rest2 -> begins toks (els ++ els2) rest2.
Proof. intros H K. induction H; [exact K|]. cbn [app]. constructor; auto. Qed.
Lemma begins_made toks els : made_of toks els -> exists eof, begins toks els [eof].
Proof. intros H. induction H as [eof _|el rest els Hs Hm _ [eof IH]]; [exists eof; constructor|]. exists eof. constructor; assumption. Qed.
Lemma acts_more cf run els x y els2 z : act_all cf run els x y -> act_all cf run els2 y z -> act_all cf run (els ++ els2) x z.
Proof. intros H K. induction H; [exact K|]. cbn [app]. econstructor; eauto. Qed.
Lemma shaped_real el : shaped el -> Forall (fun t => t_type t <> T_EOF) (tokens_of el).
Proof.
  assert (T : forall ty t, is_type ty t -> ty <> T_EOF -> t_type t <> T_EOF) by (unfold is_type; intros; congruence).
  assert (T2 : forall ty v t, is_tok ty v t -> ty <> T_EOF -> t_type t <> T_EOF) by (unfold is_tok; intros ? ? ? []; congruence).
  assert (TF : forall l, Forall (is_type T_TEXT) l -> Forall (fun t => t_type t <> T_EOF) l) by (intros l Hl; eapply Forall_impl; [|exact Hl]; intros t Ht; eapply T; [exact Ht|discriminate]).
  destruct el as [t|t|o nm c v|r t|o op c|o t c|h t|o content c|o ty args|items|ls]; cbn [shaped tokens_of app]; unfold is_literal.
  - intros H. repeat constructor. eapply T; [exact H|discriminate].
  - intros H. repeat constructor. eapply T; [exact H|discriminate].
  - intros (H1 & H2 & H3 & H4). repeat (constructor; [first [eapply T; [eassumption|discriminate]|eapply T2; [eassumption|discriminate]]|]). apply TF, H4.
  - intros (H1 & H2). repeat (constructor; [first [eapply T; [eassumption|discriminate]|eapply T2; [eassumption|discriminate]]|]). constructor.
  - intros (H1 & H2 & H3). repeat (constructor; [first [eapply T; [eassumption|discriminate]|eapply T2; [eassumption|discriminate]]|]). constructor.
  - intros (H1 & H2 & H3). repeat (constructor; [first [eapply T; [eassumption|discriminate]|eapply T2; [eassumption|discriminate]]|]). constructor.
  - intros (H1 & H2). repeat (constructor; [first [eapply T; [eassumption|discriminate]|eapply T2; [eassumption|discriminate]]|]). constructor.
  - intros (H1 & H2 & H3). constructor; [eapply T; [exact H1|discriminate]|]. apply Forall_app. split; [apply TF, H2|]. constructor; [eapply T; [exact H3|discriminate]|constructor].
  - intros (H1 & H2 & H3). constructor; [eapply T; [exact H1|discriminate]|]. constructor; [eapply T; [exact H2|discriminate]|]. destruct args as [[c t]|]; [|constructor]. destruct H3 as [H3 H4]. repeat (constructor; [first [eapply T; [eassumption|discriminate]|eapply T2; [eassumption|discriminate]]|]). constructor.
  - intros [_ H]. induction H as [|it l [H1 H2] _ IH]; [constructor|]. cbn [flat_map app]. constructor; [eapply T; [exact H1|discriminate]|]. constructor; [eapply T; [exact H2|discriminate]|exact IH].
  - intros [_ H]. apply TF, H.
Qed.
Lemma each_error {A B} (f : A -> res B) l m : for_each f l = Exc (ExMau m) -> exists a, In a l /\ f a = Exc (ExMau m).
Proof.
  induction l as [|a l IH]; [discriminate|]. cbn [for_each]. destruct (f a) as [b|ex] eqn:E; cbn [rbind].
  - destruct (for_each f l) as [bs|ex]; cbn [rbind]; [discriminate|]. intros H. assert (ex = ExMau m) as -> by congruence. destruct (IH eq_refl) as (c & Hc & E2). exists c. split; [right; exact Hc|exact E2].
  - intros H. exists a. split; [left; reflexivity|congruence].
Qed.
Lemma give_quiet f h m : (forall h m, f h <> Exc (ExMau m)) -> give_internal f h <> Exc (ExMau m).
Proof. intros H. unfold give_internal. destruct (h_internal h); [congruence|]. specialize (H h m). destruct (f h); cbn [rbind]; congruence. Qed.
Lemma finalise_places W cf src lo hi e0 x : sound W src lo hi x ->
  match dp_finalise cf e0 x with Ok y => sound W src lo hi y | Exc (ExMau m) => placed src lo hi m | Exc _ => True end.
Proof.
  intros Hs. destruct (dp_finalise cf e0 x) as [y|[|m|cls|]] eqn:E; try exact I.
  - assert (Hst : stored W (within src lo hi) y) by (eapply stored_final; [apply Hs|exact E]). unfold dp_finalise in E. destruct (fm_process _ _ _) as [[fl fs]|]; cbn [rbind] in E; [|discriminate E]. destruct (tm_process _ _) as [[[toc ids] tocs]|]; cbn [rbind] in E; [|discriminate E].
    destruct (hm_process _) as [hl|]; cbn [rbind] in E; [|discriminate E]. destruct (gm_process _) as [gl|]; cbn [rbind] in E; [|discriminate E]. apply Ok_inv in E. subst y. destruct Hs as (A & B & C & D & F & G & _). do 6 (split; [assumption|]). exact Hst.
  - destruct Hs as (_ & _ & _ & A & B & C & _). rewrite Forall_forall in A, B, C. unfold dp_finalise in E. destruct (fm_process _ _ _) as [[fl fs]|ex] eqn:E1; cbn [rbind] in E.
    2:{ assert (ex = ExMau m) as -> by congruence. clear E. unfold fm_process in E1. destruct (fm_footnotes _ _ _) as [fn|ex] eqn:E0; cbn [rbind] in E1.
        2:{ assert (ex = ExMau m) as -> by congruence. unfold fm_footnotes in E0. apply each_error in E0 as ([k [nm b]] & _ & E0). exfalso. cbv zeta in E0. destruct (not_function _); cbn [rbind] in E0; discriminate E0. }
        destruct (for_each _ _) as [ls|ex] eqn:E2; cbn [rbind] in E1; [discriminate E1|]. assert (ex = ExMau m) as -> by congruence. apply each_error in E2 as (mn & Hin & E2). unfold fm_link in E2. destruct (dget _ _); [discriminate E2|].
        assert (m = MsgParser "Footnote has not been defined." (Some (mn_ctx mn))) as -> by (unfold parser_error in E2; congruence). apply A, Hin. }
    destruct (tm_process _ _) as [[[toc ids] tocs]|ex] eqn:E2; cbn [rbind] in E.
    2:{ exfalso. assert (ex = ExMau m) as -> by congruence. unfold tm_process in E2. destruct (tm_headers _); [discriminate E2|]. destruct (for_each _ _) as [hs|ex] eqn:E3; cbn [rbind] in E2; [discriminate E2|]. assert (ex = ExMau m) as -> by congruence.
        apply each_error in E3 as (hh & _ & E3). revert E3. apply give_quiet. clear. intros h0 m0 E0. match type of E0 with context [if ?b then _ else _] => generalize b, E0; clear E0 end. intros [|] E0; discriminate E0. }
    destruct (hm_process _) as [hl|ex] eqn:E3; cbn [rbind] in E.
    2:{ assert (ex = ExMau m) as -> by congruence. unfold hm_process in E3. apply each_error in E3 as (mn & Hin & E3). unfold hm_link in E3. destruct (dget _ _); [discriminate E3|].
        assert (m = MsgParser "Cannot find header with this id." (Some (mn_ctx (fst mn)))) as -> by (unfold parser_error in E3; congruence). apply B, Hin. }
    destruct (gm_process _) as [gl|ex] eqn:E4; cbn [rbind] in E; [discriminate E|]. assert (ex = ExMau m) as -> by congruence. unfold gm_process in E4. apply each_error in E4 as (mn & Hin & E4). unfold gm_link in E4. destruct (dget _ _); [discriminate E4|].
    assert (m = MsgParser "The group does not exist." (Some (mn_ctx mn))) as -> by (unfold parser_error in E4; congruence). apply C, Hin.
Qed.
Lemma init_sound W e next dn forb x0 src lo hi : calm_env e -> Forall (assign_ok W) dn -> dp_init e next dn forb = Ok x0 -> sound W src lo hi x0.
Proof.
  intros He Hd H. unfold dp_init in H. destruct (not_callable _); [discriminate H|]. apply Ok_inv in H. subst x0. split; [apply calm_update; [exact He|apply calm_base]|]. split; [discriminate|]. split; [discriminate|]. do 3 (split; [constructor|]). do 7 (split; [constructor|]). exact Hd.
Qed.

Definition page_of (W : context -> Prop) (text : str) (o : origin) (x : dx) : Prop := sound W (o_source o) (o_line o) (last_line text (o_line o)) x.
(* the files are places where a node can be *)
Definition with_files (W : context -> Prop) (cf : config) : Prop := forall uri text c, cf_files cf uri = File text -> within (Some uri) 0 (last_line text 0) c -> W c.
Definition places (W : context -> Prop) (cf : config) (n : nat) : Prop := forall e next dn forb text o, calm_env e ->
  (forall c, within (o_source o) (o_line o) (last_line text (o_line o)) c -> W c) -> Forall (assign_ok W) dn ->
  nameless cf n e next dn forb text o \/
  match dp_run n cf e next dn forb text o with
  | Ok y => page_of W text o y
  | Exc (ExMau m) => accounted cf (o_source o) (o_line o) (last_line text (o_line o)) m
  | Exc _ => True
  end.

Section Reach.
  Context (W : context -> Prop) (cf : config) (WF : with_files W cf) (n : nat) (IH : places W cf n) (e : env) (next : nat) (dn : list assign) (forb : list (option str)) (text : str) (o : origin) (toks : list token) (x0 : dx).
  Context (HW : forall c, within (o_source o) (o_line o) (last_line text (o_line o)) c -> W c) (Hdn : Forall (assign_ok W) dn).
  Context (He : calm_env e) (El : lex_document (buffer text o) = Ok toks) (Ei : dp_init e next dn forb = Ok x0).
  Notation src := (o_source o).
  Notation plo := (o_line o).
  Notation phi := (last_line text (o_line o)).
  Lemma toks_on el pre rest : shaped el -> toks = pre ++ tokens_of el ++ rest -> Forall (tok_on src plo phi) (tokens_of el).
  Proof.
    destruct (page_tokens text o toks El) as (body & eof & Et & Hb & Hne & Heof & Ty & Va). 
    intros Hsh E. pose proof (shaped_real el Hsh) as Hr. rewrite Forall_forall in *. intros t Ht. assert (Hin : In t toks) by (rewrite E; apply in_or_app; right; apply in_or_app; left; exact Ht).
    rewrite Et in Hin. apply in_app_or in Hin as [Hin|[<-|[]]]; [apply Hb, Hin|]. destruct (Hr _ Ht Ty).
  Qed.
  (* one element, in its lines *)
  Lemma step_places lo hi els el rest y : plo <= lo -> hi <= phi -> Forall (tok_on src lo hi) (tokens_of el) ->
    begins toks els (tokens_of el ++ rest) -> act_all cf (dp_run n cf) els x0 y -> shaped el -> sound W src plo phi y ->
    nameless cf (S n) e next dn forb text o \/
    ((forall z, acts cf (dp_run n cf) el y z -> sound W src plo phi z /\ news src lo hi (dx_nodes y) z) /\
     (forall m, element_fails cf (dp_run n cf) el y (ExMau m) -> accounted cf src lo hi m \/ exists c, dx_control y = Some c /\ m = no_variable c)).
  Proof.
    intros Hlo Hhi Ht Hbg Ha Hsh Hy. destruct (dget [] (dx_env y)) as [v|] eqn:E0.
    { left. eapply nameless_here; try eassumption. rewrite E0. discriminate. }
    assert (Own : forall m, own src lo hi (dx_control y) m -> accounted cf src lo hi m \/ exists c, dx_control y = Some c /\ m = no_variable c).
    { intros m [H|[H|H]]; [left; left; exact H|right; exact H|left; right; right; exact H]. }
    destruct (element_outcome W cf src plo phi lo hi Hlo Hhi HW el y Ht Hy E0) as [H|(e' & n' & d' & f' & t' & o' & Hl & Hask & He' & Hd' & H)].
    { right. destruct (H (dp_run n cf)) as [H1 H2]. split; [exact H1|]. intros m Hm. apply Own, H2, Hm. }
    assert (HW' : forall c, within (o_source o') (o_line o') (last_line t' (o_line o')) c -> W c).
    { destruct H as [(S1 & S2 & S3 & _)|(uri & Hf' & -> & _)]; intros c Hc; [|exact (WF uri t' c Hf' Hc)]. rewrite S1 in Hc. apply HW. eapply within_wider; [| |exact Hc]; lia. }
    destruct (IH e' n' d' f' t' o' He' HW' Hd') as [K|K]; [left; eapply nameless_inside; eassumption|]. right.
    destruct (dp_run n cf e' n' d' f' t' o') as [y'|ex] eqn:Er.
    - assert (F : fine W cf src plo phi lo hi (dp_run n cf) el y).
      { destruct H as [(S1 & S2 & S3 & H)|(uri & Hf' & -> & H)]; [|eapply H; [exact Er|apply K|intros c; exact (WF uri t' c Hf')]]. eapply H; [exact Er|]. unfold page_of in K. rewrite S1 in K. eapply sound_wider; [| |exact K]; lia. }
      destruct F as [H1 H2]. split; [exact H1|]. intros m Hm. apply Own, H2, Hm.
    - pose proof (Hask _ _ Er) as Hf. assert (F : fails (do_element cf (dp_run n cf) el) y ex) by (destruct el; try exact Hf; destruct Hl; eexists; reflexivity). specialize (F []). split.
      + intros z Hz. assert (R : runs (do_element cf (dp_run n cf) el) y true z) by (destruct el; try exact Hz; destruct Hl; eexists; reflexivity). rewrite (R []) in F. discriminate F.
      + intros m Hm. assert (R : fails (do_element cf (dp_run n cf) el) y (ExMau m)) by (destruct el; try exact Hm; destruct Hl; eexists; reflexivity). specialize (R []). assert (ex = ExMau m) as -> by congruence.
        left. destruct H as [(S1 & S2 & S3 & H)|(uri & Hf' & -> & H)].
        * rewrite S1 in K. eapply accounted_wider; [| |exact K]; assumption.
        * cbn [o_source o_line] in K. destruct K as [K|K]; [right; left; exists uri, t'; auto|right; exact K].
  Qed.
  Lemma page_step els el rest y : begins toks els (tokens_of el ++ rest) -> act_all cf (dp_run n cf) els x0 y -> shaped el -> sound W src plo phi y ->
    nameless cf (S n) e next dn forb text o \/
    ((forall z, acts cf (dp_run n cf) el y z -> sound W src plo phi z) /\ (forall m, element_fails cf (dp_run n cf) el y (ExMau m) -> accounted cf src plo phi m)).
  Proof.
    intros Hbg Ha Hsh Hy. destruct (begins_tokens _ _ _ Hbg) as [pre Epre]. pose proof (toks_on el pre rest Hsh Epre) as Ht.
    destruct (step_places plo phi els el rest y (le_n _) (le_n _) Ht Hbg Ha Hsh Hy) as [K|[K1 K2]]; [left; exact K|right]. split; [intros z Hz; apply (K1 z Hz)|]. intros m Hm.
    destruct (K2 m Hm) as [H|(c & Hc & ->)]; [exact H|]. left. cbn [placed no_variable]. apply Hy, Hc.
  Qed.
  Lemma reach_from els2 y z : act_all cf (dp_run n cf) els2 y z -> forall els1 rest1 rest2, begins toks els1 rest1 -> begins rest1 els2 rest2 -> act_all cf (dp_run n cf) els1 x0 y -> sound W src plo phi y ->
    nameless cf (S n) e next dn forb text o \/ sound W src plo phi z.
  Proof.
    intros H. induction H as [y|el els2 y w z H1 H2 IH2]; intros els1 rest1 rest2 B1 B2 A1 Hy; [right; exact Hy|].
    inversion B2 as [|? toks' ? ? Hsh Hmax B3]; subst. destruct (page_step _ _ _ _ B1 A1 Hsh Hy) as [K|[K _]]; [left; exact K|].
    eapply (IH2 (els1 ++ [el]) toks'); [|exact B3| |exact (K _ H1)].
    - eapply begins_more; [exact B1|]. constructor; [exact Hsh|exact Hmax|constructor].
    - eapply acts_more; [exact A1|]. econstructor; [exact H1|constructor].
  Qed.
  Lemma reach els rest x : begins toks els rest -> act_all cf (dp_run n cf) els x0 x -> nameless cf (S n) e next dn forb text o \/ sound W src plo phi x.
  Proof. intros Hb Ha. exact (reach_from _ _ _ Ha [] toks rest (begins_nil _) Hb (act_nil _ _ _) (init_sound W _ _ _ _ _ src plo phi He Hdn Ei)). Qed.
End Reach.

Lemma run_places W cf n : with_files W cf -> places W cf n.
Proof.
  intros WF. induction n as [|n IH]; intros e next dn forb text o He HW Hdn; [right; exact I|].
  destruct (lex_document (buffer text o)) as [toks|ex] eqn:El.
  2:{ right. cbn [dp_run]. rewrite El. cbn [rbind]. destruct ex as [|m|cls|]; try exact I. left. unfold buffer in El. apply doc_errors in El as (i & Hi & _ & K).
      assert (P : forall msg, placed (o_source o) (o_line o) (last_line text (o_line o)) (MsgLexer msg (o_source o) (shifted (o_line o) (o_column o) (i, 0)))) by (intros msg; split; [reflexivity|]; unfold last_line, shifted; cbn [fst]; lia).
      destruct K as [[_ K]|(c & _ & _ & K)]; injection K as ->; apply P. }
  destruct (dp_init e next dn forb) as [x0|ex] eqn:Ei.
  2:{ right. cbn [dp_run]. rewrite El, Ei. cbn [rbind]. unfold dp_init in Ei. destruct (not_callable _); [|discriminate Ei]. assert (ex = ExPy "TypeError") as -> by congruence. exact I. }
  pose proof (reach W cf WF n IH e next dn forb text o toks x0 HW Hdn He El Ei) as Reach. pose proof (page_step W cf WF n IH e next dn forb text o toks x0 HW El Ei) as Step.
  destruct (page_tokens text o toks El) as (body & eof & Et & Hb & Hne & Heof & Ty & Va).
  set (src := o_source o) in *. set (lo := o_line o) in *. set (hi := last_line text lo) in *.
  destruct (dp_run (S n) cf e next dn forb text o) as [y|ex] eqn:Er.
  - apply dp_run_inv in Er as (n1 & toks1 & x1 & els & x & En & El1 & Ei1 & Hm & Ha & Hf). assert (n1 = n) as -> by congruence. assert (toks1 = toks) as -> by congruence. assert (x1 = x0) as -> by congruence.
    destruct (begins_made _ _ Hm) as [eof1 Hbg]. destruct (Reach _ _ _ Hbg Ha) as [K|K]; [left; exact K|right].
    pose proof (finalise_places W cf src lo hi (dx_env x0) x K) as P. rewrite Hf in P. exact P.
  - destruct ex as [|m|cls|]; [right; exact I| |right; exact I|right; exact I].
    apply dp_run_fails in Er as [K|[K|(toks1 & x1 & El1 & Ei1 & K)]]; [congruence|congruence|]. assert (toks1 = toks) as -> by congruence. assert (x1 = x0) as -> by congruence.
    destruct K as [(els & rest & x & Hbg & Ha & K)|(els & x & Hm & Ha & Hf)].
    + destruct (Reach _ _ _ Hbg Ha) as [K'|Hx]; [left; exact K'|].
      assert (At : at_tokens rest (ExMau m) -> accounted cf src lo hi m).
      { intros (msg & t & u & Hin1 & Hin2 & Hnot & E). destruct (begins_tokens _ _ _ Hbg) as [pre Epre].
        assert (m = MsgParser msg (Some (merge_contexts (t_ctx t) (t_ctx u)))) as -> by (unfold parser_error in E; congruence). left.
        assert (I1 : In t toks) by (rewrite Epre; apply in_or_app; right; exact Hin1). assert (I2 : In u toks) by (rewrite Epre; apply in_or_app; right; exact Hin2).
        rewrite Forall_forall in Hb. rewrite Et in I1, I2. cbn [placed]. apply merge_l.
        - apply in_app_or in I1 as [I1|[<-|[]]]; [eapply on_within; [apply le_n|apply le_n|apply Hb, I1]|]. exfalso. assert (token_eqb eof EOF_tok = true) by (apply token_eqb_spec; rewrite Ty, Va; split; reflexivity). congruence.
        - apply in_app_or in I2 as [I2|[<-|[]]]; [apply within_near; eapply on_within; [apply le_n|apply le_n|apply Hb, I2]|exact Heof]. }
      destruct K as [[(el & rest' & -> & Hsh & Hf)|[[K|K] _]]|K]; [|discriminate K|right; apply At, K|right; apply At, K].
      destruct (Step _ _ _ _ Hbg Ha Hsh Hx) as [K|[_ K]]; [left; exact K|right; apply K, Hf].
    + destruct (begins_made _ _ Hm) as [eof1 Hbg]. destruct (Reach _ _ _ Hbg Ha) as [K|K]; [left; exact K|right].
      pose proof (finalise_places W cf src lo hi (dx_env x0) x K) as P. rewrite Hf in P. left. exact P.
Qed.

(* ------------------------------------------------ the lines of an element *)
Fixpoint in_order (src : option str) (from : nat) (toks : list token) : Prop :=
  match toks with
  | [] => True
  | t :: r => c_source (t_ctx t) = src /\ from <= c_start_line (t_ctx t) /\ c_start_line (t_ctx t) <= c_end_line (t_ctx t) /\
      last_line (t_value t) (c_start_line (t_ctx t)) <= c_end_line (t_ctx t) /\ in_order src (c_end_line (t_ctx t)) r
  end.
Lemma lexed_order text o toks : lex_document (buffer text o) = Ok toks -> in_order (o_source o) (o_line o) toks.
Proof.
  intros H. destruct (doc_total text (o_line o) (o_column o) (o_source o)) as [_ K]. specialize (K _ H).
  assert (Hlines : Forall one_line (text_lines text)) by (unfold text_lines; destruct text as [|c text]; [constructor|apply split_on_parts]).
  assert (G : forall p q, o_line o <= o_line o + fst p -> tokens_in (text_lines text) (o_line o) (o_column o) (o_source o) toks p q -> in_order (o_source o) (o_line o + fst p) toks).
  { clear - Hlines. induction toks as [|t r IH]; intros p q Hp Hin; [exact I|]. destruct Hin as (a & b & V0 & (V1 & V2 & V3 & V4 & V5 & V6 & V7) & Hin).
    unfold shifted in V5, V6. apply pair_equal_spec in V5 as [V5 _]. apply pair_equal_spec in V6 as [V6 _].
    assert (L : fst a <= fst b) by (unfold pos_le in V3; lia). assert (L0 : fst p <= fst a) by (unfold pos_le in V0; lia). pose proof (lines_count (text_lines text) a b Hlines L) as K. rewrite <- V4 in K.
    cbn [in_order]. split; [exact V7|]. split; [lia|]. split; [lia|]. split; [unfold last_line; lia|]. replace (c_end_line (t_ctx t)) with (o_line o + fst b) by lia. eapply IH; [lia|exact Hin]. }
  specialize (G (0, 0) _ ltac:(lia) K). cbn [fst] in G. rewrite Nat.add_0_r in G. exact G.
Qed.
Lemma order_app src pre : forall from ts, in_order src from (pre ++ ts) -> exists from', in_order src from' ts.
Proof. induction pre as [|t r IH]; intros from ts H; [exists from; exact H|]. destruct H as (_ & _ & _ & _ & H). exact (IH _ _ H). Qed.
Lemma order_on src ts : forall from post d, ts <> [] -> in_order src from (ts ++ post) -> Forall (tok_on src from (c_end_line (t_ctx (last ts d)))) ts /\ from <= c_end_line (t_ctx (last ts d)).
Proof.
  induction ts as [|t r IH]; intros from post d Hne H; [congruence|]. cbn [app in_order] in H. destruct H as (H1 & H2 & H3 & H4 & H5). destruct r as [|u r].
  - cbn [last]. split; [|lia]. constructor; [|constructor]. unfold tok_on. repeat split; auto; lia.
  - destruct (IH _ post d ltac:(discriminate) H5) as [K1 K2]. change (last (t :: u :: r) d) with (last (u :: r) d). split; [|lia]. constructor.
    + unfold tok_on. repeat split; auto; lia.
    + eapply Forall_impl; [|exact K1]. intros v (A & B & C & D). unfold tok_on. repeat split; auto; lia.
Qed.
Lemma order_start src from t r : in_order src from (t :: r) -> in_order src (c_start_line (t_ctx t)) (t :: r).
Proof. cbn [in_order]. intros (H1 & H2 & H). repeat split; auto; tauto. Qed.

(* the error of an element is in its own lines *)
Lemma element_places cf n e next dn forb text o toks x0 els el rest x m a r d :
  calm_env e -> lex_document (buffer text o) = Ok toks -> dp_init e next dn forb = Ok x0 ->
  begins toks els (tokens_of el ++ rest) -> act_all cf (dp_run n cf) els x0 x -> shaped el -> element_fails cf (dp_run n cf) el x (ExMau m) ->
  tokens_of el = a :: r ->
  nameless cf (S n) e next dn forb text o \/
  accounted cf (o_source o) (c_start_line (t_ctx a)) (c_end_line (t_ctx (last (tokens_of el) d))) m \/
  exists c, dx_control x = Some c /\ m = no_variable c.
Proof.
  intros He El Ei Hb Ha Hsh Hf Et. pose (W := fun _ : context => True). assert (WF : with_files W cf) by (intros ? ? ? ? ?; exact I). assert (HW : forall c, within (o_source o) (o_line o) (last_line text (o_line o)) c -> W c) by (intros ? ?; exact I). pose proof (done_any dn) as Hdn. change (fun _ : context => True) with W in Hdn.
  destruct (reach W cf WF n (run_places W cf n WF) e next dn forb text o toks x0 HW Hdn He El Ei _ _ _ Hb Ha) as [K|Hx]; [left; exact K|].
  destruct (begins_tokens _ _ _ Hb) as [pre Epre]. pose proof (lexed_order text o toks El) as Ho. rewrite Epre in Ho. destruct (order_app _ _ _ _ Ho) as [from Ho2]. rewrite Et in Ho2. cbn [app] in Ho2. apply order_start in Ho2. change (a :: r ++ rest) with ((a :: r) ++ rest) in Ho2. rewrite <- Et in Ho2.
  assert (Hne : tokens_of el <> []) by (rewrite Et; discriminate). destruct (order_on _ _ _ _ d Hne Ho2) as [Hon _].
  pose proof (toks_on text o toks El el pre rest Hsh Epre) as Hp. rewrite Forall_forall in Hp.
  assert (P1 : o_line o <= c_start_line (t_ctx a)) by (apply Hp; rewrite Et; left; reflexivity).
  assert (P2 : c_end_line (t_ctx (last (tokens_of el) d)) <= last_line text (o_line o)).
  { apply Hp. rewrite Et. generalize a, r. clear. intros a r. revert a. induction r as [|b r IH]; intros a; [left; reflexivity|]. right. apply IH. }
  destruct (step_places W cf WF n (run_places W cf n WF) e next dn forb text o toks x0 HW El Ei _ _ els el rest x P1 P2 Hon Hb Ha Hsh Hx) as [K|[_ K]]; [left; exact K|right]. apply K, Hf.
Qed.
