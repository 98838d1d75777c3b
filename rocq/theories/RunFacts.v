(* RunFacts.v -- what the actions of the elements do to the state of the parser *)
From Verif Require Export DocFacts.

Lemma runs_pget {B} (f : dx -> D B) x b z : runs (pbind pget f) x b z -> runs (f x) x b z.
Proof. intros H rem. exact (H rem). Qed.
Lemma runs_pmod {B} g (m : D B) x b z : runs (pmod g ;;; m) x b z -> runs m (g x) b z.
Proof. intros H rem. exact (H rem). Qed.
Lemma runs_lift {A B} (r : res A) (f : A -> D B) x b z : runs (pbind (plift r) f) x b z -> exists a, r = Ok a /\ runs (f a) x b z.
Proof. intros H. destruct r as [a|e]; [|discriminate (H [])]. exists a. split; [reflexivity|]. intros rem. exact (H rem). Qed.
Lemma runs_ret {A} (a b : A) x z : runs (pret a) x b z -> b = a /\ z = x.
Proof. intros H. specialize (H []). injection H as -> ->. auto. Qed.
Lemma runs_raise {A} e x (b : A) z : ~ runs (praise e) x b z.
Proof. intros H. discriminate (H []). Qed.
Lemma runs_bind_inv {A B} (m : D A) (f : A -> D B) x b z : quiet m -> runs (pbind m f) x b z -> exists a y, runs m x a y /\ runs (f a) y b z.
Proof.
  intros Hq H. destruct (quiet_cases m x Hq) as [(a & y & R)|(e & R & _)].
  - exists a, y. split; [exact R|]. intros rem. rewrite <- H. symmetry. apply (runs_bind m f x a y rem R).
  - exfalso. specialize (H []). specialize (R []). unfold pbind in H. destruct (m ([], x)) as [s r]. cbn [snd] in R. subst r. discriminate H.
Qed.
Lemma runs_det {A} (m : D A) x a y b z : runs m x a y -> runs m x b z -> a = b /\ y = z.
Proof. intros H K. specialize (H []). rewrite (K []) in H. injection H as -> ->. auto. Qed.

Definition args_or (a : option node_args) : node_args := match a with Some a => a | None => empty_args end.
Lemma runs_pop_args {B} (f : node_args -> D B) x b z : runs (pbind dp_pop_args f) x b z -> runs (f (args_or (dx_args x))) (set_args x None) b z.
Proof. intros H rem. exact (H rem). Qed.
Lemma runs_pop_args_opt {B} (f : option node_args -> D B) x b z : runs (pbind dp_pop_args_opt f) x b z -> runs (f (dx_args x)) (set_args x None) b z.
Proof. intros H rem. exact (H rem). Qed.
Lemma runs_pop_labels {B} (f : labels -> D B) x b z : runs (pbind dp_pop_labels f) x b z -> runs (f (dx_labels x)) (set_labels x []) b z.
Proof. intros H rem. exact (H rem). Qed.
Lemma runs_fresh {B} (f : nat -> D B) x b z : runs (pbind dp_fresh f) x b z -> runs (f (dx_next x)) (set_shared x (S (dx_next x)) (dx_done x)) b z.
Proof. intros H rem. exact (H rem). Qed.

(* the stored condition *)
Definition admitted (x : dx) (ok : bool) : Prop :=
  match dx_control x with None => ok = true | Some c => run_control (dx_env x) c = Ok ok end.
Lemma runs_admitted {B} (f : bool -> D B) x b z : runs (pbind dp_admitted f) x b z -> exists ok, admitted x ok /\ runs (f ok) (set_control x None) b z.
Proof.
  intros H. unfold admitted. destruct (dx_control x) as [c|] eqn:E.
  - destruct (run_control (dx_env x) c) as [ok|e] eqn:E2.
    + exists ok. split; [reflexivity|]. intros rem. rewrite <- H. unfold pbind, dp_admitted, pget, pmod, plift. cbn. rewrite E, E2. reflexivity.
    + exfalso. specialize (H []). unfold pbind, dp_admitted, pget, pmod, plift in H. cbn in H. rewrite E, E2 in H. discriminate H.
  - exists true. split; [reflexivity|]. intros rem. rewrite <- H. unfold pbind, dp_admitted, pget, pmod, plift. cbn. rewrite E. reflexivity.
Qed.
Lemma runs_finish n x b z : runs (dp_finish n) x b z ->
  exists ok, admitted x ok /\ z = (if ok then set_nodes (set_control x None) (dx_nodes x ++ [n]) else set_control x None).
Proof.
  intros H. unfold dp_finish in H. apply runs_admitted in H as (ok & Ha & H). exists ok. split; [exact Ha|]. destruct ok.
  - unfold dp_save in H. apply runs_pmod in H. apply runs_ret in H as [_ ->]. reflexivity.
  - apply runs_ret in H as [_ ->]. reflexivity.
Qed.

(* texts only register mentions *)
Definition mentions (x : dx) (ms : list mention) (ls : list (mention * list inode)) (next : nat) : dx :=
  set_shared (set_links (set_foot x (fm_add_macros (dx_foot x) ms)) (hm_add_macros (dx_links x) ls)) next (dx_done x).
Lemma runs_text cf text o x nodes z : runs (dp_text cf text o) x nodes z -> exists ms ls next, z = mentions x ms ls next.
Proof.
  intros H. unfold dp_text in H. apply runs_pget in H. apply runs_lift in H as (p & _ & H). apply runs_lift in H as (t & _ & H).
  apply runs_pmod in H. apply runs_ret in H as [_ ->]. do 3 eexists. reflexivity.
Qed.
Lemma mentions_mentions x a b c a' b' c' : mentions (mentions x a b c) a' b' c' = mentions x (a ++ a') (b ++ b') c'.
Proof. unfold mentions, fm_add_macros, hm_add_macros. cbn. rewrite !app_assoc. reflexivity. Qed.
Lemma mentions_none x : mentions x [] [] (dx_next x) = x.
Proof. destruct x as [? ? ? ? [] ? [] ? ? ? ? ? ? ?]. unfold mentions, fm_add_macros, hm_add_macros. cbn. rewrite !app_nil_r. reflexivity. Qed.

Lemma runs_line_nodes cf ls : forall x r z, runs (dp_line_nodes cf ls) x r z -> exists ms hs next, z = mentions x ms hs next.
Proof.
  induction ls as [|t ls IH]; intros x r z H; cbn [dp_line_nodes] in H.
  - apply runs_ret in H as [_ ->]. exists [], [], (dx_next x). symmetry. apply mentions_none.
  - apply runs_bind_inv in H as (nodes & y & H1 & H); [|apply text_quiet]. apply runs_text in H1 as (a & b & c & ->).
    apply runs_bind_inv in H as (rest & y2 & H2 & H); [|apply line_nodes_quiet]. apply IH in H2 as (a' & b' & c' & ->).
    apply runs_ret in H as [_ ->]. rewrite mentions_mentions. eauto.
Qed.
Lemma runs_first_last {A B} (l : list A) (f : A * A -> D B) x b z : runs (pbind (first_last l) f) x b z -> exists a r, l = a :: r /\ runs (f (a, last l a)) x b z.
Proof. intros H. destruct l as [|a r]; [discriminate (H [])|]. exists a, r. split; [reflexivity|]. intros rem. exact (H rem). Qed.
Lemma runs_item cf h t x n z : runs (dp_do_item cf h t) x n z -> exists ms hs next, z = mentions x ms hs next.
Proof.
  intros H. unfold dp_do_item in H. apply runs_bind_inv in H as (c & y & H1 & H); [|apply text_quiet]. apply runs_text in H1 as (a & b & k & ->).
  apply runs_first_last in H as (u & r & -> & H). apply runs_ret in H as [_ ->]. eauto.
Qed.
Lemma runs_items cf items x its z : reads_items cf items x its z -> exists ms hs next, z = mentions x ms hs next.
Proof.
  induction 1 as [x|h t r x n x1 its x2 H _ (a' & b' & c' & ->)]; [exists [], [], (dx_next x); symmetry; apply mentions_none|].
  apply runs_item in H as (a & b & c & ->). rewrite mentions_mentions. eauto.
Qed.

(* ----------------------------------------------- the elements, one by one *)
Lemma do_rule_inv t x b z : runs (dp_do_rule t) x b z -> exists ok,
  admitted (set_labels (set_args x None) []) ok /\
  z = (if ok then set_nodes (set_control (set_labels (set_args x None) []) None) (dx_nodes x ++ [DRule (mkAttrs (args_or (dx_args x)) (dx_labels x) (t_ctx t))])
       else set_control (set_labels (set_args x None) []) None).
Proof.
  intros H. unfold dp_do_rule in H. apply runs_pop_args in H. apply runs_pop_labels in H. apply runs_finish in H as (ok & Ha & ->).
  exists ok. split; [exact Ha|reflexivity].
Qed.
Lemma do_variable_inv o n c v x b z : runs (dp_do_variable o n c v) x b z -> exists k s, s <> [] /\ z = set_env x (env_set (dx_env x) k (EStr s)).
Proof.
  intros H. unfold dp_do_variable in H. destruct (match v with Some v => _ | None => _ end) as [value ctx]. apply runs_pget in H.
  assert (Q : quiet (if startswith (lit "+") (t_value n) then pret (skipn 1 (t_value n), lit "true")
              else if startswith (lit "-") (t_value n) then pret (skipn 1 (t_value n), lit "false")
              else match value with
                   | [] => pret (t_value n, [])
                   | _ => let* t := plift (preprocess (dx_env x) value (mkOrigin (c_start_line ctx) (c_start_column ctx) (c_source ctx))) in
                          pret (t_value n, t_value t)
                   end)).
  { destruct (startswith _ _); [quiet|]. destruct (startswith _ _); [quiet|]. destruct value; [quiet|].
    apply quiet_bind; [apply quiet_lift, preprocess_fine|]. intros t. quiet. }
  apply runs_bind_inv in H as (nv & y & H1 & H); [|exact Q].
  assert (y = x) as ->.
  { destruct (startswith _ _); [apply runs_ret in H1 as [_ ->]; reflexivity|]. destruct (startswith _ _); [apply runs_ret in H1 as [_ ->]; reflexivity|].
    destruct value; [apply runs_ret in H1 as [_ ->]; reflexivity|]. apply runs_lift in H1 as (t & _ & H1). apply runs_ret in H1 as [_ ->]; reflexivity. }
  destruct (snd nv) as [|a s] eqn:E; [destruct (runs_raise _ _ _ _ H)|]. apply runs_pmod in H. apply runs_ret in H as [_ ->].
  exists (fst nv), (a :: s). split; [discriminate|reflexivity].
Qed.
Lemma do_label_inv cf p t x b z : runs (dp_do_label cf p t) x b z ->
  exists nodes ms hs next, z = set_labels (mentions x ms hs next) (dset (match skipn 1 (t_value p) with [] => lit "title" | r => r end) nodes (dx_labels x)).
Proof.
  intros H. unfold dp_do_label in H. apply runs_bind_inv in H as (nodes & y & H1 & H); [|apply text_quiet]. apply runs_text in H1 as (a & b' & c & ->).
  apply runs_pmod in H. apply runs_ret in H as [_ ->]. exists nodes, a, b', c. reflexivity.
Qed.
Lemma do_control_inv p op c x b z : runs (dp_do_control p op c) x b z -> exists k, make_control (dx_env x) p op c = Ok k /\ z = set_control x (Some k).
Proof.
  intros H. unfold dp_do_control in H. apply runs_pget in H. apply runs_lift in H as (k & E & H). apply runs_pmod in H. apply runs_ret in H as [_ ->]. eauto.
Qed.
Lemma do_arguments_inv t x b z : runs (dp_do_arguments t) x b z ->
  exists p, process_arguments_with_variables (dx_env x) t = Ok p /\ z = set_args x (Some (arguments_of p)).
Proof.
  intros H. unfold dp_do_arguments in H. apply runs_pget in H. apply runs_lift in H as (k & E & H). apply runs_pmod in H. apply runs_ret in H as [_ ->]. eauto.
Qed.
Lemma do_paragraph_inv cf ls x b z : runs (dp_do_paragraph cf ls) x b z -> exists lines ms hs next ctx ok,
  let y := set_labels (set_args (mentions x ms hs next) None) [] in
  admitted y ok /\
  z = (if ok then set_nodes (set_control y None) (dx_nodes x ++ [DParagraph lines (mkAttrs (args_or (dx_args x)) (dx_labels x) ctx)]) else set_control y None).
Proof.
  intros H. unfold dp_do_paragraph in H. apply runs_bind_inv in H as (lines & y & H1 & H); [|apply line_nodes_quiet].
  apply runs_line_nodes in H1 as (a & b' & c & ->). apply runs_pop_args in H. apply runs_first_last in H as (u & r & E & H).
  apply runs_pop_labels in H. apply runs_finish in H as (ok & Ha & ->). do 6 eexists. split; [exact Ha|]. reflexivity.
Qed.
Lemma do_list_inv h i r x b z : runs (dp_do_list h i r) x b z -> exists start latest ctx ok,
  let y := set_labels (set_latest (set_args x None) latest) [] in
  admitted y ok /\
  z = (if ok then set_nodes (set_control y None) (dx_nodes x ++ [DList (is_hash (t_value h)) true start (i :: r) (mkAttrs (args_or (dx_args x)) (dx_labels x) ctx)]) else set_control y None) /\
  latest = (start + Z.of_nat (length (i :: r)))%Z /\
  match dget (lit "start") (na_named (args_or (dx_args x))) with
  | None => start = 1%Z
  | Some v => if str_eqb v (lit "auto") then start = dx_latest x else py_int v = Ok start
  end.
Proof.
  intros H. unfold dp_do_list in H. apply runs_pop_args in H. apply runs_pget in H.
  assert (K : forall m f, (forall start latest, runs (f start) (set_latest (set_args x None) latest) b z ->
        latest = (start + Z.of_nat (length (i :: r)))%Z -> 
        match dget (lit "start") (na_named (args_or (dx_args x))) with
        | None => start = 1%Z
        | Some v => if str_eqb v (lit "auto") then start = dx_latest x else py_int v = Ok start
        end -> m) -> 
      runs (let* start := match dget (lit "start") (na_named (args_or (dx_args x))) with
                 | None => pmod (fun x => set_latest x (Z.of_nat (length (i :: r)) + 1)%Z) ;;; pret 1%Z
                 | Some v =>
                     if str_eqb v (lit "auto") then
                       pmod (fun x => set_latest x (dx_latest x + Z.of_nat (length (i :: r)))%Z) ;;; pret (dx_latest (set_args x None))
                     else let* z := plift (py_int v) in pmod (fun x => set_latest x (Z.of_nat (length (i :: r)) + z)%Z) ;;; pret z
                 end in f start) (set_args x None) b z -> m).
  { intros m f Hm HH. destruct (dget (lit "start") (na_named (args_or (dx_args x)))) as [v|].
    - destruct (str_eqb v (lit "auto")).
      + apply (Hm (dx_latest x) (dx_latest x + Z.of_nat (length (i :: r)))%Z); [intros rem; exact (HH rem)|reflexivity|reflexivity].
      + destruct (py_int v) as [s|e]; [|discriminate (HH [])].
        apply (Hm s (Z.of_nat (length (i :: r)) + s)%Z); [intros rem; exact (HH rem)|lia|reflexivity].
    - apply (Hm 1%Z (Z.of_nat (length (i :: r)) + 1)%Z); [intros rem; exact (HH rem)|lia|reflexivity]. }
  revert H. apply K. clear K. intros start latest H E1 E2. apply runs_pop_labels in H. apply runs_finish in H as (ok & Ha & ->).
  exists start, latest. do 2 eexists. split; [exact Ha|]. split; [reflexivity|]. split; [exact E1|exact E2].
Qed.

Lemma do_header_inv cf hd t x b z : runs (dp_do_header cf hd t) x b z -> exists nodes ms hs next ctx ok,
  let a0 := args_or (dx_args x) in
  let name := dget (lit "name") (ddel (lit "internal_id") (na_named a0)) in
  let a := snd (pop_arg (snd (pop_arg a0 (lit "internal_id"))) (lit "name")) in
  let h := mkHeader (dx_next x) (length (t_value hd)) (dget (lit "internal_id") (na_named a0)) name nodes a (dx_labels x) ctx in
  let y := set_labels (set_args (mentions (set_shared x (S (dx_next x)) (dx_done x)) ms hs next) None) [] in
  nodes <> [] /\ admitted y ok /\
  if ok : bool then
    exists links, (match nonempty name with Some n => hm_add_header (dx_links y) n h = Ok links | None => links = dx_links y end) /\
      z = set_nodes (set_toc (set_links (set_control y None) links) (tm_add_header (dx_toc x) h)) (dx_nodes x ++ [DHeader h])
  else z = set_control y None.
Proof.
  intros H. unfold dp_do_header in H. apply runs_fresh in H. apply runs_bind_inv in H as (nodes & y & H1 & H); [|apply text_quiet].
  apply runs_text in H1 as (ms & hs & next & ->). apply runs_pop_args in H. cbn [pop_arg] in H. apply runs_first_last in H as (u & r & E & H).
  apply runs_pop_labels in H. apply runs_admitted in H as (ok & Ha & H). exists nodes, ms, hs, next. do 2 eexists. split; [rewrite E; discriminate|].
  split; [exact Ha|]. destruct ok; [|apply runs_ret in H as [_ ->]; reflexivity].
  cbn [na_named snd pop_arg] in *.
  change (dx_args (mentions (set_shared x (S (dx_next x)) (dx_done x)) ms hs next)) with (dx_args x) in H.
  change (na_named (args_or (dx_args x))) with (na_named (args_or (dx_args x))) in H.
  destruct (dget (lit "name") (ddel (lit "internal_id") (na_named (args_or (dx_args x))))) as [[|c n]|] eqn:En; cbn [nonempty].
  - apply runs_bind_inv in H as (v & y & H1 & H); [|apply quiet_ret]. apply runs_ret in H1 as [_ ->].
    apply runs_pmod in H. unfold dp_save in H. apply runs_pmod in H. apply runs_ret in H as [_ ->]. eexists. split; reflexivity.
  - apply runs_bind_inv in H as (v & y & H1 & H); [|quiet; apply quiet_lift, hm_add_fine].
    apply runs_pget in H1. apply runs_lift in H1 as (m & Em & H1).
    assert (y = set_links (set_control (set_labels (set_args (mentions (set_shared x (S (dx_next x)) (dx_done x)) ms hs next) None) []) None) m) as ->.
    { specialize (H1 []). unfold pmod in H1. injection H1 as H1 _. symmetry. exact H1. }
    apply runs_pmod in H. unfold dp_save in H. apply runs_pmod in H. apply runs_ret in H as [_ ->]. exists m. split; [exact Em|reflexivity].
  - apply runs_bind_inv in H as (v & y & H1 & H); [|apply quiet_ret]. apply runs_ret in H1 as [_ ->].
    apply runs_pmod in H. unfold dp_save in H. apply runs_pmod in H. apply runs_ret in H as [_ ->]. eexists. split; reflexivity.
Qed.

Section Blocks.
  Context (cf : config) (run : run_fn) (run_ok : forall e n d f t o, fine_res (run e n d f t o)).

  (* the parser after a block of Mau text *)
  Definition isolated (a : node_args) : bool := negb (str_eqb (or_else (dget (lit "isolate") (na_named a)) (lit "true")) (lit "false")).
  Definition after_child (x y : dx) (iso : bool) : dx :=
    let x1 := set_shared (set_env x (dx_env y)) (dx_next y) (dx_done y) in
    if iso then x1 else set_toc (set_foot x1 (fm_update (dx_foot x) (dx_foot y))) (tm_update (dx_toc x) (dx_toc y)).

  Lemma engine_inv en ctx c cl a x node a' nctx z : runs (dp_engine run en ctx c cl a) x (node, a', nctx) z ->
    (z = x /\ (en = lit "default" -> (c = None \/ exists t, c = Some t /\ t_value t = []) /\ a' = a /\ node = DBlock cl [] /\ nctx = empty_context)) \/
    (en = lit "default" /\ exists t y, c = Some t /\ t_value t <> [] /\ run (dx_env x) (dx_next x) (dx_done x) [] (t_value t) (origin_of t) = Ok y /\
       z = after_child x y (isolated a) /\ a' = a /\ node = DBlock cl (dx_nodes y) /\ nctx = empty_context).
  Proof.
    intros H. unfold dp_engine in H. destruct (str_eqb_spec en (lit "default")) as [->|Nd].
    - apply runs_bind_inv in H as (nodes & y & H1 & H); [|apply default_engine_quiet, run_ok]. apply runs_ret in H as [E ->]. injection E as -> -> ->.
      unfold dp_default_engine in H1. destruct c as [t|].
      2: { apply runs_ret in H1 as [-> ->]. left. split; [reflexivity|]. intros _. auto. }
      destruct (token_truthy t) eqn:Et.
      2: { apply runs_ret in H1 as [-> ->]. left. split; [reflexivity|]. intros _. split; [right; exists t; split; [reflexivity|]|auto].
           unfold token_truthy in Et. destruct (t_value t); [reflexivity|discriminate Et]. }
      apply runs_pget in H1. apply runs_lift in H1 as (y2 & Ey & H1). apply runs_pmod in H1. right. split; [reflexivity|].
      exists t, y2. split; [reflexivity|]. split; [intros E0; unfold token_truthy in Et; rewrite E0 in Et; discriminate Et|]. split; [exact Ey|].
      unfold after_child, isolated. destruct (str_eqb (or_else _ _) _); cbn [negb].
      + apply runs_pmod in H1. apply runs_ret in H1 as [-> ->]. split; [reflexivity|]. auto.
      + apply runs_bind_inv in H1 as (u & y3 & H2 & H1); [|apply quiet_ret]. apply runs_ret in H2 as [_ ->]. apply runs_ret in H1 as [-> ->]. split; [reflexivity|]. auto.
    - left. split; [|intros E; contradiction]. destruct (str_eqb en (lit "raw")); [apply runs_ret in H as [_ ->]; reflexivity|].
      destruct (str_eqb en (lit "source")); [|destruct (runs_raise _ _ _ _ H)].
      destruct c as [t|]; [|apply runs_ret in H as [_ ->]; reflexivity]. destruct (token_truthy t); [|apply runs_ret in H as [_ ->]; reflexivity].
      apply runs_pget in H. apply runs_lift in H as ([[lg ls] a2] & _ & H). apply runs_ret in H as [_ ->]. reflexivity.
  Qed.

  Definition block_args (x : dx) : node_args := snd (pop_arg (snd (pop_arg (args_or (dx_args x)) (lit "classes"))) (lit "engine")).
  Definition block_engine (x : dx) : str :=
    or_else (fst (pop_arg (snd (pop_arg (args_or (dx_args x)) (lit "classes"))) (lit "engine"))) (lit "default").
  Definition block_classes (x : dx) : list str :=
    match nonempty (fst (pop_arg (args_or (dx_args x)) (lit "classes"))) with None => [] | Some s => split_on COMMA s end.

  Lemma do_block_inv o t c x b z : runs (dp_do_block run o t c) x b z -> exists node a nctx y,
    let ctx := merge_contexts (t_ctx o) (t_ctx c) in
    runs (dp_engine run (block_engine x) ctx t (block_classes x) (block_args x)) (set_args x None) (node, a, nctx) y /\
    match nonempty (dget (lit "footnote") (na_named a)) with
    | Some name => exists m, fm_add_body (dx_foot y) name (node (mkAttrs empty_args (dx_labels y) nctx)) nctx = Ok m /\ z = set_foot (set_labels y []) m
    | None =>
        match nonempty (dget (lit "group") (na_named a)), nonempty (dget (lit "position") (na_named a)) with
        | Some g, Some p => exists m, gm_add_block (dx_groups y) g p (node (mkAttrs a (dx_labels y) ctx)) ctx = Ok m /\ z = set_groups (set_labels y []) m
        | _, _ => exists ok, admitted (set_labels y []) ok /\
            z = (if ok then set_nodes (set_control (set_labels y []) None) (dx_nodes y ++ [node (mkAttrs a (dx_labels y) ctx)]) else set_control (set_labels y []) None)
        end
    end.
  Proof.
    intros H. unfold dp_do_block in H. apply runs_pop_args in H. cbn [pop_arg] in H.
    apply runs_bind_inv in H as ([[node a] nctx] & y & H1 & H); [|apply engine_quiet, run_ok]. exists node, a, nctx, y. split; [exact H1|].
    apply runs_pop_labels in H. destruct (nonempty (dget (lit "footnote") (na_named a))) as [name|].
    { apply runs_pget in H. apply runs_lift in H as (m & E & H). apply runs_pmod in H. apply runs_ret in H as [_ ->]. exists m. auto. }
    destruct (nonempty (dget (lit "group") (na_named a))) as [g|]; [|apply runs_finish in H as (ok & Ha & ->); exists ok; auto].
    destruct (nonempty (dget (lit "position") (na_named a))) as [p|]; [|apply runs_finish in H as (ok & Ha & ->); exists ok; auto].
    apply runs_pget in H. apply runs_lift in H as (m & E & H). apply runs_pmod in H. apply runs_ret in H as [_ ->]. exists m. auto.
  Qed.

  (* the node of an include *)
  Definition include_node (ty : str) (ctx : context) (a : node_args) : D ((attrs -> dnode) * node_args) :=
    if str_eqb ty (lit "image") then dp_image a ctx
    else if str_eqb ty (lit "mau") then dp_mau cf run a ctx
    else if str_eqb ty (lit "raw") then dp_include_raw cf a ctx
    else if str_eqb ty (lit "toc") then let* f := dp_toc in pret (f, a)
    else if str_eqb ty (lit "footnotes") then let* f := dp_footnotes in pret (f, a)
    else if str_eqb ty (lit "blockgroup") then dp_blockgroup a ctx
    else pret (DInclude ty, a).
  Lemma include_node_quiet ty ctx a : quiet (include_node ty ctx a).
  Proof.
    unfold include_node. destruct (str_eqb _ _).
    { unfold dp_image. destruct (pop_arg _ _) as [u a1]. apply quiet_bind; [apply need_uri_quiet|]. intros uri.
      destruct (pop_arg a1 _) as [al a2]. destruct (pop_arg a2 _) as [cl a3]. quiet. }
    destruct (str_eqb _ _); [apply mau_quiet, run_ok|].
    destruct (str_eqb _ _).
    { unfold dp_include_raw. destruct (pop_arg _ _) as [u a1]. apply quiet_bind; [apply need_uri_quiet|]. intros uri.
      apply quiet_bind; [apply read_quiet|]. intros text. quiet. }
    destruct (str_eqb _ _).
    { apply quiet_bind; [unfold dp_toc; apply quiet_bind; [apply fresh_quiet|]; intros id; quiet|]. intros f. quiet. }
    destruct (str_eqb _ _).
    { apply quiet_bind; [unfold dp_footnotes; apply quiet_bind; [apply fresh_quiet|]; intros id; quiet|]. intros f. quiet. }
    destruct (str_eqb _ _); [|quiet].
    unfold dp_blockgroup. destruct (pop_arg _ _) as [g a1]. destruct g; [|quiet]. apply quiet_bind; [apply fresh_quiet|]. intros id. quiet.
  Qed.

  Lemma runs_need_uri {B} u ctx (f : str -> D B) x b z : runs (pbind (need_uri u ctx) f) x b z -> exists v, u = Some v /\ v <> [] /\ runs (f v) x b z.
  Proof.
    intros H. unfold need_uri in H. destruct u as [[|c v]|]; cbn [nonempty] in H; try discriminate (H []).
    exists (c :: v). split; [reflexivity|]. split; [discriminate|]. intros rem. exact (H rem).
  Qed.
  Lemma runs_read {B} u ctx (f : str -> D B) x b z : runs (pbind (dp_read cf u ctx) f) x b z -> exists t, cf_files cf u = File t /\ runs (f t) x b z.
  Proof.
    intros H. unfold dp_read in H. destruct (cf_files cf u) as [t| |cl]; try discriminate (H []).
    exists t. split; [reflexivity|]. intros rem. exact (H rem).
  Qed.

  Definition call_args (a : node_args) : dict str :=
    fold_left (fun d (kv : str * str) => dset (removeprefix CALL (fst kv)) (snd kv) d)
      (filter (fun kv : str * str => startswith CALL (fst kv)) (na_named a)) [].
  Definition mau_args (a : node_args) : node_args :=
    snd (pop_arg (snd (pop_arg (args_set_names a [lit "uri"]) (lit "uri"))) (lit "pass_environment")).
  Definition mau_pass (a : node_args) : bool :=
    str_eqb (or_else (dget (lit "pass_environment") (na_named (snd (pop_arg (args_set_names a [lit "uri"]) (lit "uri"))))) (lit "true")) (lit "true").
  Lemma mau_inv a ctx x node a' z : runs (dp_mau cf run a ctx) x (node, a') z -> exists uri text e y,
    let forbidden := add_source (c_source ctx) (dx_forbidden x) in
    dget (lit "uri") (na_named (args_set_names a [lit "uri"])) = Some uri /\
    source_in (Some uri) forbidden = false /\ cf_files cf uri = File text /\
    (if mau_pass a then env_from_environment (dx_env x) None = Ok e else e = env_empty) /\
    run (env_dupdate e (map (fun kv : str * str => (fst kv, EStr (snd kv))) (call_args (mau_args a))) None) (dx_next x) (dx_done x)
      (add_source (Some uri) forbidden) text (mkOrigin 0 0 (Some uri)) = Ok y /\
    node = DMau uri (dx_nodes y) /\
    z = set_calls (set_forbidden (set_shared x (dx_next y) (dx_done y)) (dx_forbidden y))
          (dx_calls x ++ mkCall (c_source ctx) uri (call_args (mau_args a)) ctx :: dx_calls y).
  Proof.
    intros H. unfold dp_mau in H. cbn [pop_arg] in H. apply runs_need_uri in H as (uri & Eu & _ & H). apply runs_pmod in H. apply runs_pget in H.
    destruct (source_in _ _) eqn:Es; [destruct (runs_raise _ _ _ _ H)|]. cbv zeta in H. apply runs_pmod in H. apply runs_read in H as (text & Et & H).
    apply runs_pget in H. apply runs_bind_inv in H as (e & y & H1 & H); [|destruct (str_eqb _ _); [apply quiet_lift, nest_env_fine|quiet]].
    assert (y = set_forbidden (set_forbidden x (add_source (c_source ctx) (dx_forbidden x))) (add_source (Some uri) (dx_forbidden (set_forbidden x (add_source (c_source ctx) (dx_forbidden x)))))
      /\ if mau_pass a then env_from_environment (dx_env x) None = Ok e else e = env_empty) as [-> He].
    { unfold mau_pass. destruct (str_eqb _ _).
      - assert (K : forall r x0 y0 (e : env), runs (plift r) x0 e y0 -> y0 = x0 /\ r = Ok e).
        { intros r x0 y0 e0 K. specialize (K []). unfold plift in K. injection K as -> ->. auto. }
        apply K in H1 as [-> H1]. split; [reflexivity|exact H1].
      - apply runs_ret in H1 as [-> ->]. auto. }
    apply runs_lift in H as (y & Ey & H). apply runs_pmod in H. apply runs_ret in H as [E ->]. injection E as -> ->.
    exists uri, text, e, y. split; [exact Eu|]. split; [exact Es|]. split; [exact Et|]. split; [exact He|]. split; [exact Ey|]. split; reflexivity.
  Qed.

  (* what an include can change before its node is saved *)
  Definition include_frame (x z : dx) : Prop :=
    dx_nodes z = dx_nodes x /\ dx_labels z = dx_labels x /\ dx_control z = dx_control x /\ dx_args z = dx_args x /\
    dx_links z = dx_links x /\ dx_latest z = dx_latest x /\ dx_env z = dx_env x /\
    tm_headers (dx_toc z) = tm_headers (dx_toc x) /\ fm_macros (dx_foot z) = fm_macros (dx_foot x) /\ fm_bodies (dx_foot z) = fm_bodies (dx_foot x).
  Lemma include_frame_refl x : include_frame x x.
  Proof. unfold include_frame. auto 12. Qed.
  Lemma include_node_frame ty ctx a x r z : runs (include_node ty ctx a) x r z -> include_frame x z.
  Proof.
    intros H. unfold include_node in H. destruct (str_eqb _ _).
    { unfold dp_image in H. cbn [pop_arg] in H. apply runs_need_uri in H as (uri & _ & _ & H). apply runs_ret in H as [_ ->]. apply include_frame_refl. }
    destruct (str_eqb _ _).
    { destruct r as [node a']. apply mau_inv in H as (uri & text & e & y & _ & _ & _ & _ & _ & _ & ->). unfold include_frame. cbn. auto 12. }
    destruct (str_eqb _ _).
    { unfold dp_include_raw in H. cbn [pop_arg] in H. apply runs_need_uri in H as (uri & _ & _ & H). apply runs_read in H as (t & _ & H).
      apply runs_ret in H as [_ ->]. apply include_frame_refl. }
    destruct (str_eqb _ _).
    { apply runs_bind_inv in H as (f & y & H1 & H); [|unfold dp_toc; apply quiet_bind; [apply fresh_quiet|]; intros id; quiet].
      unfold dp_toc in H1. apply runs_fresh in H1. apply runs_pmod in H1. apply runs_ret in H1 as [_ ->]. apply runs_ret in H as [_ ->].
      unfold include_frame. cbn. auto 12. }
    destruct (str_eqb _ _).
    { apply runs_bind_inv in H as (f & y & H1 & H); [|unfold dp_footnotes; apply quiet_bind; [apply fresh_quiet|]; intros id; quiet].
      unfold dp_footnotes in H1. apply runs_fresh in H1. apply runs_pmod in H1. apply runs_ret in H1 as [_ ->]. apply runs_ret in H as [_ ->].
      unfold include_frame. cbn. auto 12. }
    destruct (str_eqb _ _); [|apply runs_ret in H as [_ ->]; apply include_frame_refl].
    unfold dp_blockgroup in H. cbn [pop_arg] in H. destruct (dget (lit "group") _) as [g|]; [|destruct (runs_raise _ _ _ _ H)].
    apply runs_fresh in H. apply runs_pmod in H. apply runs_ret in H as [_ ->]. unfold include_frame. cbn. auto 12.
  Qed.
  Lemma do_include_inv ty ctx a x b z : runs (dp_do_include cf run ty ctx a) x b z -> exists node a' y ok,
    runs (include_node ty ctx a) x (node, a') y /\ include_frame x y /\ admitted (set_labels y []) ok /\
    z = (if ok then set_nodes (set_control (set_labels y []) None) (dx_nodes x ++ [node (mkAttrs a' (dx_labels x) ctx)]) else set_control (set_labels y []) None).
  Proof.
    intros H. change (dp_do_include cf run ty ctx a) with (let* r := include_node ty ctx a in let* l := dp_pop_labels in dp_finish (fst r (mkAttrs (snd r) l ctx))) in H.
    apply runs_bind_inv in H as ([node a'] & y & H1 & H); [|apply include_node_quiet]. apply runs_pop_labels in H. apply runs_finish in H as (ok & Ha & Hz).
    exists node, a', y, ok. split; [exact H1|]. pose proof (include_node_frame _ _ _ _ _ _ H1) as F. split; [exact F|]. split; [exact Ha|].
    destruct F as (F1 & F2 & _). cbn [fst snd set_labels dx_nodes] in Hz. rewrite F1, F2 in Hz. exact Hz.
  Qed.
  (* both ways of writing the arguments *)
  Lemma element_include_inv o ty args x b z : runs (do_element cf run (EInclude o ty args)) x b z -> exists a,
    match args with
    | None => a = args_or (dx_args x)
    | Some (_, t) => dx_args x = None /\ exists p, process_arguments_with_variables (dx_env x) t = Ok p /\ a = arguments_of p
    end /\ runs (dp_do_include cf run (t_value ty) (merge_contexts (t_ctx o) (t_ctx ty)) a) (set_args x None) b z.
  Proof.
    intros H. destruct args as [[c t]|]; cbn [do_element] in H.
    - apply runs_pop_args_opt in H. destruct (dx_args x) as [a0|]; [destruct (runs_raise _ _ _ _ H)|].
      unfold dp_inline_args in H. apply runs_bind_inv in H as (a & y & H1 & H); [|apply inline_args_quiet].
      apply runs_pget in H1. apply runs_lift in H1 as (p & E & H1). apply runs_ret in H1 as [-> ->].
      eexists. split; [split; [reflexivity|exists p; split; [exact E|reflexivity]]|exact H].
    - apply runs_pop_args in H. eexists. split; [reflexivity|exact H].
  Qed.
End Blocks.
