(* PagesFacts.v -- the elements of a document written in the grammar of SpecPages (C86) *)
From Verif Require SpecManagers SpecEngines PropertiesEngines EnvFacts PropertiesInclude.
From Verif Require Export SpecPages ForwardFacts.
From Verif Require PropertiesTree.
From Verif Require Import SimFacts RunFacts AttachFacts PropertiesLexer PropertiesText PropertiesPre PropertiesCond PropertiesEnv PropertiesArgs PropertiesGrammar PropertiesLines PropertiesCases LineFacts ParseFacts SpecArgs SpecText SpecPre SpecGrammar SpecPages.
#[local] Notation length := List.length.

(* ------------------------------------------------ text *)
Lemma foots_of_app a b : foots_of (a ++ b) = foots_of a ++ foots_of b.
Proof. apply flat_map_app. Qed.
Lemma heads_of_app a b : heads_of (a ++ b) = heads_of a ++ heads_of b.
Proof. apply flat_map_app. Qed.
Lemma bodies_of_app a b : bodies_of (a ++ b) = bodies_of a ++ bodies_of b.
Proof. apply flat_map_app. Qed.
Lemma names_of_app a b : names_of (a ++ b) = names_of a ++ names_of b.
Proof. apply flat_map_app. Qed.
Lemma groups_of_app a b : groups_of (a ++ b) = groups_of a ++ groups_of b.
Proof. apply flat_map_app. Qed.
Lemma items_of_app a b : items_of (a ++ b) = items_of a ++ items_of b.
Proof. apply flat_map_app. Qed.
Lemma files_of_app a b : files_of (a ++ b) = files_of a ++ files_of b.
Proof. apply flat_map_app. Qed.
Lemma sources_of_app a b : sources_of (a ++ b) = sources_of a ++ sources_of b.
Proof. apply flat_map_app. Qed.
Definition unplaced (us : list use) : Prop := groups_of us = [] /\ items_of us = [] /\ files_of us = [] /\ sources_of us = [].
Definition foot_names (ms : list mention) : list str := map mn_name ms.
Definition head_names (hs : list (mention * list inode)) : list str := map (fun h => mn_name (fst h)) hs.
(* the mentions of some nodes *)
Definition found (us : list use) (ms : list mention) (hs : list (mention * list inode)) : Prop :=
  foot_names ms = foots_of us /\ head_names hs = heads_of us /\ bodies_of us = [] /\ names_of us = [] /\ unplaced us.
Lemma found_nil : found [] [] [].
Proof. repeat split. Qed.
Lemma found_app u1 m1 h1 u2 m2 h2 : found u1 m1 h1 -> found u2 m2 h2 -> found (u1 ++ u2) (m1 ++ m2) (h1 ++ h2).
Proof.
  intros (A & B & C & D & G & I & L & M) (A' & B' & C' & D' & G' & I' & L' & M'). unfold found, unplaced, foot_names, head_names.
  rewrite !map_app, foots_of_app, heads_of_app, bodies_of_app, names_of_app, groups_of_app, items_of_app, files_of_app, sources_of_app.
  unfold foot_names, head_names in *. rewrite A, A', B, B', C, C', D, D', G, G', I, I', L, L', M, M'. repeat split.
Qed.
Lemma text_found ns l : same_all ns l -> found (uses l) (flat_map foot_mention (all_foots ns)) (flat_map header_mention (all_heads ns)).
Proof.
  assert (K : forall l ns, same_all ns l -> Forall (fun t => forall n, same n t -> found (tree_uses t) (flat_map foot_mention (foots n)) (flat_map header_mention (PropertiesText.heads n))) l ->
    found (uses l) (flat_map foot_mention (all_foots ns)) (flat_map header_mention (all_heads ns))).
  { clear. intros l ns H. induction H as [|n t ns l H1 H2 IH]; intros G; [apply found_nil|]. inversion G as [|? ? G1 G2]; subst.
    unfold uses, all_foots, all_heads. cbn [map concat]. rewrite !flat_map_app. apply found_app; [exact (G1 n H1)|exact (IH G2)]. }
  intros H. apply (K _ _ H). clear - K.
  assert (G : forall t n, same n t -> found (tree_uses t) (flat_map foot_mention (foots n)) (flat_map header_mention (PropertiesText.heads n))).
  { fix IH 1. intros t n H. destruct t as [s|s|m s|st c|nm|nm| | | | | | | | | |]; inversion H as [| | |? ns ? ? Hs| | | | | | | | | | | |]; subst; try (repeat split; fail).
    apply (K c ns Hs). clear -IH. induction c as [|t c IHc]; constructor; [exact (IH t)|exact IHc]. }
  apply Forall_forall. intros t _ n. apply G.
Qed.
Lemma same_all_nonnil ns l : same_all ns l -> l <> [] -> ns <> [].
Proof. intros H. destruct H; congruence. Qed.
Lemma line_value_ext f g ps final : (forall k, f k = g k) -> line_value f ps final = line_value g ps final.
Proof.
  intros H. induction ps as [|[t p] r IH]; [reflexivity|]. cbn [line_value]. rewrite IH. destruct p as [s|[]|[]|s|s]; cbn [piece_value]; rewrite ?H; reflexivity.
Qed.
Lemma becomes_runs V e s w : becomes V s w -> (forall k, dget k e = V k) -> forall o, exists t, preprocess e s o = Ok t /\ t_value t = w.
Proof.
  intros (ps & final & -> & Hok & Hv) He o. pose proof (C25_variable_replacement e ps final o Hok) as K.
  rewrite (line_value_ext (vars e) (fun k => option_map py_str (V k))), Hv in K; [exact K|]. intros k. unfold vars. rewrite He. reflexivity.
Qed.
Lemma quiet_silent : silent quiet.
Proof.
  assert (K : forall l ns, same_all ns l -> Forall (fun t => forall n, same n t -> tree_uses t = [] -> foots n = [] /\ PropertiesText.heads n = []) l ->
    uses l = [] -> all_foots ns = [] /\ all_heads ns = []).
  { intros l ns H. induction H as [|n t ns l H1 H2 IH]; intros G U; [split; reflexivity|]. inversion G as [|? ? G1 G2]; subst.
    unfold uses in U. cbn [map concat] in U. apply app_eq_nil in U as [U1 U2]. destruct (G1 n H1 U1) as [E1 E2]. destruct (IH G2 U2) as [E3 E4].
    unfold all_foots, all_heads in *. cbn [map concat]. rewrite E1, E2, E3, E4. split; reflexivity. }
  assert (G : forall t n, same n t -> tree_uses t = [] -> foots n = [] /\ PropertiesText.heads n = []).
  { fix IH 1. intros t n H. destruct t as [s|s|m s|st c|nm|nm| | | | | | | | | |]; inversion H as [| | |? ns ? ? Hs| | | | | | | | | | | |]; subst; intros U; try discriminate; try (split; reflexivity).
    apply (K c ns Hs); [|exact U]. clear -IH. induction c as [|t c IHc]; constructor; [exact (IH t)|exact IHc]. }
  intros l ns U H. apply (K _ _ H); [|exact U]. apply Forall_forall. intros t _ n. apply G.
Qed.

Section Pages.
  Context (cf : config) (d : nat) (Hd : cf_depth cf = S (S d)).

  (* ------------------------------------------------ the environment *)
  Record env_like (V : world) (e : env) : Prop := mkLike {
    el_keys : NoDup (keys e); el_get : forall k, dget k e = V k; el_base : forall k, In k (keys base_env) -> In k (keys e); el_conf : well_configured e }.
  Lemma text_runs V l s o x : means V l s -> env_like V (dx_env x) ->
    exists nodes ms hs n, runs (dp_text cf s o) x nodes (mentions x ms hs n) /\ same_all nodes l /\ nodes <> [] /\ found (uses l) ms hs.
  Proof.
    intros (w & k & Hb & Hw & He & Hl) Hv. destruct (becomes_runs V (dx_env x) _ _ Hb (el_get _ _ Hv) o) as (t & Et & Ev).
    destruct (conditional_run d (dx_env x) V quiet o (dx_next x) l w k (el_get _ _ Hv) Hw He) as (y & Ey & Hy & F).
    { intros E. destruct (Hl (conditional_nil _ _ _ _ Hw E)). }
    destruct (F quiet_silent) as [F1 F2].
    exists (tx_nodes y), (flat_map foot_mention (all_foots (tx_nodes y))), (flat_map header_mention (all_heads (tx_nodes y))), (tx_next y).
    split; [|split; [exact Hy|split; [exact (same_all_nonnil _ _ Hy Hl)|exact (text_found _ _ Hy)]]].
    intros rem. unfold dp_text, pbind, pget, plift, pmod, pret. cbn [fst snd]. rewrite Et, Ev, Hd. cbn [fst snd]. rewrite Ey. cbn [fst snd].
    rewrite F1, F2. reflexivity.
  Qed.
  Lemma base_itself : env_from_dict base_env None = base_env.
  Proof. vm_compute. reflexivity. Qed.
  Lemma like_base V e : env_like V e -> env_like V (env_update e base_env None false).
  Proof.
    intros [N G B W]. unfold env_update. rewrite base_itself. constructor.
    - apply dupd_nodup. vm_compute. repeat constructor; cbn; intuition discriminate.
    - intros k. rewrite dget_dupd by exact N. rewrite <- G. destruct (dget k e) eqn:E; [reflexivity|]. apply dget_none in E. apply dget_none. intros K. exact (E (B k K)).
    - intros k K. apply dmem_In. unfold dmem. rewrite dget_dupd by exact N. apply B, dmem_In in K. unfold dmem in K. destruct (dget k e); [reflexivity|discriminate].
    - apply Forall_forall. intros [k v] H. apply in_dupd in H as [H|H]; [|exact (proj1 (Forall_forall _ _) W _ H)].
      assert (Hk : In k (keys base_env)) by (apply (in_map fst) in H; exact H). intros f Hf. cbn [fst snd].
      assert (X : forall j, In j (keys base_env) -> forall f, In f FUNCTIONS -> str_eqb j f = false /\ startswith (f ++ [DOT]) j = false).
      { assert (Y : forallb (fun j => forallb (fun f => negb (str_eqb j f) && negb (startswith (f ++ [DOT]) j)) FUNCTIONS) (keys base_env) = true) by (vm_compute; reflexivity).
        rewrite forallb_forall in Y. intros j Hj f' Hf'. specialize (Y j Hj). rewrite forallb_forall in Y. specialize (Y f' Hf'). apply andb_prop in Y as [Y1 Y2].
        apply negb_true_iff in Y1, Y2. auto. }
      destruct (X k Hk f Hf) as [X1 X2]. split; [intros ->; rewrite str_eqb_refl in X1; discriminate|].
      intros r ->. rewrite (proj2 (startswith_spec _ _)) in X2; [discriminate|]. exists r. rewrite <- app_assoc. reflexivity.
  Qed.
  Lemma base_configured : well_configured base_env.
  Proof.
      apply Forall_forall. intros [k v] H. assert (Hk : In k (keys base_env)) by (apply (in_map fst) in H; exact H). intros f Hf. cbn [fst snd].
      assert (Y : forallb (fun j => forallb (fun f => negb (str_eqb j f) && negb (startswith (f ++ [DOT]) j)) FUNCTIONS) (keys base_env) = true) by (vm_compute; reflexivity).
      rewrite forallb_forall in Y. specialize (Y k Hk). rewrite forallb_forall in Y. specialize (Y f Hf). apply andb_prop in Y as [Y1 Y2].
      apply negb_true_iff in Y1, Y2. split; [intros ->; rewrite str_eqb_refl in Y1; discriminate|].
      intros r ->. rewrite (proj2 (startswith_spec _ _)) in Y2; [discriminate|]. exists r. rewrite <- app_assoc. reflexivity.
  Qed.
  Lemma like_given e : NoDup (keys e) -> well_configured e -> env_like (given e) (env_update e base_env None false).
  Proof.
    intros N W. set (e1 := env_update e base_env None false).
    assert (G : forall k, dget k e1 = given e k).
    { intros k. unfold e1, env_update, given. rewrite base_itself. apply dget_dupd, N. }
    constructor.
    - unfold e1, env_update. rewrite base_itself. apply dupd_nodup. vm_compute. repeat constructor; cbn; intuition discriminate.
    - exact G.
    - intros k K. apply dmem_In. apply dmem_In in K. unfold dmem in K |- *. rewrite G. unfold given. destruct (dget k e); [reflexivity|]. exact K.
    - unfold e1, env_update. rewrite base_itself. apply Forall_forall. intros [k v] H. apply in_dupd in H as [H|H]; [|exact (proj1 (Forall_forall _ _) W _ H)].
      exact (proj1 (Forall_forall _ _) base_configured _ H).
  Qed.
  Lemma like_set V e k v : env_like V e -> ordinary k -> env_like (now V k v) (env_set e k (EStr v)).
  Proof.
    intros [N G B W] Hk. rewrite env_set_leaf by exact I. constructor.
    - apply dset_nodup, N.
    - intros j. rewrite dget_dset. unfold now. destruct (str_eqb j k); [reflexivity|apply G].
    - intros j Hj. apply dmem_In. unfold dmem. rewrite dget_dset. destruct (str_eqb j k); [reflexivity|]. apply B, dmem_In in Hj. exact Hj.
    - apply Forall_forall. intros [j w] H. apply in_dset in H as [[-> ->]|H]; [|exact (proj1 (Forall_forall _ _) W _ H)].
      intros f Hf. destruct (Hk f Hf) as [K1 K2]. cbn [fst snd]. split; [congruence|exact K2].
  Qed.
  Lemma configured_get e k : well_configured e -> In k FUNCTIONS -> not_callable (env_get e k) = false.
  Proof.
    intros W Hk. unfold env_get. destruct (dget k e) as [v|] eqn:E.
    - apply dget_in in E. destruct (proj1 (Forall_forall _ _) W _ E k Hk) as [H _]. destruct (H eq_refl) as (o & Ho). cbn [snd] in Ho. rewrite Ho. reflexivity.
    - assert (F : filter (fun kv : str * env_val => startswith (k ++ [DOT]) (fst kv)) e = []).
      { clear E. induction W as [|kv e H W IH]; [reflexivity|]. cbn [filter]. destruct (startswith (k ++ [DOT]) (fst kv)) eqn:E; [|exact IH].
        apply startswith_spec in E as (r & E). destruct (H k Hk) as [_ H']. destruct (H' r). rewrite E, <- app_assoc. reflexivity. }
      cbv zeta. rewrite F. reflexivity.
  Qed.

  (* ------------------------------------------------ arguments *)
  Lemma put_nodup l : forall s, NoDup (keys (snd s)) -> NoDup (keys (snd (fold_left put l s))).
  Proof.
    induction l as [|a l IH]; intros s H; [exact H|]. apply IH. destruct s as [[on u] n]. destruct a; cbn in *; [exact H|apply dset_nodup, H].
  Qed.
  Lemma arguments_nodup e l text o p : writes_args l text -> ~ misplaced l -> Forall single_mark (unnamed_of l) -> marked_with AT (unnamed_of l) = [] ->
    length (marked_with STAR (unnamed_of l)) <= 1 -> parse_arguments e text o = Ok p -> NoDup (keys (na_named (arguments_of p))).
  Proof.
    intros Hw Hm Hs Ha L. destruct (run_args l text o Hw) as (toks & H1 & (t0 & r0 & Ht0) & H2 & _). unfold parse_arguments. rewrite H1. cbn [rbind].
    destruct (H2 Hm) as (x & -> & Hx). cbn [rbind]. destruct (fold_put l false [] []) as (on & E). pose proof (eq_trans Hx E) as Hx2. clear Hx E. rename Hx2 into Hx. cbn [app] in Hx.
    unfold vals in Hx. injection Hx as _ Hu Hn.
    destruct (isolate_values e (option_map t_ctx (hd_error toks)) x _ Hu Hs) as (_ & _ & B). rewrite Ha in B. cbn [length] in B.
    destruct (B L ltac:(lia)) as (unnamed & tags & subtype & alias & U1 & U2 & U3 & U4 & ->). cbn in U4. destruct alias; [discriminate|].
    intros E. apply Ok_inv in E. subst p. unfold arguments_of. cbn [na_named pa_named]. rewrite Hn. apply put_nodup. constructor.
  Qed.

  Definition has_args (a : option (list arg)) (r : option node_args) : Prop :=
    match r with Some r => NoDup (keys (na_named r)) /\ a <> None /\ is_args [] a r | None => a = None end.
  Lemma nodup_left {A} (a b : list A) : NoDup (a ++ b) -> NoDup a.
  Proof. induction b as [|c b IH]; [rewrite app_nil_r; auto|]. intros H. apply IH. exact (NoDup_remove_1 _ _ _ H). Qed.
  (* the alias *)
  Definition source_alias (e : env) : Prop :=
    exists a d def, env_get e ALIASES = FEnv a /\ env_asdict a = Ok d /\ dget (lit "source") d = Some (EDict def) /\
      dget (lit "args") def = Some (EDict [(lit "engine", EStr (lit "source"))]) /\ dget (lit "names") def = Some (EList [lit "language"]) /\ dget (lit "subtype") def = None.
  Lemma two_of {A} (a b : A) l : NoDup l -> a <> b -> (forall z, In z l <-> z = a \/ z = b) -> l = [a; b] \/ l = [b; a].
  Proof.
    intros N Hab H. destruct l as [|x [|y [|z l]]].
    - destruct (proj2 (H a) (or_introl eq_refl)).
    - destruct (proj2 (H a) (or_introl eq_refl)) as [<-|[]]. destruct (proj2 (H b) (or_intror eq_refl)) as [K|[]]. contradiction.
    - inversion N as [|? ? N1 N2]; subst. assert (x <> y) by (intros ->; apply N1; left; reflexivity).
      destruct (proj1 (H x) (or_introl eq_refl)) as [-> | ->]; destruct (proj1 (H y) (or_intror (or_introl eq_refl))) as [-> | ->]; try contradiction; auto.
    - exfalso. inversion N as [|? ? N1 N2]; subst. inversion N2 as [|? ? N3 N4]; subst. assert (x <> y /\ x <> z /\ y <> z) as (X & Y & Z).
      { split; [|split]; intros ->; [apply N1; left; reflexivity|apply N1; right; left; reflexivity|apply N3; left; reflexivity]. }
      destruct (proj1 (H x) (or_introl eq_refl)) as [-> | ->]; destruct (proj1 (H y) (or_intror (or_introl eq_refl))) as [-> | ->];
      destruct (proj1 (H z) (or_intror (or_intror (or_introl eq_refl)))) as [-> | ->]; contradiction.
  Qed.
  Definition AL1 : str * env_val := (ALIASES ++ lit ".source.args.engine", EStr (lit "source")).
  Definition AL2 : str * env_val := (ALIASES ++ lit ".source.names", EList [lit "language"]).
  Lemma aliases_run V e : env_like V e -> usual_aliases V -> source_alias e.
  Proof.
    intros [N G _ _] [P1 P2]. set (f := fun kv : str * env_val => startswith (ALIASES ++ [DOT]) (fst kv)).
    assert (K : filter f e = [AL1; AL2] \/ filter f e = [AL2; AL1]).
    { apply two_of; [|discriminate|].
      - apply NoDup_filter. exact (NoDup_map_inv _ _ N).
      - intros [k v]. split.
        + intros H. apply filter_In in H as [H1 H2]. pose proof H2 as F. unfold f in F. cbn [fst] in F. apply startswith_spec in F as (r & F). apply (in_dget _ _ _ N) in H1.
          rewrite G, F, <- app_assoc in H1. cbn [app] in H1. rewrite P2 in H1. change (ALIASES ++ DOT :: r) with (ALIASES ++ [DOT] ++ r) in H1. rewrite app_assoc, <- F in H1. apply dget_in in H1.
          assert (Q : filter f base_env = [AL1; AL2]) by reflexivity.
          assert (Z : In (k, v) (filter f base_env)) by (apply filter_In; split; assumption). rewrite Q in Z. destruct Z as [Z|[Z|[]]]; [left|right]; symmetry; exact Z.
        + intros E. assert (dget k e = Some v /\ f (k, v) = true) as [H1 H2].
          { destruct E as [E|E]; (assert (k = fst AL1 /\ v = snd AL1 \/ k = fst AL2 /\ v = snd AL2) as [[-> ->]|[-> ->]] by (rewrite <- ?E; tauto)); (split; [rewrite G|reflexivity]).
            1,3: change (fst AL1) with (ALIASES ++ DOT :: lit "source.args.engine"). 3,4: change (fst AL2) with (ALIASES ++ DOT :: lit "source.names").
            all: rewrite P2; reflexivity. }
          apply filter_In. split; [apply dget_in; exact H1|exact H2]. }
    unfold source_alias, env_get. rewrite G, P1. cbv zeta. fold f. destruct K as [-> | ->]; (eexists _, _, _; split; [reflexivity|]; split; [vm_compute; reflexivity|]; split; [reflexivity|]; vm_compute; repeat split).
  Qed.
  Lemma alias_run e l text o b : writes_args l text -> ~ misplaced l -> Forall single_mark (unnamed_of l) -> length (marked_with STAR (unnamed_of l)) <= 1 ->
    marked_with AT (unnamed_of l) = [lit "source"] -> source_alias e -> as_source l b ->
    exists p, parse_arguments e text o = Ok p /\ has_args (Some b) (Some (arguments_of p)).
  Proof.
    intros Hw Hm Hs L Ha (ea & ds & def & D1 & D2 & D3 & D4 & D5 & D6) (S1 & S2 & S3 & S4).
    destruct (run_args l text o Hw) as (toks & H1 & (t0 & r0 & Ht0) & H2 & _). unfold parse_arguments. rewrite H1. cbn [rbind].
    destruct (H2 Hm) as (x & -> & Hx). cbn [rbind]. destruct (fold_put l false [] []) as (on & E). pose proof (eq_trans Hx E) as Hx2. clear Hx E. rename Hx2 into Hx. cbn [app] in Hx.
    unfold vals in Hx. injection Hx as _ Hu Hn.
    destruct (isolate_values e (option_map t_ctx (hd_error toks)) x _ Hu Hs) as (_ & _ & B). rewrite Ha in B. cbn [length hd_error] in B.
    destruct (B L ltac:(lia)) as (unnamed & tags & subtype & alias & U1 & U2 & U3 & U4 & ->).
    destruct alias as [al|]; [|discriminate]. assert (U5 : t_value al = lit "source") by (cbn [option_map hd_error] in U4; congruence). clear U4. rename U5 into U4.
    assert (Hdn : forall k, option_map t_value (dget k (ap_named x)) = named_of l k).
    { intros k. rewrite <- dget_map_values, Hn, fold_put_named. destruct (named_of l k); reflexivity. }
    assert (Nn : NoDup (keys (ap_named x))).
    { assert (X : keys (ap_named x) = keys (map (fun kv : str * token => (fst kv, t_value (snd kv))) (ap_named x))) by (unfold keys; rewrite map_map; reflexivity).
      rewrite X, Hn. apply put_nodup. constructor. }
    unfold expand_alias. fold ALIASES. rewrite D1, D2. cbn [rbind]. rewrite U4, D3, D4. cbn [rbind filter fst]. rewrite D5. cbn [Args.names_of rbind].
    set (named' := fold_left _ _ (ap_named x)).
    assert (G : forall k, dget k named' = match dget k (ap_named x) with Some t => Some t | None => if str_eqb k (lit "engine") then Some (vnode (lit "source") (t_ctx al)) else None end).
    { intros k. unfold named'. destruct (dmem (lit "engine") (ap_named x)) eqn:De; cbn [negb fold_left fst snd py_str].
      - destruct (dget k (ap_named x)) eqn:Ek; [reflexivity|]. destruct (str_eqb_spec k (lit "engine")) as [->|]; [|reflexivity]. unfold dmem in De. rewrite Ek in De. discriminate.
      - rewrite dget_dset. destruct (str_eqb_spec k (lit "engine")) as [->|]; [|destruct (dget k (ap_named x)); reflexivity]. unfold dmem in De. destruct (dget (lit "engine") (ap_named x)); [discriminate|reflexivity]. }
    assert (N' : NoDup (keys named')).
    { unfold named'. destruct (negb _); cbn [fold_left fst snd]; [apply dset_nodup|]; exact Nn. }
    assert (O : filter (fun n => negb (dmem n named')) [lit "language"] = open_names ["language"]%string l).
    { unfold open_names. cbn [map filter]. unfold dmem. rewrite G, <- Hdn. destruct (dget (lit "language") (ap_named x)); reflexivity. }
    unfold set_names. cbv zeta. rewrite O. set (names := open_names ["language"]%string l) in *.
    assert (Nc : NoDup (keys (combine names unnamed))).
    { rewrite combine_keys. assert (No : NoDup names) by (unfold names, open_names; apply NoDup_filter; repeat constructor; intros []).
      rewrite <- (firstn_skipn (length unnamed) names) in No. exact (nodup_left _ _ No). }
    eexists. split; [reflexivity|]. rewrite (dupd_nil _ Nc). unfold has_args, arguments_of. cbn [pa_unnamed pa_named pa_tags pa_subtype na_unnamed na_named na_tags na_internal na_subtype].
    split; [|split; [discriminate|]].
    { unfold keys. rewrite map_map. cbn [fst]. change (NoDup (keys (dupd named' (combine names unnamed)))). apply dupd_nodup, N'. }
    cbn [is_args na_unnamed na_named na_tags na_internal na_subtype]. split; [|split; [|split; [|split]]].
    - rewrite S1, <- skipn_map, U1. reflexivity.
    - unfold tags_of. rewrite S2, U2. apply filter_ext. intros v. rewrite internal_eq. reflexivity.
    - unfold internal_tags_of. rewrite S2, U2, (filter_ext _ _ internal_eq). apply map_ext_in. intros v Hv. apply filter_In in Hv as [_ Hv].
      unfold removeprefix. rewrite internal_eq, Hv. reflexivity.
    - rewrite S3, D6. rewrite <- U3. destruct subtype; reflexivity.
    - intros k. cbn [map mem_str]. rewrite dget_map_values, dget_dupd by exact Nc. rewrite S4, <- Hdn, G, <- U1. 
      assert (C : option_map t_value (dget k (combine names unnamed)) = dget k (combine names (map t_value unnamed))).
      { clear. revert unnamed. induction names as [|n names IH]; intros [|u us]; try reflexivity. cbn. destruct (str_eqb k n); [reflexivity|apply IH]. }
      rewrite <- C. destruct (dget k (combine names unnamed)) as [t|] eqn:Et; cbn [option_map].
      + destruct (dget k (ap_named x)) eqn:Ek; [|reflexivity]. exfalso. apply dget_in in Et. apply in_combine_l in Et. unfold names, open_names in Et. apply filter_In in Et as [_ Et].
        rewrite <- Hdn, Ek in Et. discriminate.
      + destruct (dget k (ap_named x)); [reflexivity|]. destruct (str_eqb k (lit "engine")); reflexivity.
  Qed.
  Lemma no_mem (k : str) : mem_str k (map lit []) = false.
  Proof. reflexivity. Qed.
  Lemma arguments_run V b s t x : SpecPages.arguments V b s -> env_like V (dx_env x) -> t_value t = s ->
    exists p, process_arguments_with_variables (dx_env x) t = Ok p /\ has_args (Some b) (Some (arguments_of p)).
  Proof.
    intros (l & w & Hb & Hw & Hm & Hs & L & Hal) Hv <-. destruct (becomes_runs V (dx_env x) _ _ Hb (el_get _ _ Hv) (origin_of t)) as (u & Eu & Ev).
    destruct Hal as [[Ha ->]|[(Ha & Hu & Hl)|(name & args & names & sub & Ha & Hu & Hn & S1 & S2 & S3 & S4)]].
    3: { destruct (Hu _ (el_keys _ _ Hv) (el_get _ _ Hv)) as (def & a & D1 & D2 & D3 & D4 & D5 & D6).
         destruct (PropertiesAlias.C23_alias_result (dx_env x) l w (origin_of t) name def a names Hw Hm Hs L Ha D1 D2 D3 D5 Hn) as (p & Ep & R). cbv zeta in R. destruct R as (R0 & R1 & R2 & R3 & R4 & R5).
         assert (Ef : PropertiesAlias.free_names l a names = PropertiesAlias.free_names l args names) by (apply filter_ext; intros n; rewrite D4; reflexivity).
         exists p. split; [unfold process_arguments_with_variables; rewrite Eu; cbn [rbind]; rewrite Ev; exact Ep|]. split; [exact R0|]. split; [discriminate|]. cbn [is_args].
         split; [rewrite R2, Ef; symmetry; exact S1|]. split; [rewrite R3; unfold tags_of; rewrite S2; reflexivity|]. split; [rewrite R4; unfold internal_tags_of; rewrite S2; reflexivity|].
         split; [rewrite R5, D6; symmetry; exact S3|]. intros k. cbn [map mem_str]. rewrite R1, S4, Ef, D4. reflexivity. }
    2: { destruct (alias_run (dx_env x) l w (origin_of t) b Hw Hm Hs L Ha (aliases_run _ _ Hv Hu) Hl) as (p & Ep & K). exists p. split; [|exact K].
         unfold process_arguments_with_variables. rewrite Eu. cbn [rbind]. rewrite Ev. exact Ep. }
    pose proof (C22_tags_and_subtype (dx_env x) l w (origin_of t) Hw Hm Hs Ha) as K. cbv zeta in K.
    destruct (Nat.leb_spec (length (marked_with STAR (unnamed_of l))) 1) as [L'|L']; [|lia].
    destruct K as (p & Ep & K1 & K2 & K3 & K4 & K5). exists p. split.
    - unfold process_arguments_with_variables. rewrite Eu. cbn [rbind]. rewrite Ev. exact Ep.
    - split; [exact (arguments_nodup _ _ _ _ _ Hw Hm Hs Ha L Ep)|]. split; [discriminate|]. cbn [is_args]. auto.
  Qed.
  Lemma args_given a r : has_args a r -> is_args [] a (args_or r) /\ NoDup (keys (na_named (args_or r))).
  Proof. destruct r as [r|]; cbn; [intros (H & _ & K); auto|]. intros ->. split; [reflexivity|constructor]. Qed.
  Lemma pop_given used (k : string) a r : is_args used a r -> NoDup (keys (na_named r)) -> mem_str (lit k) (map lit used) = false ->
    fst (pop_arg r (lit k)) = key a k /\ is_args (used ++ [k]) a (snd (pop_arg r (lit k))) /\ NoDup (keys (na_named (snd (pop_arg r (lit k))))).
  Proof.
    intros H N M. unfold pop_arg. cbn [fst snd na_named]. split; [|split; [|apply ddel_nodup, N]].
    - destruct a as [l|]; cbn in H |- *; [|rewrite H; reflexivity]. destruct H as (_ & _ & _ & _ & H). rewrite H, M. reflexivity.
    - destruct a as [l|]; cbn in H |- *; [|rewrite H; reflexivity]. destruct H as (H1 & H2 & H3 & H4 & H5). split; [exact H1|]. split; [exact H2|]. split; [exact H3|]. split; [exact H4|].
      intros j. rewrite dget_ddel by exact N. rewrite H5, map_app. cbn [map].
      assert (E : mem_str j (map lit used ++ [lit k]) = mem_str j (map lit used) || str_eqb j (lit k)).
      { clear. induction (map lit used) as [|u v IH]; cbn; [destruct (str_eqb j (lit k)); reflexivity|]. rewrite IH. destruct (str_eqb j u); reflexivity. }
      rewrite E. destruct (str_eqb j (lit k)); [rewrite orb_true_r; destruct (mem_str j (map lit used)); reflexivity|rewrite orb_false_r; reflexivity].
  Qed.
  Lemma given_key used (k : string) a r : is_args used a r -> mem_str (lit k) (map lit used) = false -> dget (lit k) (na_named r) = key a k.
  Proof. intros H M. destruct a as [l|]; cbn in H |- *; [|rewrite H; reflexivity]. destruct H as (_ & _ & _ & _ & H). rewrite H, M. reflexivity. Qed.

  (* ------------------------------------------------ names given by position *)
  Definition answers (used : list str) (names : list string) (a : option (list arg)) (r : node_args) : Prop :=
    NoDup (keys (na_named r)) /\
    match a with
    | None => r = empty_args
    | Some l => let us := unnamed_of l in
        na_unnamed r = skipn (length (open_names names l)) (plain_of us) /\ na_tags r = tags_of us /\ na_internal r = internal_tags_of us /\
        na_subtype r = hd_error (marked_with STAR us) /\
        forall k, dget k (na_named r) = if mem_str k used then None else
          match named_of l k with Some v => Some v | None => dget k (combine (open_names names l) (plain_of us)) end
    end.
  Lemma mem_str_app k a b : mem_str k (a ++ b) = mem_str k a || mem_str k b.
  Proof. induction a as [|x a IH]; [reflexivity|]. cbn. rewrite IH. apply orb_assoc. Qed.
  Lemma fill_given used names a r : is_args used a r -> NoDup (keys (na_named r)) -> NoDup (map lit names) ->
    (forall k, In k (map lit names) -> mem_str k (map lit used) = false) ->
    answers (map lit used) names a (args_set_names r (map lit names)).
  Proof.
    intros A N Nn D. unfold answers, args_set_names, set_names. destruct a as [l|]; cbn [is_args] in A.
    - destruct A as (A1 & A2 & A3 & A4 & A5). cbn [na_named na_unnamed na_tags na_internal na_subtype].
      assert (O : filter (fun n => negb (dmem n (na_named r))) (map lit names) = open_names names l).
      { unfold open_names. apply filter_ext_in. intros n Hn. unfold dmem. rewrite A5, (D n Hn). destruct (named_of l n); reflexivity. }
      rewrite O, A1. assert (No : NoDup (open_names names l)) by (apply NoDup_filter; exact Nn).
      assert (Nc : NoDup (keys (combine (open_names names l) (plain_of (unnamed_of l))))).
      { rewrite combine_keys. rewrite <- (firstn_skipn (length (plain_of (unnamed_of l))) (open_names names l)) in No. exact (nodup_left _ _ No). }
      rewrite (dupd_nil _ Nc). split; [apply dupd_nodup, N|]. split; [reflexivity|]. repeat (split; [assumption|]). intros k.
      rewrite dget_dupd by exact Nc. rewrite A5. destruct (dget k (combine _ _)) as [v|] eqn:E.
      + apply dget_in in E. apply in_combine_l in E. unfold open_names in E. apply filter_In in E as [E1 E2]. rewrite (D k E1). destruct (named_of l k); [discriminate|reflexivity].
      + destruct (mem_str k (map lit used)); [reflexivity|]. destruct (named_of l k); reflexivity.
    - subst r. cbn [empty_args na_named na_unnamed na_tags na_internal na_subtype]. rewrite combine_nil, skipn_nil. split; [constructor|reflexivity].
  Qed.
  Lemma pop_answers used names (k : string) a r : answers used names a r -> mem_str (lit k) used = false ->
    fst (pop_arg r (lit k)) = filled names a k /\ answers (used ++ [lit k]) names a (snd (pop_arg r (lit k))).
  Proof.
    intros [N H] M. unfold pop_arg, answers. cbn [fst snd na_named]. split; [|split; [apply ddel_nodup, N|]].
    - destruct a as [l|]; [|subst r; reflexivity]. destruct H as (_ & _ & _ & _ & H). rewrite H, M. reflexivity.
    - destruct a as [l|]; [|subst r; reflexivity]. destruct H as (H1 & H2 & H3 & H4 & H5). repeat (split; [assumption|]). intros j. cbn [na_named].
      rewrite dget_ddel by exact N. rewrite H5, mem_str_app. cbn [mem_str]. rewrite orb_false_r. destruct (str_eqb j (lit k)); [rewrite orb_true_r|rewrite orb_false_r]; reflexivity.
  Qed.
  Lemma answers_done used names a r : answers (map lit (used ++ names)) names a r -> is_args_filled names used a r.
  Proof.
    intros [_ H]. destruct a as [l|]; [|exact H]. destruct H as (H1 & H2 & H3 & H4 & H5). cbn [is_args_filled]. repeat (split; [assumption|]). intros k. rewrite H5.
    destruct (mem_str k (map lit (used ++ names))) eqn:E; [reflexivity|]. destruct (named_of l k); [reflexivity|].
    destruct (dget k (combine _ _)) eqn:F; [|reflexivity]. apply dget_in in F. apply in_combine_l in F. unfold open_names in F. apply filter_In in F as [F _].
    assert (X : mem_str k (map lit (used ++ names)) = true) by (rewrite map_app, mem_str_app; apply orb_true_iff; right; apply mem_str_In, F). congruence.
  Qed.
  Lemma answers_key used names (k : string) a r : answers used names a r -> mem_str (lit k) used = false -> mem_str (lit k) (map lit names) = false -> dget (lit k) (na_named r) = key a k.
  Proof.
    intros [_ H] M1 M2. destruct a as [l|]; [|subst r; reflexivity]. destruct H as (_ & _ & _ & _ & H). rewrite H, M1. unfold key. destruct (named_of l (lit k)); [reflexivity|].
    destruct (dget (lit k) (combine _ _)) eqn:F; [|reflexivity]. apply dget_in in F. apply in_combine_l in F. unfold open_names in F. apply filter_In in F as [F _]. apply mem_str_In in F. congruence.
  Qed.

  (* ------------------------------------------------ source code *)
  Lemma nest_dotless flat : forall out, NoDup (keys (out ++ flat)) -> Forall (fun kv : str * env_val => no_chr DOT (fst kv)) flat -> nest_items flat out = Ok (out ++ flat).
  Proof.
    induction flat as [|[k v] flat IH]; intros out N F; [cbn; rewrite app_nil_r; reflexivity|]. inversion F as [|? ? F1 F2]; subst. cbn [nest_items]. cbn [fst] in F1.
    rewrite (split_on_none DOT k F1). cbn [split_into rbind]. unfold keys in N. rewrite map_app in N. cbn [map fst] in N.
    rewrite dset_new.
    - rewrite IH; [rewrite <- app_assoc; reflexivity| |exact F2]. unfold keys. rewrite !map_app. cbn [map fst]. rewrite <- app_assoc. exact N.
    - intros K. apply NoDup_remove_2 in N. apply N, in_or_app. left. exact K.
  Qed.
  Lemma filter_idem {A} (f : A -> bool) l : filter f (filter f l) = filter f l.
  Proof. induction l as [|a l IH]; [reflexivity|]. cbn. destruct (f a) eqn:E; [|exact IH]. cbn. rewrite E, IH. reflexivity. Qed.
  Lemma dget_filter {A} (f : str * A -> bool) k (e : dict A) : (forall v, f (k, v) = true) -> dget k (filter f e) = dget k e.
  Proof.
    intros H. induction e as [|[j v] e IH]; [reflexivity|]. cbn [filter dget]. destruct (str_eqb_spec k j) as [<-|Hn].
    - rewrite H. cbn [dget]. rewrite str_eqb_refl. reflexivity.
    - destruct (f (j, v)); [|exact IH]. cbn [dget]. destruct (str_eqb_spec k j); [congruence|exact IH].
  Qed.
  Lemma styles_run V e : env_like V e -> plain_styles V -> exists d, style_aliases e = Ok d /\ forall n, dget n d = V (STYLES ++ DOT :: n).
  Proof.
    intros [N G _ _] [P1 P2]. set (f := fun kv : str * env_val => startswith (STYLES ++ [DOT]) (fst kv)). set (e' := filter f e).
    assert (Gf : forall q, dget (STYLES ++ [DOT] ++ q) e' = V (STYLES ++ DOT :: q)).
    { intros q. unfold e'. rewrite dget_filter; [apply G|]. intros v. unfold f. cbn [fst]. rewrite app_assoc. apply startswith_app. }
    assert (N0 : dget STYLES e' = None).
    { destruct (dget STYLES e') as [v|] eqn:E; [|reflexivity]. apply dget_in in E. unfold e' in E. apply filter_In in E as [E _]. apply (in_dget _ _ _ N) in E. rewrite G in E. congruence. }
    assert (Fl : flat_env e').
    { split; [exact (keys_filter (startswith (STYLES ++ [DOT])) e N)|]. apply Forall_forall. intros [k v] K. cbn [snd]. unfold e' in K. apply filter_In in K as [K1 K2]. unfold f in K2. cbn [fst] in K2.
      apply startswith_spec in K2 as (r & ->). apply (in_dget _ _ _ N) in K1. rewrite G, <- app_assoc in K1. destruct (P2 _ _ K1) as (_ & s & ->). exact I. }
    assert (Eg : env_get e STYLES = env_get e' STYLES).
    { unfold env_get. rewrite N0, G, P1. cbv zeta. fold f. unfold e'. rewrite filter_idem. reflexivity. }
    unfold style_aliases. fold STYLES. rewrite Eg. destruct (env_get e' STYLES) as [v|sub|] eqn:E.
    - apply env_get_val in E. congruence.
    - destruct (env_get_ns e' STYLES sub Fl E) as [[S1 S2] S3]. exists sub. split; [|intros n; rewrite S3; apply Gf].
      unfold env_asdict, nest_flattened_dict. rewrite nest_dotless; [reflexivity|exact S1|]. apply Forall_forall. intros [k v] K. cbn [fst]. apply (in_dget _ _ _ S1) in K.
      rewrite S3, Gf in K. exact (proj1 (P2 _ _ K)).
    - destruct (env_get_default _ _ E) as [_ D]. exists []. split; [reflexivity|]. intros n. cbn [dget]. rewrite <- Gf, D. reflexivity.
  Qed.
  Lemma code_line V a dl aliases c n w cd : (forall k, dget k aliases = V (STYLES ++ DOT :: k)) -> codes V a dl w cd ->
    exists sl, source_line_of [dl] (choice a "highlight_marker" "@") (choice a "highlight_default_style" "default") aliases c n w = Ok sl /\
      SpecManagers.writes (sl_number sl) (S n) /\ sl_content sl = cd_text cd /\ sl_style sl = cd_style cd /\ option_map fst (sl_marker sl) = cd_callout cd.
  Proof.
    intros Ha H. destruct (PropertiesEngines.source_line_ok dl (choice a "highlight_marker" "@") (choice a "highlight_default_style" "default") aliases c n w) as (sl & E & W & m & R & Sh).
    exists sl. split; [exact E|]. split; [exact W|].
    assert (St : forall name, SpecEngines.named_style aliases name = styled V name) by (intros name; unfold SpecEngines.named_style, styled; rewrite Ha; reflexivity).
    destruct H as [w Hw|s Hp|s m0 Hm Hn Hp|s m0 r Hr Hm]; cbn [cd_text cd_style cd_callout].
    - destruct (PropertiesEngines.C40_unique dl w _ _ _ _ R (SpecEngines.sr_plain dl w Hw)) as [-> ->]. destruct Sh as [-> ->]. auto.
    - destruct (PropertiesEngines.C40_unique dl _ _ _ _ _ R (SpecEngines.sr_marked dl s [] (fun f => f))) as [-> ->]. destruct Sh as [_ Sh].
      destruct Sh as [-> ->]; [|auto]. intros r K. destruct (choice a "highlight_marker" "@"); [congruence|discriminate K].
    - destruct (PropertiesEngines.C40_unique dl _ _ _ _ _ R (SpecEngines.sr_marked dl s m0 Hm)) as [-> ->]. destruct Sh as [_ Sh]. destruct (Sh Hp) as [-> ->].
      destruct m0; [congruence|auto].
    - destruct (PropertiesEngines.C40_unique dl _ _ _ _ _ R (SpecEngines.sr_marked dl s m0 Hm)) as [-> ->]. destruct Sh as [Sh _]. destruct (Sh r Hr) as [-> ->]. rewrite St. auto.
  Qed.
  Lemma code_lines V a dl aliases c : (forall k, dget k aliases = V (STYLES ++ DOT :: k)) -> forall ws cs, Forall2 (codes V a dl) ws cs -> forall n,
    exists sls, for_each (fun nl : nat * str => source_line_of [dl] (choice a "highlight_marker" "@") (choice a "highlight_default_style" "default") aliases c (fst nl) (snd nl)) (enumerate_from n ws) = Ok sls /\
      numbered (S n) sls cs.
  Proof.
    intros Ha ws cs H. induction H as [|w cd ws cs H _ IH]; intros n; [exists []; split; [reflexivity|constructor]|]. cbn [enumerate_from for_each fst snd].
    destruct (code_line V a dl aliases c n w cd Ha H) as (sl & -> & W & E1 & E2 & E3). destruct (IH (S n)) as (sls & -> & Hn). exists (sl :: sls). split; [reflexivity|]. constructor; assumption.
  Qed.
  Definition CODE_USED : list string := ["classes"; "engine"; "marker_delimiter"; "highlight_marker"; "highlight_default_style"]%string.
  Lemma or_else_choice a k df : or_else (key a k) (lit df) = choice a k df.
  Proof. unfold choice. destruct (key a k); reflexivity. Qed.
  Lemma source_block_run V e a r t dl ws cs : env_like V e -> plain_styles V -> is_args ["classes"; "engine"]%string a r -> NoDup (keys (na_named r)) ->
    choice a "marker_delimiter" ":" = [dl] -> split_on NL (t_value t) = ws -> Forall2 (codes V a dl) ws cs ->
    exists lines r', source_block e t r = Ok (match filled ["language"]%string a "language" with Some v => v | None => lit "text" end, lines, r') /\
      numbered 1 lines cs /\ answers (map lit (CODE_USED ++ ["language"%string])) ["language"]%string a r'.
  Proof.
    intros He Hp A N Hdl Hw Hc. destruct (styles_run V e He Hp) as (al & Ea & Ha).
    destruct (pop_given _ "marker_delimiter" a _ A N eq_refl) as (P1 & A1 & N1). set (r1 := snd (pop_arg r (lit "marker_delimiter"))) in *.
    destruct (pop_given _ "highlight_marker" a _ A1 N1 eq_refl) as (P2 & A2 & N2). set (r2 := snd (pop_arg r1 (lit "highlight_marker"))) in *.
    destruct (pop_given _ "highlight_default_style" a _ A2 N2 eq_refl) as (P3 & A3 & N3). set (r3 := snd (pop_arg r2 (lit "highlight_default_style"))) in *.
    cbn [app] in A3. pose proof (fill_given _ ["language"%string] a r3 A3 N3 ltac:(repeat constructor; intros []) ltac:(intros k [<-|[]]; reflexivity)) as B.
    destruct (pop_answers _ _ "language" a _ B eq_refl) as (P4 & B4). cbn [map] in P4, B4.
    destruct (code_lines V a dl al (t_ctx t) Ha ws cs Hc 0) as (lines & El & Hn).
    exists lines. eexists. split; [|split; [exact Hn|exact B4]]. unfold source_block.
    rewrite (surjective_pairing (pop_arg r (lit "marker_delimiter"))). fold r1. rewrite P1.
    rewrite (surjective_pairing (pop_arg r1 (lit "highlight_marker"))). fold r2. rewrite P2.
    rewrite (surjective_pairing (pop_arg r2 (lit "highlight_default_style"))). fold r3. rewrite P3. rewrite Ea. cbn [rbind].
    rewrite (surjective_pairing (pop_arg (args_set_names r3 [lit "language"]) (lit "language"))). rewrite P4.
    change (lit ":") with (lit ":"). rewrite !or_else_choice, Hdl, Hw. rewrite El. cbn [rbind]. unfold or_else. destruct (filled _ a "language"); reflexivity.
  Qed.

  (* ------------------------------------------------ labels *)
  Lemma labels_dset k t n l r : is_labels l r -> same_all n t -> is_labels (dset k t l) (dset k n r).
  Proof.
    intros H Hn. induction H as [|[a u] [b v] l r [H1 H2] H IH]; cbn [dset]; [constructor; [auto|constructor]|]. cbn [fst snd] in *. subst b.
    destruct (str_eqb k a); constructor; auto.
  Qed.

  (* ------------------------------------------------ the state *)
  Definition pending (c : option SpecPages.condition) (k : option control) : Prop :=
    match c, k with
    | None, None => True
    | Some (v, equal, w), Some k => forall e', match dget v e' with
        | Some x => exists b, run_control e' k = Ok b /\ (b = true <-> if equal : bool then x = EStr w else x <> EStr w)
        | None => True
        end
    | _, _ => False
    end.
  Record ready (V : world) (c : option SpecPages.condition) (a : option (list arg)) (l : dict line) (x : dx) : Prop := mkReady {
    rd_args : has_args a (dx_args x); rd_labels : is_labels l (dx_labels x); rd_control : pending c (dx_control x);
    rd_env : env_like V (dx_env x) }.
  (* what was added *)
  Definition group_names (x : dx) : list str := map mn_name (gm_groups (dx_groups x)).
  Definition placed (g p : str) (x : dx) : Prop := dmem p (gm_group (dx_groups x) g) = true.
  Record adds (us : list use) (x y : dx) : Prop := mkAdds {
    ad_foot : foot_names (fm_macros (dx_foot y)) = foot_names (fm_macros (dx_foot x)) ++ foots_of us;
    ad_head : head_names (hm_macros (dx_links y)) = head_names (hm_macros (dx_links x)) ++ heads_of us;
    ad_body : keys (fm_bodies (dx_foot y)) = keys (fm_bodies (dx_foot x)) ++ bodies_of us;
    ad_name : keys (hm_headers (dx_links y)) = keys (hm_headers (dx_links x)) ++ names_of us;
    ad_group : group_names y = group_names x ++ groups_of us;
    ad_item : forall g p, placed g p y <-> placed g p x \/ In (g, p) (items_of us);
    ad_file : incl (dx_forbidden y) (dx_forbidden x ++ sources_of us ++ map Some (files_of us)) }.
  Lemma adds_nil x y : dx_foot y = dx_foot x -> dx_links y = dx_links x -> dx_groups y = dx_groups x -> dx_forbidden y = dx_forbidden x -> adds [] x y.
  Proof.
    intros E1 E2 E3 E4. constructor; unfold group_names, placed; rewrite ?E1, ?E2, ?E3, ?E4; cbn; rewrite ?app_nil_r; try reflexivity; [tauto|apply incl_refl].
  Qed.
  Lemma adds_plain us x y : unplaced us -> dx_groups y = dx_groups x -> dx_forbidden y = dx_forbidden x ->
    foot_names (fm_macros (dx_foot y)) = foot_names (fm_macros (dx_foot x)) ++ foots_of us ->
    head_names (hm_macros (dx_links y)) = head_names (hm_macros (dx_links x)) ++ heads_of us ->
    keys (fm_bodies (dx_foot y)) = keys (fm_bodies (dx_foot x)) ++ bodies_of us ->
    keys (hm_headers (dx_links y)) = keys (hm_headers (dx_links x)) ++ names_of us -> adds us x y.
  Proof.
    intros (U1 & U2 & U3 & U4) E1 E2 A B C D. constructor; try assumption; unfold group_names, placed; rewrite ?E1, ?E2, ?U1, ?U2, ?U3, ?U4; cbn; rewrite ?app_nil_r; [reflexivity|tauto|apply incl_refl].
  Qed.
  Lemma adds_app u v x y z : adds u x y -> adds v y z -> adds (u ++ v) x z.
  Proof.
    intros [A B C D G I L] [A' B' C' D' G' I' L'].
    constructor; rewrite ?foots_of_app, ?heads_of_app, ?bodies_of_app, ?names_of_app, ?groups_of_app, ?items_of_app, ?files_of_app, ?sources_of_app, ?map_app, ?A', ?B', ?C', ?D', ?G', ?A, ?B, ?C, ?D, ?G, ?app_assoc; try reflexivity.
    - intros g p. rewrite I', I, in_app_iff. tauto.
    - intros f Hf. apply L' in Hf. rewrite !in_app_iff in *. destruct Hf as [Hf|Hf]; [apply L in Hf; rewrite !in_app_iff in Hf; tauto|tauto].
  Qed.
  Lemma adds_found us ms hs x n y : found us ms hs -> dx_foot y = dx_foot (mentions x ms hs n) -> dx_links y = dx_links (mentions x ms hs n) ->
    dx_groups y = dx_groups x -> dx_forbidden y = dx_forbidden x -> adds us x y.
  Proof.
    intros (A & B & C & D & G & I & L & M) E1 E2 E3 E4.
    constructor; unfold group_names, placed; rewrite ?E1, ?E2, ?E3, ?E4; cbn; unfold foot_names, head_names in *; rewrite ?map_app, ?A, ?B, ?C, ?D, ?G, ?I, ?L, ?M, ?app_nil_r; try reflexivity.
    - cbn. tauto.
    - apply incl_refl.
  Qed.

  Lemma admit_runs V c b y : pending c (dx_control y) -> env_like V (dx_env y) -> verdict V c b -> runs dp_admitted y b (set_control y None).
  Proof.
    intros P E H rem. unfold dp_admitted, pbind, pget, pmod, pret, plift. cbn [fst snd]. destruct c as [[[v equal] w]|], (dx_control y) as [k|]; try destruct P.
    - cbn [verdict] in H. destruct H as (val & H1 & H2). specialize (P (dx_env y)). rewrite (el_get _ _ E), H1 in P. destruct P as (b' & -> & P).
      assert (b' = b) as ->; [|reflexivity]. apply eq_true_iff_eq. rewrite H2. exact P.
    - cbn in H. subst b. reflexivity.
  Qed.
  Definition shows (b : bool) (n : dnode) : list dnode := if b then [n] else [].
  Lemma finish_runs V c b n y : pending c (dx_control y) -> env_like V (dx_env y) -> verdict V c b ->
    runs (dp_finish n) y true (set_nodes (set_control y None) (dx_nodes y ++ shows b n)).
  Proof.
    intros P E H rem. unfold dp_finish. rewrite (runs_bind _ _ _ _ _ _ (admit_runs V c b y P E H)). destruct b; [reflexivity|]. cbn [shows]. rewrite app_nil_r. destruct y. reflexivity.
  Qed.
  Lemma pop_args_run x : runs dp_pop_args x (args_or (dx_args x)) (set_args x None).
  Proof. intros rem. reflexivity. Qed.
  Lemma pop_labels_run x : runs dp_pop_labels x (dx_labels x) (set_labels x []).
  Proof. intros rem. reflexivity. Qed.
  Definition makes (V : world) (us : list use) (b : bool) (p : page) (x x' : dx) : Prop :=
    exists n, dx_nodes x' = dx_nodes x ++ shows b n /\ is_page n p /\ ready V None None [] x' /\ adds us x x'.
  Definition gives (m : D bool) (x : dx) (V : world) (us : list use) (b : bool) (p : page) : Prop :=
    exists x', runs m x true x' /\ makes V us b p x x'.
  Lemma ready_after V V' c a l x x' : ready V c a l x -> dx_args x' = None -> dx_labels x' = [] -> dx_control x' = None ->
    env_like V' (dx_env x') -> ready V' None None [] x'.
  Proof. intros [? ? ? ?] E1 E2 E3 E5. constructor; try congruence; rewrite ?E1, ?E2, ?E3; try reflexivity; try exact I. constructor. Qed.

  Lemma variable_run V c a l x o n cl s v tk : ready V c a l x -> ~ In (hd 0%N (t_value n)) (lit "+-") -> t_value n <> [] -> t_value tk = s -> s <> [] -> becomes V s v -> v <> [] -> ordinary (t_value n) ->
    exists x', runs (dp_do_variable o n cl (Some tk)) x true x' /\ dx_nodes x' = dx_nodes x /\ ready (now V (t_value n) v) c a l x' /\ adds [] x x'.
  Proof.
    intros R Hn Hne Es Hs Hb Hv Ho. exists (set_env x (env_set (dx_env x) (t_value n) (EStr v))). split; [|split; [reflexivity|split]].
    - intros rem. unfold dp_do_variable. rewrite Es. cbv zeta beta iota. unfold pget at 1, pbind at 1. cbn [fst snd].
      assert (S1 : forall ch, In ch (lit "+-") -> startswith [ch] (t_value n) = false).
      { intros ch Hc. destruct (t_value n) as [|e r]; [congruence|]. cbn [startswith]. destruct (N.eqb_spec ch e) as [->|]; [|reflexivity]. destruct (Hn Hc). }
      change (lit "+") with [chr "+"]. change (lit "-") with [chr "-"]. rewrite !S1 by (cbn; auto). destruct s as [|s0 s]; [congruence|].
      match goal with |- context [preprocess _ _ ?org] => destruct (becomes_runs V (dx_env x) _ _ Hb (el_get _ _ (rd_env _ _ _ _ _ R)) org) as (t & Et & Ev) end.
      unfold plift, pbind, pret. rewrite Et, Ev. cbn [fst snd]. destruct v as [|v0 v]; [congruence|]. reflexivity.
    - destruct R as [? ? ? ?]. constructor; try assumption. apply like_set; assumption.
    - apply adds_nil; reflexivity.
  Qed.
  Lemma flag_run V c a l x o n cl (on : bool) name : ready V c a l x -> t_value n = (if on then lit "+" else lit "-") ++ name -> ordinary name ->
    exists x', runs (dp_do_variable o n cl None) x true x' /\ dx_nodes x' = dx_nodes x /\ ready (now V name (if on then lit "true" else lit "false")) c a l x' /\ adds [] x x'.
  Proof.
    intros R En Ho. exists (set_env x (env_set (dx_env x) name (EStr (if on then lit "true" else lit "false")))). split; [|split; [reflexivity|split]].
    - intros rem. unfold dp_do_variable. rewrite En. destruct on; reflexivity.
    - destruct R as [? ? ? ?]. constructor; try assumption. apply like_set; assumption.
    - apply adds_nil; reflexivity.
  Qed.
  Lemma condition_run V c a l x p op tk s dd : ready V c a l x -> t_value op = lit "if" -> t_value tk = s -> tests V dd s ->
    exists x', runs (dp_do_control p op tk) x true x' /\ dx_nodes x' = dx_nodes x /\ ready V (Some dd) a l x' /\ adds [] x x'.
  Proof.
    intros R Ho Es Ht. destruct dd as [[v equal] w]. destruct Ht as (sp1 & sp2 & Hb & Hv & H1 & H2 & Hw).
    destruct (becomes_runs V (dx_env x) _ _ Hb (el_get _ _ (rd_env _ _ _ _ _ R)) (origin_of tk)) as (t & Et & Ev). rewrite <- Es in Et.
    destruct (C27_conditions (dx_env x) p op tk v sp1 equal sp2 w Hv H1 H2 Hw (ex_intro _ t (conj Et Ev)) Ho) as (k & Ek & Hk).
    exists (set_control x (Some k)). split; [|split; [reflexivity|split]].
    - intros rem. unfold dp_do_control, pbind, pget, plift, pmod, pret. cbn [fst snd]. rewrite Ek. reflexivity.
    - destruct R as [? ? ? ?]. constructor; try assumption. cbn. intros e'. specialize (Hk e'). destruct (dget v e'); [exact Hk|exact I].
    - apply adds_nil; reflexivity.
  Qed.
  Lemma label_run V c a l x role s tx p t : ready V c a l x -> t_value p = lit "." ++ role -> t_value tx = s -> means V t s ->
    exists x', runs (dp_do_label cf p tx) x true x' /\ dx_nodes x' = dx_nodes x /\ ready V c a (dset (role_of role) t l) x' /\ adds (uses t) x x'.
  Proof.
    intros R Ep Es Hm. destruct (text_runs V t s (origin_of tx) x Hm (rd_env _ _ _ _ _ R)) as (nodes & ms & hs & n & Hr & Hs & _ & Hf).
    exists (set_labels (mentions x ms hs n) (dset (role_of role) nodes (dx_labels x))). split; [|split; [reflexivity|split]].
    - intros rem. unfold dp_do_label. cbv zeta. rewrite Ep, Es. rewrite (runs_bind _ _ _ _ _ _ Hr). unfold pbind, pmod, pret. cbn [fst snd]. destruct role; reflexivity.
    - destruct R as [? ? ? ?]. constructor; try assumption. cbn. apply labels_dset; assumption.
    - apply (adds_found _ ms hs x n); [exact Hf|reflexivity..].
  Qed.
  Lemma arguments_go V c a l x b s t : ready V c a l x -> SpecPages.arguments V b s -> t_value t = s ->
    exists x', runs (dp_do_arguments t) x true x' /\ dx_nodes x' = dx_nodes x /\ ready V c (Some b) l x' /\ adds [] x x'.
  Proof.
    intros R Hb Es. destruct (arguments_run V b s t x Hb (rd_env _ _ _ _ _ R) Es) as (p & Ep & Ha). exists (set_args x (Some (arguments_of p))).
    split; [intros rem; unfold dp_do_arguments, pbind, pget, plift, pmod, pret; cbn [fst snd]; rewrite Ep; reflexivity|]. split; [reflexivity|].
    split; [destruct R as [? ? ? ?]; constructor; assumption|apply adds_nil; reflexivity].
  Qed.
  Lemma rule_run V c a l x b t : ready V c a l x -> verdict V c b -> gives (dp_do_rule t) x V [] b (PRule a l).
  Proof.
    intros R Hb. pose proof (args_given _ _ (rd_args _ _ _ _ _ R)) as [A _]. set (y := set_labels (set_args x None) []). set (node := DRule (mkAttrs (args_or (dx_args x)) (dx_labels x) (t_ctx t))).
    exists (set_nodes (set_control y None) (dx_nodes y ++ shows b node)). split; [|exists node; split; [reflexivity|split; [|split]]].
    - intros rem. unfold dp_do_rule. rewrite (runs_bind _ _ _ _ _ _ (pop_args_run x)), (runs_bind _ _ _ _ _ _ (pop_labels_run _)).
      apply (finish_runs V c b node y (rd_control _ _ _ _ _ R) (rd_env _ _ _ _ _ R) Hb).
    - constructor. split; [exact A|exact (rd_labels _ _ _ _ _ R)].
    - apply (ready_after _ V _ _ _ _ _ R); try reflexivity. exact (rd_env _ _ _ _ _ R).
    - apply adds_nil; reflexivity.
  Qed.
  Lemma heading_run V c a l x b n h tx t : ready V c a l x -> t_value h = EQ1 n -> means V t (t_value tx) -> verdict V c b ->
    NoDup (keys (hm_headers (dx_links x)) ++ names_of (name_use b a)) ->
    gives (dp_do_header cf h tx) x V (uses t ++ name_use b a) b (PHeading a l (S n) t).
  Proof.
    intros R Eh Hm Hb Hnd. set (x1 := set_shared x (S (dx_next x)) (dx_done x)).
    destruct (text_runs V t (t_value tx) (origin_of tx) x1 Hm (rd_env _ _ _ _ _ R)) as (nodes & ms & hs & k & Hr & Hs & Hne & Hf).
    destruct (args_given _ _ (rd_args _ _ _ _ _ R)) as [A N].
    destruct (pop_given [] "internal_id" a _ A N eq_refl) as (P1 & A1 & N1). destruct (pop_given ["internal_id"%string] "name" a _ A1 N1 eq_refl) as (P2 & A2 & N2).
    set (a1 := snd (pop_arg (args_or (dx_args x)) (lit "internal_id"))) in *. set (a2 := snd (pop_arg a1 (lit "name"))) in *.
    set (first := hd (NText [] empty_context) nodes).
    set (hdr := mkHeader (dx_next x) (length (t_value h)) (key a "internal_id") (key a "name") nodes a2 (dx_labels x)
                  (merge_contexts (t_ctx h) (merge_contexts (inode_ctx first) (inode_ctx (last nodes first))))).
    set (y := set_control (set_labels (set_args (mentions x1 ms hs k) None) []) None).
    set (links := match b, key a "name" with true, Some (ch :: nm) => mkHman (hm_macros (dx_links y)) (hm_headers (dx_links y) ++ [(ch :: nm, hdr)]) | _, _ => dx_links y end).
    set (z := set_links y links).
    exists (if b then set_nodes (set_toc z (tm_add_header (dx_toc z) hdr)) (dx_nodes z ++ [DHeader hdr]) else y). split; [|exists (DHeader hdr); split; [|split; [|split]]].
    - intros rem. unfold dp_do_header. assert (Hfr : runs dp_fresh x (dx_next x) x1) by (intros r; reflexivity). rewrite (runs_bind _ _ _ _ _ _ Hfr), (runs_bind _ _ _ _ _ _ Hr), (runs_bind _ _ _ _ _ _ (pop_args_run _)).
      change (args_or (dx_args (mentions x1 ms hs k))) with (args_or (dx_args x)).
      rewrite (surjective_pairing (pop_arg (args_or (dx_args x)) (lit "internal_id"))). fold a1. rewrite P1.
      rewrite (surjective_pairing (pop_arg a1 (lit "name"))). fold a2. rewrite P2.
      assert (Hfl : forall z, runs (first_last nodes) z (first, last nodes first) z) by (intros z0 r; subst first; clear -Hne; destruct nodes; [congruence|reflexivity]).
      rewrite (runs_bind _ _ _ _ _ _ (Hfl _)). rewrite (runs_bind _ _ _ _ _ _ (pop_labels_run _)).
      match goal with |- context [pbind dp_admitted _ (_, ?y)] => rewrite (runs_bind _ _ _ _ _ _ (admit_runs V c b y (rd_control _ _ _ _ _ R) (rd_env _ _ _ _ _ R) Hb)) end. cbv beta iota zeta.
      change (set_control (set_labels (set_args (mentions x1 ms hs k) None) []) None) with y.
      destruct b; [|reflexivity]. subst z links. unfold name_use in Hnd. fold first.
      change (dx_labels (set_args (mentions x1 ms hs k) None)) with (dx_labels x). cbn [fst snd]. change (mkHeader _ _ _ _ _ _ _ _) with hdr.
      destruct (key a "name") as [[|ch nm]|].
      + unfold pbind, pmod, pret, dp_save. destruct y. reflexivity.
      + assert (Hk : dmem (ch :: nm) (hm_headers (dx_links y)) = false).
        { destruct (dmem (ch :: nm) (hm_headers (dx_links y))) eqn:E; [|reflexivity]. apply dmem_In in E. exfalso.
          change (hm_headers (dx_links y)) with (hm_headers (dx_links x)) in E. cbn in Hnd. apply NoDup_remove_2 in Hnd. apply Hnd. rewrite app_nil_r. exact E. }
        assert (Hadd : runs (let* x := pget in let* m := plift (hm_add_header (dx_links x) (ch :: nm) hdr) in pmod (fun x => set_links x m)) y tt
                         (set_links y (mkHman (hm_macros (dx_links y)) (hm_headers (dx_links y) ++ [(ch :: nm, hdr)])))).
        { intros r. unfold pbind, pget, plift, pmod. cbn [fst snd]. unfold hm_add_header. rewrite Hk, (dset_new (ch :: nm) hdr); [reflexivity|]. intros K. apply dmem_In in K. congruence. }
        rewrite (runs_bind _ _ _ _ _ _ Hadd). reflexivity.
      + unfold pbind, pmod, pret, dp_save. destruct y. reflexivity.
    - destruct b; [reflexivity|]. cbn [shows]. rewrite app_nil_r. reflexivity.
    - constructor.
      + change (length (t_value h) = S n). rewrite Eh. unfold EQ1. apply repeat_length.
      + exact Hs.
      + reflexivity.
      + reflexivity.
      + split; [exact A2|exact (rd_labels _ _ _ _ _ R)].
    - destruct b; apply (ready_after _ V _ _ _ _ _ R); try reflexivity; exact (rd_env _ _ _ _ _ R).
    - apply (adds_app _ _ _ (mentions x1 ms hs k)); [apply (adds_found _ ms hs x k); [exact Hf|reflexivity..]|].
      unfold name_use. destruct b; [|apply adds_nil; reflexivity]. subst z links. destruct (key a "name") as [[|ch nm]|]; [apply adds_nil; reflexivity| |apply adds_nil; reflexivity].
      apply adds_plain; cbn; rewrite ?app_nil_r; try reflexivity; [repeat split|]. unfold keys. rewrite map_app. reflexivity.
  Qed.
  Lemma line_nodes_run V ts toks : Forall2 (fun t tk => means V t (t_value tk)) ts toks -> forall x, env_like V (dx_env x) ->
    exists lines ms hs n, runs (dp_line_nodes cf toks) x lines (mentions x ms hs n) /\ Forall2 (fun ln t => same_all (fst ln) t) lines ts /\ found (concat (map uses ts)) ms hs.
  Proof.
    induction 1 as [|t tk ts toks Hm H IH]; intros x He.
    - exists [], [], [], (dx_next x). split; [|split; [constructor|apply found_nil]]. intros rem. rewrite mentions_none. reflexivity.
    - destruct (text_runs V t _ (origin_of tk) x Hm He) as (nodes & ms & hs & n & Hr & Hs & _ & Hf).
      destruct (IH (mentions x ms hs n) He) as (lines & ms2 & hs2 & n2 & Hr2 & Hs2 & Hf2). exists ((nodes, t_ctx tk) :: lines), (ms ++ ms2), (hs ++ hs2), n2.
      split; [|split; [constructor; assumption|exact (found_app _ _ _ _ _ _ Hf Hf2)]].
      intros rem. cbn [dp_line_nodes]. rewrite (runs_bind _ _ _ _ _ _ Hr), (runs_bind _ _ _ _ _ _ Hr2), mentions_mentions. reflexivity.
  Qed.
  Lemma paragraph_run V c a l x b ts toks : ready V c a l x -> ts <> [] -> Forall2 (fun t tk => means V t (t_value tk)) ts toks -> verdict V c b ->
    gives (dp_do_paragraph cf toks) x V (concat (map uses ts)) b (PParagraph a l ts).
  Proof.
    intros R Hne H Hb. destruct (line_nodes_run V ts toks H x (rd_env _ _ _ _ _ R)) as (lines & ms & hs & n & Hr & Hs & Hf).
    destruct (args_given _ _ (rd_args _ _ _ _ _ R)) as [A _]. assert (Hl : lines <> []) by (intros ->; inversion Hs; congruence).
    set (first := hd ([], empty_context) lines : list inode * context).
    set (y := set_labels (set_args (mentions x ms hs n) None) []).
    set (node := DParagraph lines (mkAttrs (args_or (dx_args x)) (dx_labels x) (merge_contexts (snd first) (snd (last lines first))))).
    exists (set_nodes (set_control y None) (dx_nodes y ++ shows b node)). split; [|exists node; split; [reflexivity|split; [|split]]].
    - intros rem. unfold dp_do_paragraph. rewrite (runs_bind _ _ _ _ _ _ Hr), (runs_bind _ _ _ _ _ _ (pop_args_run _)).
      assert (Hfl : forall z, runs (first_last lines) z (first, last lines first) z) by (intros z r; subst first; clear -Hl; destruct lines; [congruence|reflexivity]).
      rewrite (runs_bind _ _ _ _ _ _ (Hfl _)). rewrite (runs_bind _ _ _ _ _ _ (pop_labels_run _)). cbn [fst snd].
      exact (finish_runs V c b node y (rd_control _ _ _ _ _ R) (rd_env _ _ _ _ _ R) Hb rem).
    - constructor; [split; [exact A|exact (rd_labels _ _ _ _ _ R)]|exact Hs].
    - apply (ready_after _ V _ _ _ _ _ R); try reflexivity. exact (rd_env _ _ _ _ _ R).
    - apply (adds_found _ ms hs x n); [exact Hf|reflexivity..].
  Qed.

  (* ------------------------------------------------ lists *)
  Lemma item_run V t h tk x : means V t (t_value tk) -> env_like V (dx_env x) ->
    exists c ctx ms hs n, runs (dp_do_item cf h tk) x (DItem (length (t_value h)) c ctx) (mentions x ms hs n) /\ same_all c t /\ found (uses t) ms hs.
  Proof.
    intros Hm He. destruct (text_runs V t _ (origin_of tk) x Hm He) as (nodes & ms & hs & n & Hr & Hs & Hne & Hf).
    eexists nodes, _, ms, hs, n. split; [|split; [exact Hs|exact Hf]]. intros rem. unfold dp_do_item. rewrite (runs_bind _ _ _ _ _ _ Hr).
    assert (Hfl : forall z, runs (first_last nodes) z (hd (NText [] empty_context) nodes, last nodes (hd (NText [] empty_context) nodes)) z) by (intros z r; clear -Hne; destruct nodes; [congruence|reflexivity]).
    rewrite (runs_bind _ _ _ _ _ _ (Hfl _)). reflexivity.
  Qed.
  Lemma hash_spec m o : (o = true <-> exists r, m = lit "#" ++ r) -> is_hash m = o.
  Proof.
    intros H. unfold is_hash. destruct (startswith (lit "#") m) eqn:E.
    - symmetry. apply H. apply startswith_spec in E as (r & E). exists r. exact E.
    - destruct o; [|reflexivity]. destruct (proj1 H eq_refl) as (r & ->). exfalso. rewrite (proj2 (startswith_spec _ _)) in E; [discriminate|]. exists r. reflexivity.
  Qed.
  Definition pair_value (i : token * token) : str * str := (t_value (fst i), t_value (snd i)).
  Lemma reads_app i1 i2 x its1 y its2 z : reads_items cf i1 x its1 y -> reads_items cf i2 y its2 z -> reads_items cf (i1 ++ i2) x (its1 ++ its2) z.
  Proof. intros H H2. induction H; [exact H2|]. cbn. econstructor; [eassumption|auto]. Qed.
  Lemma entries_run V n es ps : entries V n es ps -> forall items x, map pair_value items = ps -> env_like V (dx_env x) ->
    exists its nodes ms hs k, reads_items cf items x its (mentions x ms hs k) /\ SpecDoc.nested n its nodes /\ Forall2 is_entry nodes es /\
      Forall (fun j => n <= level j) its /\ (forall t r, es = Item t :: r -> exists i its', its = i :: its' /\ level i = n) /\ found (concat (map entry_uses es)) ms hs.
  Proof.
    induction 1 as [n|n t m s es ps [Hm1 Hm2] Hs He IH|n n' o t subs m s ps1 es ps2 Hlt H1 IH1 Ho Hns H2 IH2]; intros items x E Hv.
    - destruct items; [|discriminate E]. exists [], [], [], [], (dx_next x). split; [rewrite mentions_none; constructor|]. split; [constructor|]. split; [constructor|]. split; [constructor|]. split; [discriminate|apply found_nil].
    - destruct items as [|[h tk] items]; [discriminate E|]. cbn [map] in E. injection E as E1 E2 E3. cbn [fst snd] in E1, E2. rewrite <- E2 in Hs.
      destruct (item_run V t h tk x Hs Hv) as (c & ctx & ms & hs & k & Hr & Hc & Hf). destruct (IH items (mentions x ms hs k) E3 Hv) as (its & nodes & ms2 & hs2 & k2 & R2 & N2 & F2 & L2 & _ & Hf2).
      rewrite mentions_mentions in R2. exists (((h, tk), DItem (length (t_value h)) c ctx) :: its), (DItem (length (t_value h)) c ctx :: nodes), (ms ++ ms2), (hs ++ hs2), k2.
      assert (Lv : level ((h, tk), DItem (length (t_value h)) c ctx) = n) by (unfold level, level_of; cbn [fst]; rewrite E1; exact Hm1).
      split; [econstructor; eassumption|]. split; [exact (nested_same n ((h, tk), _) its nodes Lv N2)|]. split; [constructor; [constructor; exact Hc|exact F2]|].
      split; [constructor; [rewrite Lv; auto|exact L2]|]. split; [intros t' r' _; eexists _, _; split; [reflexivity|exact Lv]|]. exact (found_app _ _ _ _ _ _ Hf Hf2).
    - change ((m, s) :: ps1 ++ ps2) with (((m, s) :: ps1) ++ ps2) in E. apply map_eq_app in E as (i1 & i2 & -> & E1 & E2).
      destruct (IH1 i1 x E1 Hv) as (its1 & nodes1 & ms1 & hs1 & k1 & R1 & N1 & F1 & L1 & G1 & Hf1). destruct (G1 _ _ eq_refl) as (i & subs1 & -> & Li).
      destruct (IH2 i2 (mentions x ms1 hs1 k1) E2 Hv) as (its2 & nodes2 & ms2 & hs2 & k2 & R2 & N2 & F2 & L2 & G2 & Hf2). rewrite mentions_mentions in R2.
      assert (Em : t_value (fst (fst i)) = m).
      { inversion R1 as [|h u r ? nd x1 ? ? HA HB]; subst. cbn [map pair_value fst snd] in E1. injection E1 as E1 _ _. exact E1. }
      inversion N1 as [|? ? inner Hl1 N1'|? ? ? ? ? Hl1]; subst; [|lia].
      eexists _, _, _, _, k2. split; [exact (reads_app _ _ _ _ _ _ _ R1 R2)|]. split; [|split; [|split; [|split]]].
      + cbn [app]. apply nested_deeper with (inner := inner); [lia| | |exact N1'|exact N2].
        * apply Forall_cons_iff in L1 as [_ L1]. exact L1.
        * intros j r Ej. destruct es as [|[t2|o2 l2] es2].
          -- inversion H2; subst. destruct i2; [|discriminate]. inversion R2.
          -- destruct (G2 _ _ eq_refl) as (i' & its' & Ei & Lv). assert (j = i') as -> by congruence. lia.
          -- destruct Hns. exists o2, l2, es2. reflexivity.
      + constructor; [|exact F2]. rewrite (hash_spec _ _ Ho). constructor; [split; [reflexivity|constructor]|exact F1].
      + apply Forall_app. split; [|exact L2]. eapply Forall_impl; [|exact L1]. cbv beta. intros; lia.
      + discriminate.
      + cbn [map concat entry_uses]. exact (found_app _ _ _ _ _ _ Hf1 Hf2).
  Qed.
  Lemma list_run run V c a l x b n o z t es m s qs items : ready V c a l x -> entries V n (Item t :: es) ((m, s) :: qs) -> (o = true <-> exists r, m = lit "#" ++ r) ->
    starts a z -> map pair_value items = (m, s) :: qs -> verdict V c b ->
    (exists x', acts cf run (EItems items) x x' /\ makes V (concat (map entry_uses (Item t :: es))) b (PList a l o (Item t :: es)) x x') /\
    (exists it its, items = it :: its /\ Forall (fun i => level_of it <= level_of i) its).
  Proof.
    intros R He Ho Hk E Hb. destruct (entries_run _ _ _ _ He items x E (rd_env _ _ _ _ _ R)) as (its & nodes & ms & hs & k & R1 & N1 & F1 & L1 & G1 & Hf).
    destruct (G1 _ _ eq_refl) as (i & its' & -> & Li). destruct (args_given _ _ (rd_args _ _ _ _ _ R)) as [A _].
    inversion N1 as [|? ? inner Hl1 N1'|? ? ? ? ? Hl1]; subst; [|lia].
    inversion R1 as [|h u r ? nd x1 ? ? HA HB]; subst. cbn [fst snd] in *.
    assert (Em : t_value h = m) by (cbn [map pair_value fst snd] in E; injection E as E _ _; exact E).
    set (y := set_labels (set_latest (set_args (mentions x ms hs k) None) (Z.of_nat (length (nd :: inner)) + z)%Z) []).
    set (node := DList (is_hash (t_value h)) true z (nd :: inner) (mkAttrs (args_or (dx_args x)) (dx_labels x) (merge_contexts (dnode_ctx nd) (dnode_ctx (last (nd :: inner) nd))))).
    split.
    - exists (set_nodes (set_control y None) (dx_nodes y ++ shows b node)). split; [|exists node; split; [reflexivity|split; [|split]]].
      + cbn [acts]. eexists _, _, inner, _. split; [exact R1|]. split; [exact N1'|]. cbn [fst snd]. intros rem. unfold dp_do_list. cbv zeta.
        rewrite (runs_bind _ _ _ _ _ _ (pop_args_run _)). change (args_or (dx_args (mentions x ms hs k))) with (args_or (dx_args x)).
        pose proof Hk as Hk'. unfold starts in Hk'. rewrite (given_key [] "start" a _ A eq_refl). destruct (key a "start") as [v|].
        2:{ subst z. exact (finish_runs V c b node y (rd_control _ _ _ _ _ R) (rd_env _ _ _ _ _ R) Hb rem). }
        pose proof (PropertiesTree.number_int _ _ Hk') as Ez.
        assert (str_eqb v (lit "auto") = false) as -> by (apply str_eqb_neq; intros ->; discriminate Ez). rewrite Ez.
        exact (finish_runs V c b node y (rd_control _ _ _ _ _ R) (rd_env _ _ _ _ _ R) Hb rem).
      + subst node. rewrite Em, (hash_spec _ _ Ho). constructor; [split; [exact A|exact (rd_labels _ _ _ _ _ R)]|exact Hk|exact F1].
      + apply (ready_after _ V _ _ _ _ _ R); try reflexivity. exact (rd_env _ _ _ _ _ R).
      + apply (adds_found _ ms hs x k); [exact Hf|reflexivity..].
    - exists (h, u), r. split; [reflexivity|]. clear -L1 HB. inversion L1 as [|? ? _ L]; subst. unfold level in L at 1. cbn [fst] in L.
      clear L1. induction HB; [constructor|]. inversion L; subst. constructor; [assumption|]. apply IHHB. assumption.
  Qed.

  (* ------------------------------------------------ blocks *)
  Definition classes_in (v : option str) : list str := match nonempty v with None => [] | Some s => split_on COMMA s end.
  Lemma classes_spec v : classes_of v (classes_in v).
  Proof. destruct v as [[|c s]|]; try reflexivity. split; [apply join_split|apply split_on_parts]. Qed.
  Lemma nonempty_not a k : not_given a k -> nonempty (key a k) = None.
  Proof. intros [->| ->]; reflexivity. Qed.
  (* the content of a block *)
  Definition contains (run : run_fn) (V : world) (ct : option token) (content : list page) (V1 : world) : Prop :=
    match ct with
    | None => content = [] /\ V1 = V
    | Some t => if token_truthy t then forall e nx dn, env_like V e ->
                  exists y, run e nx dn [] (t_value t) (origin_of t) = Ok y /\ Forall2 is_page (dx_nodes y) content /\ env_like V1 (dx_env y)
                else content = [] /\ V1 = V
    end.
  Lemma engine_run run V V1 ct content a r x : env_like V (dx_env x) -> contains run V ct content V1 -> dget (lit "isolate") (na_named r) = key a "isolate" ->
    key a "isolate" <> Some (lit "false") ->
    exists nodes e nx dn, runs (dp_default_engine run ct r) x nodes (set_shared (set_env x e) nx dn) /\ Forall2 is_page nodes content /\ env_like V1 e.
  Proof.
    intros He Hc K3 Hi.
    assert (K0 : content = [] /\ V1 = V -> exists nodes e nx dn, runs (pret []) x nodes (set_shared (set_env x e) nx dn) /\ Forall2 is_page nodes content /\ env_like V1 e).
    { intros [-> ->]. exists [], (dx_env x), (dx_next x), (dx_done x). split; [intros rem; destruct x; reflexivity|]. split; [constructor|exact He]. }
    unfold dp_default_engine. destruct ct as [t|]; [|exact (K0 Hc)]. cbn [contains] in Hc. destruct (token_truthy t); [|exact (K0 Hc)].
    destruct (Hc (dx_env x) (dx_next x) (dx_done x) He) as (y & Ey & Fy & Wy). exists (dx_nodes y), (dx_env y), (dx_next y), (dx_done y).
    split; [|auto]. intros rem. unfold pbind, pget, plift, pmod, pret. cbn [fst snd]. rewrite Ey. cbn [fst snd].
    rewrite K3. assert (E : str_eqb (or_else (key a "isolate") (lit "true")) (lit "false") = false); [|rewrite E; reflexivity].
    destruct (key a "isolate") as [v|]; [|reflexivity]. cbn [or_else]. apply str_eqb_neq. congruence.
  Qed.
  Lemma ungrouped (a : option (list arg)) r used : SpecPages.block_args a -> is_args used a r -> mem_str (lit "group") (map lit used) = false -> mem_str (lit "position") (map lit used) = false ->
    nonempty (dget (lit "group") (na_named r)) = None \/ nonempty (dget (lit "position") (na_named r)) = None.
  Proof.
    intros [[H|H] _] A M1 M2; [left; rewrite (given_key _ "group" _ _ A M1)|right; rewrite (given_key _ "position" _ _ A M2)]; apply nonempty_not, H.
  Qed.
  Lemma block_run run V V1 c a l x b o ct cl content : ready V c a l x -> key a "engine" = None \/ key a "engine" = Some (lit "default") ->
    not_given a "footnote" -> SpecPages.block_args a -> contains run V ct content V1 -> verdict V1 c b ->
    gives (dp_do_block run o ct cl) x V1 [] b (PBlock a l content).
  Proof.
    intros R Hen Hf Hg Hc Hb. destruct (args_given _ _ (rd_args _ _ _ _ _ R)) as [A N].
    destruct (pop_given [] "classes" a _ A N eq_refl) as (P1 & A1 & N1). destruct (pop_given ["classes"%string] "engine" a _ A1 N1 eq_refl) as (P2 & A2 & N2).
    set (a1 := snd (pop_arg (args_or (dx_args x)) (lit "classes"))) in *. set (a2 := snd (pop_arg a1 (lit "engine"))) in *.
    cbn [app] in A2. pose proof (given_key _ "footnote" _ _ A2 eq_refl) as K1. pose proof (given_key _ "isolate" _ _ A2 eq_refl) as K3.
    set (x1 := set_args x None).
    destruct (engine_run run V V1 ct content a a2 x1 (rd_env _ _ _ _ _ R) Hc K3 (proj2 Hg)) as (nodes & e & nx & dn & He & Fn & We).
    set (y := set_labels (set_shared (set_env x1 e) nx dn) []).
    set (node := DBlock (classes_in (key a "classes")) nodes (mkAttrs a2 (dx_labels x) (merge_contexts (t_ctx o) (t_ctx cl)))).
    exists (set_nodes (set_control y None) (dx_nodes y ++ shows b node)). split; [|exists node; split; [reflexivity|split; [|split]]].
    - intros rem. unfold dp_do_block. cbv zeta. rewrite (runs_bind _ _ _ _ _ _ (pop_args_run _)).
      rewrite (surjective_pairing (pop_arg (args_or (dx_args x)) (lit "classes"))). fold a1. rewrite P1.
      rewrite (surjective_pairing (pop_arg a1 (lit "engine"))). fold a2. rewrite P2. fold (classes_in (key a "classes")).
      assert (En : or_else (key a "engine") (lit "default") = lit "default") by (destruct Hen as [-> | ->]; reflexivity). rewrite En.
      assert (Hr : runs (dp_engine run (lit "default") (merge_contexts (t_ctx o) (t_ctx cl)) ct (classes_in (key a "classes")) a2) x1 (DBlock (classes_in (key a "classes")) nodes, a2, empty_context) (set_shared (set_env x1 e) nx dn)).
      { intros r. unfold dp_engine. rewrite str_eqb_refl, (runs_bind _ _ _ _ _ _ He). reflexivity. }
      rewrite (runs_bind _ _ _ _ _ _ Hr), (runs_bind _ _ _ _ _ _ (pop_labels_run _)). rewrite K1, (nonempty_not _ _ Hf). 
      pose proof (finish_runs V1 c b node y (rd_control _ _ _ _ _ R) We Hb rem) as F.
      destruct (ungrouped a a2 _ Hg A2 eq_refl eq_refl) as [-> | ->]; [exact F|]. destruct (nonempty (dget (lit "group") (na_named a2))); exact F.
    - constructor; [split; [exact A2|exact (rd_labels _ _ _ _ _ R)]|apply classes_spec|exact Fn].
    - apply (ready_after _ V1 _ _ _ _ _ R); try reflexivity. exact We.
    - apply adds_nil; reflexivity.
  Qed.
  Lemma footnote_run run V V1 a l x o ct cl content name : ready V None a l x -> key a "engine" = None \/ key a "engine" = Some (lit "default") ->
    key a "footnote" = Some name -> name <> [] -> key a "isolate" <> Some (lit "false") -> contains run V ct content V1 ->
    NoDup (keys (fm_bodies (dx_foot x)) ++ [name]) ->
    exists x', runs (dp_do_block run o ct cl) x true x' /\ dx_nodes x' = dx_nodes x /\ ready V1 None None [] x' /\ adds [UBody name] x x'.
  Proof.
    intros R Hen Hf Hn Hi Hc Hnd. destruct (args_given _ _ (rd_args _ _ _ _ _ R)) as [A N].
    destruct (pop_given [] "classes" a _ A N eq_refl) as (P1 & A1 & N1). destruct (pop_given ["classes"%string] "engine" a _ A1 N1 eq_refl) as (P2 & A2 & N2).
    set (a1 := snd (pop_arg (args_or (dx_args x)) (lit "classes"))) in *. set (a2 := snd (pop_arg a1 (lit "engine"))) in *.
    cbn [app] in A2. pose proof (given_key _ "footnote" _ _ A2 eq_refl) as K1. pose proof (given_key _ "isolate" _ _ A2 eq_refl) as K3.
    set (x1 := set_args x None).
    destruct (engine_run run V V1 ct content a a2 x1 (rd_env _ _ _ _ _ R) Hc K3 Hi) as (nodes & e & nx & dn & He & Fn & We).
    set (y := set_labels (set_shared (set_env x1 e) nx dn) []).
    set (node := DBlock (classes_in (key a "classes")) nodes (mkAttrs empty_args (dx_labels x) empty_context)).
    set (m := mkFman (fm_macros (dx_foot y)) (fm_bodies (dx_foot y) ++ [(name, node)]) (fm_lists (dx_foot y))).
    assert (Hk : ~ In name (keys (fm_bodies (dx_foot y)))).
    { change (fm_bodies (dx_foot y)) with (fm_bodies (dx_foot x)). apply NoDup_remove_2 in Hnd. rewrite app_nil_r in Hnd. exact Hnd. }
    exists (set_foot y m). split; [|split; [reflexivity|split]].
    - intros rem. unfold dp_do_block. cbv zeta. rewrite (runs_bind _ _ _ _ _ _ (pop_args_run _)).
      rewrite (surjective_pairing (pop_arg (args_or (dx_args x)) (lit "classes"))). fold a1. rewrite P1.
      rewrite (surjective_pairing (pop_arg a1 (lit "engine"))). fold a2. rewrite P2. fold (classes_in (key a "classes")).
      assert (En : or_else (key a "engine") (lit "default") = lit "default") by (destruct Hen as [-> | ->]; reflexivity). rewrite En.
      assert (Hr : runs (dp_engine run (lit "default") (merge_contexts (t_ctx o) (t_ctx cl)) ct (classes_in (key a "classes")) a2) x1 (DBlock (classes_in (key a "classes")) nodes, a2, empty_context) (set_shared (set_env x1 e) nx dn)).
      { intros r. unfold dp_engine. rewrite str_eqb_refl, (runs_bind _ _ _ _ _ _ He). reflexivity. }
      rewrite (runs_bind _ _ _ _ _ _ Hr), (runs_bind _ _ _ _ _ _ (pop_labels_run _)). rewrite K1, Hf. destruct name as [|ch name]; [congruence|]. cbn [nonempty].
      change (set_labels (set_shared (set_env x1 e) nx dn) []) with y. change (dx_labels (set_shared (set_env x1 e) nx dn)) with (dx_labels x). fold node.
      unfold pbind, pget, plift, pmod, pret. cbn [fst snd]. unfold fm_add_body.
      destruct (dmem (ch :: name) (fm_bodies (dx_foot y))) eqn:E; [apply dmem_In in E; destruct (Hk E)|]. rewrite (dset_new (ch :: name) node) by exact Hk. reflexivity.
    - apply (ready_after V V1 _ _ _ _ _ R); try reflexivity; [|exact We]. change (dx_control x = None). pose proof (rd_control _ _ _ _ _ R) as K. cbn in K. destruct (dx_control x); [destruct K|reflexivity].
    - apply adds_plain; cbn; rewrite ?app_nil_r; try reflexivity; [repeat split|]. unfold keys. rewrite map_app. reflexivity.
  Qed.
  Lemma placed_run run V V1 a l x o ct cl content g p : ready V None a l x -> key a "engine" = None \/ key a "engine" = Some (lit "default") ->
    not_given a "footnote" -> key a "group" = Some g -> g <> [] -> key a "position" = Some p -> p <> [] -> key a "isolate" <> Some (lit "false") -> contains run V ct content V1 ->
    ~ placed g p x ->
    exists x', runs (dp_do_block run o ct cl) x true x' /\ dx_nodes x' = dx_nodes x /\ ready V1 None None [] x' /\ adds [UItem g p] x x'.
  Proof.
    intros R Hen Hf Hg Hgn Hp Hpn Hi Hc Hnp. destruct (args_given _ _ (rd_args _ _ _ _ _ R)) as [A N].
    destruct (pop_given [] "classes" a _ A N eq_refl) as (P1 & A1 & N1). destruct (pop_given ["classes"%string] "engine" a _ A1 N1 eq_refl) as (P2 & A2 & N2).
    set (a1 := snd (pop_arg (args_or (dx_args x)) (lit "classes"))) in *. set (a2 := snd (pop_arg a1 (lit "engine"))) in *.
    cbn [app] in A2. pose proof (given_key _ "footnote" _ _ A2 eq_refl) as K1. pose proof (given_key _ "isolate" _ _ A2 eq_refl) as K3.
    pose proof (given_key _ "group" _ _ A2 eq_refl) as K4. pose proof (given_key _ "position" _ _ A2 eq_refl) as K5.
    set (x1 := set_args x None).
    destruct (engine_run run V V1 ct content a a2 x1 (rd_env _ _ _ _ _ R) Hc K3 Hi) as (nodes & e & nx & dn & He & Fn & We).
    set (y := set_labels (set_shared (set_env x1 e) nx dn) []).
    set (node := DBlock (classes_in (key a "classes")) nodes (mkAttrs a2 (dx_labels x) (merge_contexts (t_ctx o) (t_ctx cl)))).
    set (m := mkGman (dset g (dset p node (gm_group (dx_groups y) g)) (gm_items (dx_groups y))) (gm_groups (dx_groups y))).
    assert (Hm : dmem p (gm_group (dx_groups y) g) = false).
    { change (dx_groups y) with (dx_groups x). destruct (dmem p (gm_group (dx_groups x) g)) eqn:E; [destruct (Hnp E)|reflexivity]. }
    exists (set_groups y m). split; [|split; [reflexivity|split]].
    - intros rem. unfold dp_do_block. cbv zeta. rewrite (runs_bind _ _ _ _ _ _ (pop_args_run _)).
      rewrite (surjective_pairing (pop_arg (args_or (dx_args x)) (lit "classes"))). fold a1. rewrite P1.
      rewrite (surjective_pairing (pop_arg a1 (lit "engine"))). fold a2. rewrite P2. fold (classes_in (key a "classes")).
      assert (En : or_else (key a "engine") (lit "default") = lit "default") by (destruct Hen as [-> | ->]; reflexivity). rewrite En.
      assert (Hr : runs (dp_engine run (lit "default") (merge_contexts (t_ctx o) (t_ctx cl)) ct (classes_in (key a "classes")) a2) x1 (DBlock (classes_in (key a "classes")) nodes, a2, empty_context) (set_shared (set_env x1 e) nx dn)).
      { intros r. unfold dp_engine. rewrite str_eqb_refl, (runs_bind _ _ _ _ _ _ He). reflexivity. }
      rewrite (runs_bind _ _ _ _ _ _ Hr), (runs_bind _ _ _ _ _ _ (pop_labels_run _)). rewrite K1, (nonempty_not _ _ Hf), K4, Hg, K5, Hp.
      destruct g as [|cg g]; [congruence|]. destruct p as [|cp p]; [congruence|]. cbn [nonempty].
      change (set_labels (set_shared (set_env x1 e) nx dn) []) with y. change (dx_labels (set_shared (set_env x1 e) nx dn)) with (dx_labels x). fold node.
      unfold pbind, pget, plift, pmod, pret. cbn [fst snd]. unfold gm_add_block. rewrite Hm. reflexivity.
    - apply (ready_after V V1 _ _ _ _ _ R); try reflexivity; [|exact We]. change (dx_control x = None). pose proof (rd_control _ _ _ _ _ R) as K. cbn in K. destruct (dx_control x); [destruct K|reflexivity].
    - constructor; cbn; rewrite ?app_nil_r; try reflexivity; [|apply incl_refl].
      intros g' p'. unfold placed. change (dx_groups (set_groups y m)) with m. unfold m, gm_group. cbn [gm_items]. rewrite dget_dset. change (dx_groups y) with (dx_groups x).
      destruct (str_eqb_spec g' g) as [->|Ng].
      + unfold dmem at 1. rewrite dget_dset. fold (gm_group (dx_groups x) g). destruct (str_eqb_spec p' p) as [->|Np].
        * split; auto.
        * unfold dmem. split; [auto|]. intros [K|[K|[]]]; [exact K|congruence].
      + fold (gm_group (dx_groups x) g'). split; [auto|]. intros [K|[K|[]]]; [exact K|congruence].
  Qed.
  Lemma raw_values t : map fst (raw_lines t) = split_on NL (t_value t).
  Proof.
    unfold raw_lines. rewrite map_map. cbn [fst]. generalize 0 at 1. induction (split_on NL (t_value t)) as [|s ss IH]; intros k; [reflexivity|]. cbn. f_equal. apply IH.
  Qed.
  Lemma raw_run run V c a l x b o ct cl ws : ready V c a l x -> key a "engine" = Some (lit "raw") ->
    not_given a "footnote" -> SpecPages.block_args a ->
    match ct with None => ws = [] | Some t => if token_truthy t then split_on NL (t_value t) = ws else ws = [] end -> verdict V c b ->
    gives (dp_do_block run o ct cl) x V [] b (PRaw a l ws).
  Proof.
    intros R Hen Hf Hg Hc Hb. destruct (args_given _ _ (rd_args _ _ _ _ _ R)) as [A N].
    destruct (pop_given [] "classes" a _ A N eq_refl) as (P1 & A1 & N1). destruct (pop_given ["classes"%string] "engine" a _ A1 N1 eq_refl) as (P2 & A2 & N2).
    set (a1 := snd (pop_arg (args_or (dx_args x)) (lit "classes"))) in *. set (a2 := snd (pop_arg a1 (lit "engine"))) in *.
    cbn [app] in A2. pose proof (given_key _ "footnote" _ _ A2 eq_refl) as K1.
    set (lines := match ct with Some t => if token_truthy t then raw_lines t else [] | None => [] end).
    set (y := set_labels (set_args x None) []).
    set (node := DRaw (classes_in (key a "classes")) lines (mkAttrs a2 (dx_labels x) (merge_contexts (t_ctx o) (t_ctx cl)))).
    exists (set_nodes (set_control y None) (dx_nodes y ++ shows b node)). split; [|exists node; split; [reflexivity|split; [|split]]].
    - intros rem. unfold dp_do_block. cbv zeta. rewrite (runs_bind _ _ _ _ _ _ (pop_args_run _)).
      rewrite (surjective_pairing (pop_arg (args_or (dx_args x)) (lit "classes"))). fold a1. rewrite P1.
      rewrite (surjective_pairing (pop_arg a1 (lit "engine"))). fold a2. rewrite P2, Hen. fold (classes_in (key a "classes")). cbn [or_else].
      unfold dp_engine. change (str_eqb (lit "raw") (lit "default")) with false. rewrite str_eqb_refl. cbv iota. fold lines.
      change (pbind (pret ?v) ?f) with (f v). cbv beta iota. rewrite (runs_bind _ _ _ _ _ _ (pop_labels_run _)). rewrite K1, (nonempty_not _ _ Hf).
      pose proof (finish_runs V c b node y (rd_control _ _ _ _ _ R) (rd_env _ _ _ _ _ R) Hb rem) as F.
      destruct (ungrouped a a2 _ Hg A2 eq_refl eq_refl) as [-> | ->]; [exact F|]. destruct (nonempty (dget (lit "group") (na_named a2))); exact F.
    - constructor; [split; [exact A2|exact (rd_labels _ _ _ _ _ R)]|apply classes_spec|]. subst lines. destruct ct as [t|]; [|subst; reflexivity].
      destruct (token_truthy t); [rewrite raw_values; exact Hc|subst; reflexivity].
    - apply (ready_after _ V _ _ _ _ _ R); try reflexivity. exact (rd_env _ _ _ _ _ R).
    - apply adds_nil; reflexivity.
  Qed.

  Lemma source_run run V c a l x b o t cl dl ws cs : ready V c a l x -> key a "engine" = Some (lit "source") ->
    not_given a "footnote" -> SpecPages.block_args a -> choice a "marker_delimiter" ":" = [dl] -> plain_styles V -> Forall2 (codes V a dl) ws cs ->
    token_truthy t = true -> split_on NL (t_value t) = ws -> verdict V c b ->
    gives (dp_do_block run o (Some t) cl) x V [] b (PSource a l cs).
  Proof.
    intros R Hen Hf Hg Hdl Hp Hc Ht Hw Hb. destruct (args_given _ _ (rd_args _ _ _ _ _ R)) as [A N].
    destruct (pop_given [] "classes" a _ A N eq_refl) as (P1 & A1 & N1). destruct (pop_given ["classes"%string] "engine" a _ A1 N1 eq_refl) as (P2 & A2 & N2).
    set (a1 := snd (pop_arg (args_or (dx_args x)) (lit "classes"))) in *. set (a2 := snd (pop_arg a1 (lit "engine"))) in *. cbn [app] in A2.
    destruct (source_block_run V (dx_env x) a a2 t dl ws cs (rd_env _ _ _ _ _ R) Hp A2 N2 Hdl Hw Hc) as (lines & r' & Es & Hn & B).
    set (lang := match filled ["language"]%string a "language" with Some v => v | None => lit "text" end) in *.
    pose proof (answers_key _ _ "footnote" a _ B eq_refl eq_refl) as K1.
    pose proof (answers_key _ _ "group" a _ B eq_refl eq_refl) as K2. pose proof (answers_key _ _ "position" a _ B eq_refl eq_refl) as K3.
    set (y := set_labels (set_args x None) []).
    set (node := DSource (classes_in (key a "classes")) (Some lang) lines (mkAttrs r' (dx_labels x) (merge_contexts (t_ctx o) (t_ctx cl)))).
    exists (set_nodes (set_control y None) (dx_nodes y ++ shows b node)). split; [|exists node; split; [reflexivity|split; [|split]]].
    - intros rem. unfold dp_do_block. cbv zeta. rewrite (runs_bind _ _ _ _ _ _ (pop_args_run _)).
      rewrite (surjective_pairing (pop_arg (args_or (dx_args x)) (lit "classes"))). fold a1. rewrite P1.
      rewrite (surjective_pairing (pop_arg a1 (lit "engine"))). fold a2. rewrite P2, Hen. fold (classes_in (key a "classes")). cbn [or_else].
      assert (Hr : runs (dp_engine run (lit "source") (merge_contexts (t_ctx o) (t_ctx cl)) (Some t) (classes_in (key a "classes")) a2) (set_args x None)
          (DSource (classes_in (key a "classes")) (Some lang) lines, r', t_ctx t) (set_args x None)).
      { intros rm. unfold dp_engine. change (str_eqb (lit "source") (lit "default")) with false. change (str_eqb (lit "source") (lit "raw")) with false. rewrite str_eqb_refl, Ht. cbv iota.
        unfold pbind, pget, plift, pret. cbn [fst snd]. change (dx_env (set_args x None)) with (dx_env x). rewrite Es. reflexivity. }
      rewrite (runs_bind _ _ _ _ _ _ Hr), (runs_bind _ _ _ _ _ _ (pop_labels_run _)). rewrite K1, (nonempty_not _ _ Hf), K2, K3.
      pose proof (finish_runs V c b node y (rd_control _ _ _ _ _ R) (rd_env _ _ _ _ _ R) Hb rem) as F.
      destruct Hg as [[Hg|Hg] _]; rewrite (nonempty_not _ _ Hg); [exact F|]. destruct (nonempty (key a "group")); exact F.
    - apply ip_source; [exact (answers_done CODE_USED ["language"%string] a r' B)|exact (rd_labels _ _ _ _ _ R)|apply classes_spec|reflexivity|exact Hn].
    - apply (ready_after _ V _ _ _ _ _ R); try reflexivity. exact (rd_env _ _ _ _ _ R).
    - apply adds_nil; reflexivity.
  Qed.

  (* ------------------------------------------------ includes *)
  Lemma include_gives V c l x b p ctx (M : D ((attrs -> dnode) * node_args)) f r x1 u : runs M x (f, r) x1 -> dx_args x1 = None -> is_labels l (dx_labels x1) -> pending c (dx_control x1) ->
    env_like V (dx_env x1) -> dx_nodes x1 = dx_nodes x -> adds u x x1 -> is_page (f (mkAttrs r (dx_labels x1) ctx)) p -> verdict V c b ->
    gives (let* r := M in let* l := dp_pop_labels in dp_finish (fst r (mkAttrs (snd r) l ctx))) x V u b p.
  Proof.
    intros Hr E1 E2 E3 E5 E6 Ad Hp Hb. set (y := set_labels x1 []). set (node := f (mkAttrs r (dx_labels x1) ctx)) in *.
    exists (set_nodes (set_control y None) (dx_nodes y ++ shows b node)). split; [|exists node; split; [|split; [|split]]].
    - intros rem. rewrite (runs_bind _ _ _ _ _ _ Hr), (runs_bind _ _ _ _ _ _ (pop_labels_run _)). cbn [fst snd]. fold node. exact (finish_runs V c b node y E3 E5 Hb rem).
    - change (dx_nodes x1 ++ shows b node = dx_nodes x ++ shows b node). rewrite E6. reflexivity.
    - exact Hp.
    - constructor; cbn; rewrite ?E1; try reflexivity; try exact I; [constructor|exact E5].
    - destruct Ad as [? ? ? ? ? ? ?]. constructor; assumption.
  Qed.
  (* an include finds the arguments g *)
  Definition includable (src : option str) (n : nat) (V : world) (c : option SpecPages.condition) (l : dict line) (what : str) (g : option (list arg)) (u : list use) (b : bool) (p : page) (x : dx) : Prop :=
    forall y ctx r, dx_args y = None -> dx_nodes y = dx_nodes x -> dx_groups y = dx_groups x -> dx_foot y = dx_foot x -> dx_links y = dx_links x -> dx_forbidden y = dx_forbidden x ->
      is_labels l (dx_labels y) -> pending c (dx_control y) -> env_like V (dx_env y) ->
      is_args [] g r -> NoDup (keys (na_named r)) -> c_source ctx = src -> gives (dp_do_include cf (dp_run n cf) what ctx r) y V u b p.
  Lemma include_run src n V c a l x b p g u o ty : ready V c a l x -> c_source (t_ctx o) = src -> includable src n V c l (t_value ty) a u b p x ->
    a = g -> gives (do_element cf (dp_run n cf) (EInclude o ty None)) x V u b p.
  Proof.
    intros R Hs H <-. destruct (args_given _ _ (rd_args _ _ _ _ _ R)) as [A N]. destruct R as [Ra Rl Rc Re].
    destruct (H (set_args x None) (merge_contexts (t_ctx o) (t_ctx ty)) _ eq_refl eq_refl eq_refl eq_refl eq_refl eq_refl Rl Rc Re A N Hs) as (x' & Hr & Hm).
    exists x'. split; [intros rem; cbn [do_element]; rewrite (runs_bind _ _ _ _ _ _ (pop_args_run x)); exact (Hr rem)|].
    destruct Hm as (nd & H1 & H2 & H3 & [? ? ? ? ? ? ?]). exists nd. split; [exact H1|]. split; [exact H2|]. split; [exact H3|]. constructor; assumption.
  Qed.
  Lemma include_with_run src n V c l x b p u o ty cl t dd : ready V c None l x -> c_source (t_ctx o) = src -> SpecPages.arguments V dd (t_value t) ->
    includable src n V c l (t_value ty) (Some dd) u b p x -> gives (do_element cf (dp_run n cf) (EInclude o ty (Some (cl, t)))) x V u b p.
  Proof.
    intros R Hs Ha H. destruct (arguments_run V dd _ t x Ha (rd_env _ _ _ _ _ R) eq_refl) as (q & Ep & Hp). destruct (args_given _ _ Hp) as [A N]. destruct R as [Ra Rl Rc Re].
    destruct (H (set_args x None) (merge_contexts (t_ctx o) (t_ctx ty)) (arguments_of q) eq_refl eq_refl eq_refl eq_refl eq_refl eq_refl Rl Rc Re A N Hs) as (x' & Hr & Hm).
    exists x'. split.
    - intros rem. cbn [do_element]. assert (Hb' : runs dp_pop_args_opt x None (set_args x None)).
      { intros r. unfold dp_pop_args_opt, pbind, pget, pmod, pret. cbn [fst snd]. destruct (dx_args x) as [q'|] eqn:Eq; [|reflexivity]. destruct Ra as (_ & Ra & _). congruence. }
      rewrite (runs_bind _ _ _ _ _ _ Hb'). assert (Hi : runs (dp_inline_args t) (set_args x None) (arguments_of q) (set_args x None)).
      { intros r. unfold dp_inline_args, pbind, pget, plift, pret. cbn [fst snd]. change (dx_env (set_args x None)) with (dx_env x). rewrite Ep. reflexivity. }
      rewrite (runs_bind _ _ _ _ _ _ Hi). exact (Hr rem).
    - destruct Hm as (nd & H1 & H2 & H3 & [? ? ? ? ? ? ?]). exists nd. split; [exact H1|]. split; [exact H2|]. split; [exact H3|]. constructor; assumption.
  Qed.
  Lemma other_run src n V c l what g b x : ~ In what LOADERS -> verdict V c b -> includable src n V c l what g [] b (PInclude g l what) x.
  Proof.
    intros Hw Hb y ctx r Xa _ _ _ _ _ Xl Xc Xe A _ _.
    assert (S : forall s, In s LOADERS -> str_eqb what s = false) by (intros s Hs; apply str_eqb_neq; intros ->; exact (Hw Hs)).
    unfold dp_do_include. rewrite (S (lit "image")), (S (lit "mau")), (S (lit "raw")), (S (lit "blockgroup")) by (cbn; auto).
    destruct (str_eqb what (lit "toc")) eqn:E1; [|destruct (str_eqb what (lit "footnotes")) eqn:E2].
    - apply str_eqb_eq in E1. subst what.
      apply (include_gives V c l y b _ ctx _ (DToc (dx_next y)) r (set_toc (set_shared y (Datatypes.S (dx_next y)) (dx_done y)) (tm_add_toc (dx_toc y) (dx_next y)))); try assumption; try reflexivity;
        [intros rem; reflexivity|apply adds_nil; reflexivity|constructor; split; assumption].
    - apply str_eqb_eq in E2. subst what.
      apply (include_gives V c l y b _ ctx _ (DFootnotes (dx_next y)) r (set_foot (set_shared y (Datatypes.S (dx_next y)) (dx_done y)) (fm_add_list (dx_foot y) (dx_next y)))); try assumption; try reflexivity;
        [intros rem; reflexivity|apply adds_plain; cbn; rewrite ?app_nil_r; try reflexivity; repeat split|constructor; split; assumption].
    - apply (include_gives V c l y b _ ctx _ (DInclude what) r y); try assumption; try reflexivity; [intros rem; reflexivity|apply adds_nil; reflexivity|].
      constructor; [| |split; assumption]; intros ->; discriminate.
  Qed.
  Lemma image_run src n V c l g b x : has_uri g -> verdict V c b -> includable src n V c l (lit "image") g [] b (PImage g l) x.
  Proof.
    intros (ch & u & Hu) Hb y ctx r Xa _ _ _ _ _ Xl Xc Xe A N _.
    pose proof (fill_given [] IMAGE_NAMES g r A N ltac:(repeat constructor; cbn; intuition discriminate) ltac:(intros; reflexivity)) as B. cbn [map] in B.
    destruct (pop_answers _ _ "uri" g _ B eq_refl) as (P1 & B1). match type of B1 with answers _ _ _ ?v => set (r1 := v) in * end. 
    destruct (pop_answers _ _ "alt_text" g _ B1 eq_refl) as (P2 & B2). match type of B2 with answers _ _ _ ?v => set (r2 := v) in * end.
    destruct (pop_answers _ _ "classes" g _ B2 eq_refl) as (P3 & B3). match type of B3 with answers _ _ _ ?v => set (r3 := v) in * end. cbn [app] in B3.
    unfold dp_do_include. rewrite str_eqb_refl.
    apply (include_gives V c l y b _ ctx _ (DImage (ch :: u) (filled IMAGE_NAMES g "alt_text") (classes_in (filled IMAGE_NAMES g "classes"))) r3 y); try assumption; try reflexivity.
    - intros rm. unfold dp_image. change [lit "uri"; lit "alt_text"; lit "classes"] with (map lit IMAGE_NAMES).
      rewrite (surjective_pairing (pop_arg (args_set_names r (map lit IMAGE_NAMES)) (lit "uri"))). fold r1. rewrite P1, Hu. change (pbind (need_uri (Some (ch :: u)) ctx) ?f) with (f (ch :: u)). cbv beta.
      rewrite (surjective_pairing (pop_arg r1 (lit "alt_text"))). fold r2. rewrite P2. rewrite (surjective_pairing (pop_arg r2 (lit "classes"))). fold r3. rewrite P3. reflexivity.
    - apply adds_nil; reflexivity.
    - apply ip_image; [exact (answers_done [] IMAGE_NAMES g r3 B3)|exact Xl|exact Hu|reflexivity|apply classes_spec].
  Qed.
  Lemma group_run src n V c l g b name x : filled ["group"]%string g "group" = Some name -> verdict V c b -> includable src n V c l (lit "blockgroup") g [UGroup name] b (PGroup g l name) x.
  Proof.
    intros Hu Hb y ctx r Xa _ _ _ _ _ Xl Xc Xe A N _.
    pose proof (fill_given [] ["group"]%string g r A N ltac:(repeat constructor; cbn; intuition discriminate) ltac:(intros; reflexivity)) as B. cbn [map] in B.
    destruct (pop_answers _ _ "group" g _ B eq_refl) as (P1 & B1). match type of B1 with answers _ _ _ ?v => set (r1 := v) in * end. cbn [app] in B1.
    unfold dp_do_include.
    apply (include_gives V c l y b _ ctx _ (DGroup (dx_next y) name) r1 (set_groups (set_shared y (Datatypes.S (dx_next y)) (dx_done y)) (gm_add_group (dx_groups y) (mkMention (dx_next y) name ctx)))); try assumption; try reflexivity.
    - intros rm. change (str_eqb (lit "blockgroup") (lit "image")) with false. change (str_eqb (lit "blockgroup") (lit "mau")) with false. change (str_eqb (lit "blockgroup") (lit "raw")) with false.
      change (str_eqb (lit "blockgroup") (lit "toc")) with false. change (str_eqb (lit "blockgroup") (lit "footnotes")) with false. rewrite str_eqb_refl. cbv iota.
      unfold dp_blockgroup. rewrite (surjective_pairing (pop_arg (args_set_names r [lit "group"]) (lit "group"))). fold r1. rewrite P1, Hu. reflexivity.
    - constructor; cbn; rewrite ?app_nil_r; try reflexivity; [|tauto|apply incl_refl]. unfold group_names. cbn. rewrite map_app. reflexivity.
    - apply ip_group; [exact (answers_done [] ["group"]%string g r1 B1)|exact Xl].
  Qed.
  Lemma lines_run src n V c l g b name ws x : filled ["uri"]%string g "uri" = Some name -> name <> [] -> cf_files cf name = File (join [NL] ws) -> ws <> [] -> Forall (no_chr NL) ws -> verdict V c b ->
    includable src n V c l (lit "raw") g [] b (PLines g l name ws) x.
  Proof.
    intros Hu Hn Hf Hws Hnl Hb y ctx r Xa _ _ _ _ _ Xl Xc Xe A N _.
    pose proof (fill_given [] ["uri"]%string g r A N ltac:(repeat constructor; cbn; intuition discriminate) ltac:(intros; reflexivity)) as B. cbn [map] in B.
    destruct (pop_answers _ _ "uri" g _ B eq_refl) as (P1 & B1). match type of B1 with answers _ _ _ ?v => set (r1 := v) in * end. cbn [app] in B1.
    unfold dp_do_include.
    apply (include_gives V c l y b _ ctx _ (DIncludeRaw name (map (fun w => (w, ctx)) (split_on NL (join [NL] ws)))) r1 y); try assumption; try reflexivity.
    - intros rm. change (str_eqb (lit "raw") (lit "image")) with false. change (str_eqb (lit "raw") (lit "mau")) with false. rewrite str_eqb_refl. cbv iota.
      unfold dp_include_raw. rewrite (surjective_pairing (pop_arg (args_set_names r [lit "uri"]) (lit "uri"))). fold r1. rewrite P1, Hu. destruct name as [|ch name]; [congruence|].
      change (pbind (need_uri (Some (ch :: name)) ctx) ?f) with (f (ch :: name)). cbv beta. unfold dp_read. rewrite Hf. reflexivity.
    - apply adds_nil; reflexivity.
    - apply ip_lines; [exact (answers_done [] ["uri"]%string g r1 B1)|exact Xl|]. rewrite map_map. cbn [fst]. rewrite map_id. apply split_join; assumption.
  Qed.

  (* ------------------------------------------------ a whole text *)
  Definition free (us : list use) (x : dx) : Prop :=
    (NoDup (keys (fm_bodies (dx_foot x)) ++ bodies_of us) /\ NoDup (keys (hm_headers (dx_links x)) ++ names_of us)) /\
    (NoDup (items_of us) /\ forall g p, In (g, p) (items_of us) -> ~ placed g p x) /\
    (NoDup (files_of us) /\ forall f, In f (files_of us) -> ~ In (Some f) (dx_forbidden x) /\ ~ In (Some f) (sources_of us)).
  Lemma nodup_right {A} (a b : list A) : NoDup (a ++ b) -> NoDup b.
  Proof. induction a as [|c a IH]; [auto|]. cbn [app]. intros H. inversion H; subst. apply IH. assumption. Qed.
  Lemma nodup_disjoint {A} (a b : list A) x : NoDup (a ++ b) -> In x a -> In x b -> False.
  Proof.
    induction a as [|c a IH]; [intros _ []|]. cbn [app]. intros H Ha Hb. inversion H as [|? ? H1 H2]; subst. destruct Ha as [->|Ha]; [|exact (IH H2 Ha Hb)].
    apply H1, in_or_app. right. exact Hb.
  Qed.
  Lemma free_after u v x y : adds u x y -> free (u ++ v) x -> free v y.
  Proof.
    intros [_ _ A B _ I L] ([F G] & [N P] & [M Q]). rewrite bodies_of_app, app_assoc in F. rewrite names_of_app, app_assoc in G. rewrite items_of_app in N, P. rewrite files_of_app in M, Q. rewrite sources_of_app in Q.
    unfold free. rewrite A, B. split; [split; assumption|]. split; [split; [exact (nodup_right _ _ N)|]|split; [exact (nodup_right _ _ M)|]].
    - intros g p H K. apply I in K as [K|K]; [exact (P g p (in_or_app _ _ _ (or_intror H)) K)|exact (nodup_disjoint _ _ _ N K H)].
    - intros f H. destruct (Q f (in_or_app _ _ _ (or_intror H))) as [Q1 Q2]. split; [|intros K; apply Q2, in_or_app; right; exact K].
      intros K. apply L in K. apply in_app_or in K as [K|K]; [exact (Q1 K)|]. apply in_app_or in K as [K|K]; [apply Q2, in_or_app; left; exact K|].
      apply in_map_iff in K as (f' & K1 & K2). assert (f' = f) as -> by congruence. exact (nodup_disjoint _ _ _ M K2 H).
  Qed.
  Lemma free_part u v x : free (u ++ v) x -> free u x.
  Proof.
    intros ([F G] & [N P] & [M Q]). rewrite bodies_of_app, app_assoc in F. rewrite names_of_app, app_assoc in G. rewrite items_of_app in N, P. rewrite files_of_app in M, Q. rewrite sources_of_app in Q.
    split; [split; eapply nodup_left; eassumption|]. split; [split; [exact (nodup_left _ _ N)|]|split; [exact (nodup_left _ _ M)|]].
    - intros g p H. apply P, in_or_app. left. exact H.
    - intros f H. destruct (Q f (in_or_app _ _ _ (or_introl H))) as [Q1 Q2]. split; [exact Q1|]. intros K. apply Q2, in_or_app. left. exact K.
  Qed.
  (* the tokens ts, of the file src *)
  Definition lexes (src : option str) (toks : list token) (ts : list (token_type * str)) : Prop :=
    map tv toks = ts /\ Forall (fun t => c_source (t_ctx t) = src) toks.
  Definition goes (n : nat) (toks : list token) (x : dx) (ps : list page) (us : list use) (V' : world) : Prop :=
    exists els x' nodes c b k, made_of toks els /\ Forall starts_visible els /\ act_all cf (dp_run n cf) els x x' /\
      dx_nodes x' = dx_nodes x ++ nodes /\ Forall2 is_page nodes ps /\ ready V' c b k x' /\ adds us x x'.
  Definition readable (src : option str) (n : nat) (V : world) (c : option SpecPages.condition) (a : option (list arg)) (l : dict line) (ps : list page) (us : list use) (ls : list str) (V' : world) : Prop :=
    exists ts, SpecGrammar.lexed ls (inl ts) /\
      forall toks x, lexes src toks ts -> ready V c a l x -> free us x -> goes n toks x ps us V'.

  Lemma callable_function f : not_callable f = false -> not_function f = false.
  Proof. destruct f as [[[]|[]|[]|]| |]; cbn; congruence. Qed.
  Lemma for_each_total {A B} (f : A -> res B) l : (forall a, In a l -> exists b, f a = Ok b) -> exists r, for_each f l = Ok r.
  Proof.
    induction l as [|a l IH]; intros H; [exists []; reflexivity|]. destruct (H a (or_introl eq_refl)) as (b & Eb). destruct IH as (r & Er); [intros; apply H; right; assumption|].
    exists (b :: r). cbn [for_each]. rewrite Eb, Er. reflexivity.
  Qed.
  Lemma footnotes_total {B C} (copy : B -> C) (f : footnote C -> str) bodies : forall ms ls, exists fs, fm_footnotes copy (fun x => Ok (f x)) (mkFman ms bodies ls) = Ok fs /\ keys fs = keys bodies.
  Proof.
    intros ms ls. unfold fm_footnotes. cbn [fm_bodies]. match goal with |- context [for_each ?g _] => set (G := g) end. generalize 1 at 1. induction bodies as [|[name body] r IH]; intros k; [exists []; split; reflexivity|].
    cbn [enumerate_from for_each]. destruct (IH (S k)) as (fs & E & K). rewrite E. cbn [rbind G]. eexists. split; [reflexivity|]. unfold keys in *. cbn [map fst]. rewrite K. reflexivity.
  Qed.
  Lemma dget_key {A} k (m : dict A) : In k (keys m) -> exists v, dget k m = Some v.
  Proof. intros H. apply dmem_In in H. unfold dmem in H. destruct (dget k m); [eauto|discriminate]. Qed.
  Lemma finalise_run e0 x us : well_configured e0 -> linked us -> group_names x = groups_of us -> (forall g p, placed g p x <-> In (g, p) (items_of us)) ->
    foot_names (fm_macros (dx_foot x)) = foots_of us -> head_names (hm_macros (dx_links x)) = heads_of us ->
    keys (fm_bodies (dx_foot x)) = bodies_of us -> keys (hm_headers (dx_links x)) = names_of us ->
    exists y, dp_finalise cf e0 x = Ok y /\ dx_nodes y = dx_nodes x /\ dx_env y = dx_env x.
  Proof.
    intros W ((_ & _ & L1 & L2) & (_ & L3) & _) Hg Hp Hf Hh Hb Hn. unfold dp_finalise.
    rewrite (callable_function _ (configured_get e0 (lit "mau.parser.footnote_unique_id_function") W ltac:(cbn; auto))).
    rewrite (callable_function _ (configured_get e0 (lit "mau.parser.header_internal_id_function") W ltac:(cbn; auto))).
    assert (T1 : forall g : dnode -> copy, exists r, fm_process g (fun f => Ok (cf_footnote_id cf f)) (dx_foot x) = Ok r).
    { intros g. unfold fm_process. destruct (dx_foot x) as [ms bs ls]. destruct (footnotes_total g (cf_footnote_id cf) bs ms ls) as (fs & -> & K). cbn [rbind fm_macros fm_lists].
      destruct (for_each_total (fm_link fs) ms) as (r & ->); [|eexists; reflexivity]. intros m Hm. unfold fm_link. destruct (dget_key (mn_name m) fs) as (v & ->); [|eauto].
      rewrite K. cbn [fm_bodies fm_macros] in Hb, Hf. rewrite Hb. apply L1. rewrite <- Hf. exact (in_map mn_name _ _ Hm). }
    destruct (T1 (fun b => (length (dx_done x), b))) as ([links lists] & E1).
    match goal with |- context [fm_process ?g ?h ?m] => replace (fm_process g h m) with (Ok (links, lists)) by (symmetry; exact E1) end. cbn [rbind].
    assert (T2 : exists r, tm_process (fun h => Ok (cf_header_id cf h)) (dx_toc x) = Ok r).
    { unfold tm_process. destruct (tm_headers (dx_toc x)) as [|h hs]; [eexists; reflexivity|].
      destruct (for_each_total (give_internal (fun h => Ok (cf_header_id cf h))) (h :: hs)) as (r & ->); [|eexists; reflexivity].
      intros h' _. unfold give_internal. destruct (h_internal h'); eexists; reflexivity. }
    destruct T2 as ([[toc ids] tocs] & ->). cbn [rbind].
    assert (T3 : exists r, hm_process (dx_links x) = Ok r).
    { unfold hm_process. apply for_each_total. intros m Hm. unfold hm_link. destruct (dget_key (mn_name (fst m)) (hm_headers (dx_links x))) as (v & ->); [|eauto].
      rewrite Hn. apply L2. rewrite <- Hh. exact (in_map (fun h : mention * list inode => mn_name (fst h)) _ _ Hm). }
    destruct T3 as (hl & ->). cbn [rbind].
    assert (T4 : exists r, gm_process (dx_groups x) = Ok r).
    { unfold gm_process. apply for_each_total. intros m Hm. unfold gm_link.
      assert (K : In (mn_name m) (map fst (items_of us))) by (apply L3; rewrite <- Hg; exact (in_map mn_name _ _ Hm)).
      apply in_map_iff in K as ([g p] & E & K). cbn [fst] in E. subst g. apply Hp in K. unfold placed, gm_group in K. destruct (dget (mn_name m) (gm_items (dx_groups x))); [eauto|discriminate K]. }
    destruct T4 as (gl & ->). cbn [rbind]. eexists. split; [reflexivity|]. split; reflexivity.
  Qed.
  Lemma run_readable n V ps us text e e1 nx dn fb o V' : readable (o_source o) n V None None [] ps us (text_lines text) V' -> e1 = env_update e base_env None false -> env_like V e1 -> linked us ->
    (forall f, In f (files_of us) -> ~ In (Some f) fb) ->
    exists y, dp_run (S n) cf e nx dn fb text o = Ok y /\ Forall2 is_page (dx_nodes y) ps /\ env_like V' (dx_env y) /\
      incl (dx_forbidden y) (fb ++ sources_of us ++ map Some (files_of us)).
  Proof.
    intros (ts & Hl & H) Ee W L Hfb. destruct (lexed_tokens text o ts Hl) as (toks & E1 & E2 & D1 & S1). cbn [dp_run]. rewrite E1. cbn [rbind].
    unfold dp_init. cbv zeta. rewrite <- Ee.
    rewrite (configured_get e1 (lit "mau.parser.document_wrapper") (el_conf _ _ W) (or_introl eq_refl)). cbn [rbind dx_env].
    set (x0 := mkDx [] [] None None fm_init tm_init hm_init gm_init 0%Z fb [] e1 nx dn).
    assert (R0 : ready V None None [] x0) by (constructor; try reflexivity; [constructor|exact W]).
    assert (F0 : free us x0).
    { destruct L as ((L1 & L2 & _) & (L3 & _) & (L4 & L5)). split; [split; assumption|]. split; [split; [exact L3|intros g p _ K; discriminate K]|]. split; [exact L4|]. intros f K. split; [exact (Hfb f K)|exact (L5 f K)]. }
    assert (Sr : lexes (o_source o) toks ts).
    { split; [exact E2|]. apply Forall_forall. intros t Ht. unfold buffer in E1.
      destruct (C05_contexts_locate_tokens lex_document _ _ _ _ _ _ (or_introl eq_refl) E1 Ht) as (p & q & _ & _ & _ & _ & _ & _ & K). exact K. }
    destruct (H toks x0 Sr R0 F0) as (els & x' & nodes & c & b & k & M & Vs & A & En & F & R & [Ad1 Ad2 Ad3 Ad4 Ad5 Ad6 Ad7]).
    rewrite (prun_forward cf (dp_run n cf) toks els x0 x' M D1 S1 Vs A). cbn [rbind].
    destruct (finalise_run e1 x' us (el_conf _ _ W) L Ad5) as (y & Ey & N1 & N2); try assumption.
    { intros g p. rewrite Ad6. split; [intros [K|K]; [discriminate K|exact K]|right; assumption]. }
    exists y. split; [exact Ey|]. rewrite N1, N2, En. split; [exact F|]. split; [exact (rd_env _ _ _ _ _ R)|].
    rewrite (proj1 (finalise_frame cf e1 x' y Ey)). exact Ad7.
  Qed.

  (* ------------------------------------------------ files *)
  Lemma add_source_in v u l : In v (add_source u l) -> In v l \/ v = u.
  Proof. unfold add_source. destruct (source_in u l); [auto|]. intros H. apply in_app_or in H as [H|[H|[]]]; auto. Qed.
  Lemma copied V e : env_like V e -> copyable V -> exists e', env_from_environment e None = Ok e' /\ Permutation e' e.
  Proof.
    intros [N G _ _] C. assert (K : forall k, In k (keys e) -> exists v, V k = Some v).
    { intros k Hk. apply dmem_In in Hk. unfold dmem in Hk. rewrite G in Hk. destruct (V k); [eauto|discriminate]. }
    apply EnvFacts.from_environment_perm.
    - split; [exact N|]. apply Forall_forall. intros [k v] H. apply (in_dget k v e N) in H. rewrite G in H. exact (proj1 (C k v H)).
    - intros k k' Hk Hk' (r & E). destruct (K k Hk) as (v & Hv). destruct (K k' Hk') as (v' & Hv'). destruct (C k v Hv) as (_ & C2 & _). subst k'. specialize (C2 r). cbn [app] in Hv'. congruence.
    - intros k Hk. destruct (K k Hk) as (v & Hv). destruct (C k v Hv) as (_ & _ & C3). destruct (startswith [DOT] k) eqn:E; [|reflexivity].
      apply startswith_spec in E as (r & E). destruct (C3 r E).
  Qed.
  Lemma configured_in e e' : (forall kv, In kv e' -> In kv e) -> well_configured e -> well_configured e'.
  Proof. intros H W. apply Forall_forall. intros kv K. exact (proj1 (Forall_forall _ _) W kv (H kv K)). Qed.
  Lemma passed V g W e r : env_like V e -> passes V g W -> NoDup (keys (na_named r)) -> (forall k, dget (CALL ++ k) (na_named r) = called g k) ->
    exists e0, (forall rem x, dx_env x = e -> (if str_eqb (or_else (key g "pass_environment") (lit "true")) (lit "true") then plift (env_from_environment (dx_env x) None) else pret env_empty) (rem, x) = ((rem, x), Ok e0)) /\
      env_like W (env_update (env_dupdate e0 (map (fun kv : str * str => (fst kv, EStr (snd kv)))
        (fold_left (fun d (kv : str * str) => dset (removeprefix CALL (fst kv)) (snd kv) d) (filter (fun kv : str * str => startswith CALL (fst kv)) (na_named r)) [])) None) base_env None false).
  Proof.
    intros He (Ho & B & HB & HW) N Hk. set (ca := fold_left (fun d (kv : str * str) => dset (removeprefix CALL (fst kv)) (snd kv) d) (filter (fun kv : str * str => startswith CALL (fst kv)) (na_named r)) []).
    assert (Nc : NoDup (keys (map (fun kv : str * str => (fst kv, EStr (snd kv))) ca))).
    { unfold keys. rewrite map_map. cbn [fst]. apply (PropertiesInclude.call_args_nodup _ []). constructor. }
    assert (Gc : forall k, dget k (map (fun kv : str * str => (fst kv, EStr (snd kv))) ca) = option_map EStr (called g k)).
    { intros k. rewrite <- Hk. rewrite <- (PropertiesInclude.call_args_get _ k N). fold ca. generalize ca. intros m. induction m as [|[j w] m IH]; [reflexivity|]. cbn. destruct (str_eqb k j); [reflexivity|exact IH]. }
    assert (Fl : flatten_nested_dict [] (map (fun kv : str * str => (fst kv, EStr (snd kv))) ca) = map (fun kv : str * str => (fst kv, EStr (snd kv))) ca).
    { apply EnvFacts.flatten_flat. split; [exact Nc|]. apply Forall_forall. intros kv Hin. apply in_map_iff in Hin as (q & <- & _). exact I. }
    rewrite or_else_choice.
    assert (K : exists e0, (forall rem x, dx_env x = e -> (if str_eqb (choice g "pass_environment" "true") (lit "true") then plift (env_from_environment (dx_env x) None) else pret env_empty) (rem, x) = ((rem, x), Ok e0)) /\
      NoDup (keys e0) /\ well_configured e0 /\ forall k, B k = match dget k e0 with Some v => Some v | None => dget k base_env end).
    { destruct HB as [(H1 & H2 & ->)|(H1 & ->)].
      - destruct (copied V e He H2) as (e0 & E0 & P0). exists e0. split; [|split; [|split]].
        + intros rem x <-. rewrite H1, str_eqb_refl. unfold plift. rewrite E0. reflexivity.
        + eapply Permutation_NoDup; [apply Permutation_map, Permutation_sym, P0|exact (el_keys _ _ He)].
        + apply (configured_in e); [intros kv; apply Permutation_in, P0|exact (el_conf _ _ He)].
        + intros k. rewrite <- (el_get _ _ He). rewrite (dget_perm k e e0 (el_keys _ _ He) (Permutation_sym P0)). destruct (dget k e0) eqn:E; [reflexivity|].
          symmetry. apply dget_none. intros Hb. apply (el_base _ _ He), dmem_In in Hb. unfold dmem in Hb. rewrite (dget_perm k e e0 (el_keys _ _ He) (Permutation_sym P0)), E in Hb. discriminate.
      - exists []. split; [|split; [constructor|split; [constructor|reflexivity]]]. intros rem x _. rewrite (proj2 (str_eqb_neq _ _) H1). reflexivity. }
    destruct K as (e0 & Ee & N0 & W0 & HB0). exists e0. split; [exact Ee|]. clear Ee HB.
    unfold env_dupdate. rewrite Fl. set (cd := map _ ca) in *. set (e1 := dupd e0 cd).
    assert (N1 : NoDup (keys e1)) by (apply dupd_nodup, N0).
    assert (W1 : well_configured e1).
    { apply Forall_forall. intros [k v] H. apply in_dupd in H as [H|H]; [exact (proj1 (Forall_forall _ _) W0 _ H)|].
      apply (in_dget k v cd Nc) in H. rewrite Gc in H. destruct (called g k) eqn:E; [|discriminate H]. assert (O : ordinary k) by (apply Ho; congruence).
      intros f Hf. destruct (O f Hf) as [O1 O2]. cbn [fst snd]. split; [congruence|exact O2]. }
    assert (G1 : forall k, dget k (dupd base_env e1) = W k).
    { intros k. rewrite dget_dupd by exact N1. unfold e1. rewrite dget_dupd by exact Nc. rewrite HW, Gc, HB0. destruct (called g k); [reflexivity|]. cbn [option_map]. reflexivity. }
    unfold env_update. rewrite base_itself. constructor.
    - apply dupd_nodup. vm_compute. repeat constructor; cbn; intuition discriminate.
    - exact G1.
    - intros k Hb. apply dmem_In. unfold dmem. rewrite dget_dupd by exact N1. destruct (dget k e1); [reflexivity|]. apply dmem_In in Hb. exact Hb.
    - apply Forall_forall. intros [k v] H. apply in_dupd in H as [H|H]; [exact (proj1 (Forall_forall _ _) base_configured _ H)|exact (proj1 (Forall_forall _ _) W1 _ H)].
  Qed.
  Lemma dget_without (k : str) (m : dict str) : dget k (filter (fun kv : str * str => negb (startswith CALL (fst kv))) m) = if startswith CALL k then None else dget k m.
  Proof.
    induction m as [|[j w] m IH]; [cbn [filter dget]; destruct (startswith CALL k); reflexivity|]. cbn [filter fst]. destruct (startswith CALL j) eqn:Ej; cbn [negb].
    - rewrite IH. cbn [dget]. destruct (str_eqb_spec k j) as [->|_]; [rewrite Ej; reflexivity|reflexivity].
    - cbn [dget]. destruct (str_eqb_spec k j) as [->|_]; [rewrite Ej; reflexivity|exact IH].
  Qed.
  Lemma files_loads us : files_of (loads us) = files_of us /\ sources_of (loads us) = sources_of us.
  Proof. unfold files_of, sources_of, loads. induction us as [|[]  us [IH1 IH2]]; cbn; rewrite ?IH1, ?IH2; split; reflexivity. Qed.
  Lemma loads_plain us : foots_of (loads us) = [] /\ heads_of (loads us) = [] /\ bodies_of (loads us) = [] /\ names_of (loads us) = [] /\ groups_of (loads us) = [] /\ items_of (loads us) = [].
  Proof. unfold foots_of, heads_of, bodies_of, names_of, groups_of, items_of, loads. induction us as [|[] us IH]; cbn; auto. repeat split. Qed.
  Lemma file_run src n V c l g b name text W content us1 W1 x : filled ["uri"]%string g "uri" = Some name -> name <> [] -> cf_files cf name = File text -> passes V g W ->
    readable (Some name) n W None None [] content us1 (text_lines text) W1 -> linked us1 -> verdict V c b -> free (UFile src name :: loads us1) x ->
    includable src (S n) V c l (lit "mau") g (UFile src name :: loads us1) b (PFile g l name content) x.
  Proof.
    intros Hu Hn Hf Hp Hc L Hb Fr y ctx r Xa Xn Xg Xf Xh Xfb Xl Xc Xe A N Hs.
    pose proof (fill_given [] ["uri"]%string g r A N ltac:(repeat constructor; cbn; intuition discriminate) ltac:(intros; reflexivity)) as B. cbn [map] in B.
    destruct (pop_answers _ _ "uri" g _ B eq_refl) as (P1 & B1). match type of B1 with answers _ _ _ ?v => set (r1 := v) in * end. cbn [app] in B1.
    destruct (pop_answers _ _ "pass_environment" g _ B1 eq_refl) as (P2 & B2). match type of B2 with answers _ _ _ ?v => set (r2 := v) in * end. cbn [app] in B2.
    assert (P2' : fst (pop_arg r1 (lit "pass_environment")) = key g "pass_environment") by (exact (answers_key _ _ "pass_environment" g _ B1 eq_refl eq_refl)).
    assert (Hr2 : match g with None => r2 = empty_args | Some ga => let us := unnamed_of ga in
      na_unnamed r2 = skipn (length (open_names ["uri"]%string ga)) (plain_of us) /\ na_tags r2 = tags_of us /\ na_internal r2 = internal_tags_of us /\
      na_subtype r2 = hd_error (marked_with STAR us) /\ forall k, dget k (na_named r2) = if mem_str k [lit "uri"; lit "pass_environment"] then None else named_of ga k end).
    { destruct B2 as [_ B2]. destruct g as [ga|]; [|exact B2]. destruct B2 as (Q1 & Q2 & Q3 & Q4 & Q5). cbv zeta. repeat (split; [assumption|]). intros k. rewrite Q5.
      destruct (mem_str k [lit "uri"; lit "pass_environment"]) eqn:E; [reflexivity|]. destruct (named_of ga k); [reflexivity|].
      destruct (dget k (combine _ _)) eqn:F; [|reflexivity]. apply dget_in in F. apply in_combine_l in F. unfold open_names in F. apply filter_In in F as [[F|[]] _]. subst k. cbn in E. discriminate E. }
    assert (Hk : forall k, dget (CALL ++ k) (na_named r2) = called g k).
    { intros k. unfold called. destruct g as [ga|]; [|rewrite Hr2; reflexivity]. destruct Hr2 as (_ & _ & _ & _ & H5). rewrite H5. reflexivity. }
    destruct (passed V g W (dx_env y) r2 Xe Hp (proj1 B2) Hk) as (e0 & Ee & We).
    set (ca := fold_left (fun d (kv : str * str) => dset (removeprefix CALL (fst kv)) (snd kv) d) (filter (fun kv : str * str => startswith CALL (fst kv)) (na_named r2)) []) in *.
    set (e1 := env_dupdate e0 (map (fun kv : str * str => (fst kv, EStr (snd kv))) ca) None) in *.
    set (fb := add_source (Some name) (add_source src (dx_forbidden y))).
    pose proof Fr as (_ & _ & [F1 F2]). cbn [files_of sources_of flat_map app] in F1, F2. fold (files_of (loads us1)) in F1, F2. fold (sources_of (loads us1)) in F2.
    destruct (files_loads us1) as [Lf Ls]. rewrite Lf in F1, F2. rewrite Ls in F2.
    assert (Hfb : forall f, In f (files_of us1) -> ~ In (Some f) fb).
    { intros f H K. destruct (F2 f (or_intror H)) as [G1 G2]. unfold fb in K. apply add_source_in in K as [K|K]; [apply add_source_in in K as [K|K]|].
      - rewrite Xfb in K. exact (G1 K).
      - apply G2. left. congruence.
      - assert (f = name) as -> by congruence. inversion F1; subst. contradiction. }
    destruct (run_readable n W content us1 text e1 _ (dx_next y) (dx_done y) fb (mkOrigin 0 0 (Some name)) W1 Hc eq_refl We L Hfb) as (z & Ez & Fz & _ & Iz).
    assert (Ns : source_in (Some name) (add_source src (dx_forbidden y)) = false).
    { destruct (source_in (Some name) (add_source src (dx_forbidden y))) eqn:E; [|reflexivity]. apply source_in_spec in E. apply add_source_in in E. destruct (F2 name (or_introl eq_refl)) as [G1 G2].
      rewrite Xfb in E. destruct E as [E|E]; [destruct (G1 E)|]. destruct (G2 (or_introl (eq_sym E))). }
    set (r3 := mkArgs (na_unnamed r2) (filter (fun kv : str * str => negb (startswith CALL (fst kv))) (na_named r2)) (na_tags r2) (na_internal r2) (na_subtype r2)).
    set (x2 := set_forbidden (set_forbidden y (add_source src (dx_forbidden y))) fb).
    set (x3 := set_calls (set_forbidden (set_shared x2 (dx_next z) (dx_done z)) (dx_forbidden z)) (dx_calls x2 ++ mkCall src name ca ctx :: dx_calls z)).
    unfold dp_do_include.
    apply (include_gives V c l y b _ ctx _ (DMau name (dx_nodes z)) r3 x3); try assumption; try reflexivity.
    - intros rm. change (str_eqb (lit "mau") (lit "image")) with false. rewrite str_eqb_refl. cbv iota.
      unfold dp_mau. rewrite (surjective_pairing (pop_arg (args_set_names r [lit "uri"]) (lit "uri"))). fold r1. rewrite P1, Hu.
      rewrite (surjective_pairing (pop_arg r1 (lit "pass_environment"))). fold r2. rewrite P2'. destruct name as [|ch name]; [congruence|].
      change (pbind (need_uri (Some (ch :: name)) ctx) ?f) with (f (ch :: name)). cbv beta.
      unfold pbind at 1 2 3. unfold pmod, pget. cbn [fst snd]. cbn [dx_forbidden set_forbidden]. rewrite Hs, Ns. cbv zeta. fold ca. fold r3. fold fb. change (set_forbidden (set_forbidden y (add_source src (dx_forbidden y))) fb) with x2.
      unfold dp_read. rewrite Hf. cbv iota beta. change (pbind (pret ?v) ?f) with (f v). cbv beta. cbn [fst snd]. cbn [dx_forbidden set_forbidden]. fold fb. fold x2.
      unfold pbind at 1. cbn [fst snd].
      unfold pbind at 1. rewrite (Ee rm x2 eq_refl). fold e1. unfold pbind, plift. change (dx_next x2) with (dx_next y). change (dx_done x2) with (dx_done y). change (dx_forbidden x2) with fb. rewrite Ez. reflexivity.
    - destruct (loads_plain us1) as (Q1 & Q2 & Q3 & Q4 & Q5 & Q6).
      constructor; cbn [foots_of heads_of bodies_of names_of groups_of items_of files_of sources_of flat_map app];
        fold (foots_of (loads us1)); fold (heads_of (loads us1)); fold (bodies_of (loads us1)); fold (names_of (loads us1)); fold (groups_of (loads us1)); fold (items_of (loads us1)); fold (files_of (loads us1)); fold (sources_of (loads us1));
        rewrite ?Q1, ?Q2, ?Q3, ?Q4, ?Q5, ?Q6, ?app_nil_r; try reflexivity.
      + intros g' p'. split; [intros K; left; exact K|]. intros [K|[]]. exact K.
      + rewrite <- Lf, <- Ls in Iz. intros f K. change (dx_forbidden x3) with (dx_forbidden z) in K. apply Iz in K. rewrite in_app_iff in K. destruct K as [K|K].
        * unfold fb in K. apply add_source_in in K as [K|K]; [apply add_source_in in K as [K|K]|].
          -- apply in_or_app. left. exact K.
          -- subst f. apply in_or_app. right. left. reflexivity.
          -- subst f. apply in_or_app. right. right. apply in_or_app. right. left. reflexivity.
        * rewrite in_app_iff in K. apply in_or_app. right. right. apply in_or_app. destruct K as [K|K]; [left; exact K|right; right; exact K].
    - apply ip_file; [|exact Xl|exact Fz]. unfold is_args_file. cbn [at_args]. destruct g as [ga|]; [|subst r3; rewrite Hr2; reflexivity].
      destruct Hr2 as (Q1 & Q2 & Q3 & Q4 & Q5). cbv zeta. repeat (split; [assumption|]). intros k. cbn [na_named r3]. rewrite dget_without, Q5. change (lit "call:") with CALL.
      destruct (mem_str k [lit "uri"; lit "pass_environment"]), (startswith CALL k); reflexivity.
  Qed.

  (* ------------------------------------------------ the tokens of the lines *)
  Lemma reads_nil ts : reads [] ts -> ts = [(T_EOL, [])].
  Proof.
    enough (K : forall l ts, reads l ts -> l = [] -> ts = [(T_EOL, [])]) by (intros H; exact (K _ _ H eq_refl)).
    clear. intros l ts H. destruct H; intros E; try discriminate E.
    - destruct n; [reflexivity|discriminate].
    - destruct i; [|discriminate E]. destruct m; [congruence|discriminate E].
    - destruct i; [|discriminate E]. destruct m; [congruence|discriminate E].
  Qed.
  Lemma lexed_cons l lts ls ts : reads l lts -> l <> [] -> SpecGrammar.lexed ls (inl ts) -> SpecGrammar.lexed (l :: ls) (inl (lts ++ ts)).
  Proof. intros H Hl H2. apply (lexed_line l lts ls (inl ts) H); [congruence|exact H2]. Qed.
  Lemma reads_ne l t v ts : reads l ((t, v) :: ts) -> t <> T_EOL -> l <> [].
  Proof. intros H Ht ->. apply reads_nil in H. congruence. Qed.
  Lemma lexed_again ls ts r : Forall (no_chr NL) ls -> SpecGrammar.lexed ls (inl ts) -> SpecGrammar.lexed ls r -> r = inl ts.
  Proof. intros Hn H H2. exact (C59_unambiguous ls r (inl ts) Hn H2 H). Qed.
  Lemma cut_tokens ls : cut ls -> Forall (no_chr NL) ls -> forall ts t v r, SpecGrammar.lexed ls (inl ts) -> ts = (t, v) :: r -> t <> T_TEXT.
  Proof.
    induction 1 as [|l t0 v0 ts0 r0 Hr Ht|c r0 Hc|s r0 Hs Hc IH|cs r0 Hcs Hc IH]; intros Hn ts t v r H E.
    - pose proof (lexed_again _ _ _ Hn H lexed_end) as K. injection K as K. rewrite E in K. injection K as <- _ _. discriminate.
    - inversion Hn as [|? ? Hn1 Hn2]; subst. destruct l as [|ch l].
      + pose proof (reads_nil _ Hr) as K. injection K as K1 K2 K3. subst.
        destruct r0 as [|l2 r0].
        * pose proof (lexed_again _ _ _ Hn H lexed_newline) as K. injection K as <- _ _. discriminate.
        * pose proof (lexed_again _ _ _ Hn H (lexed_line [] _ (l2 :: r0) _ Hr ltac:(discriminate) (lexed_lines _ Hn2))) as K.
          destruct (outcome (lex_lines (l2 :: r0) 0 0 None)); [|discriminate K]. injection K as <- _ _. discriminate.
      + pose proof (lexed_again _ _ _ Hn H (lexed_line _ _ r0 _ Hr ltac:(discriminate) (lexed_lines _ Hn2))) as K.
        destruct (outcome (lex_lines r0 0 0 None)); [|discriminate K]. injection K as <- _ _. exact Ht.
    - inversion Hn as [|? ? Hn1 Hn2]; subst. inversion H as [| |l lts rest r1 Hrd Hne H' E1 E2|c1 content rest r1 Hc1 Ha H' E1 E2|content rest r1 Ha H' E1 E2|c1 rest Hc1 Ha|]; subst.
      + destruct (reads_not_fence _ _ Hrd Hn1 c (proj1 (proj2 Hc)) eq_refl).
      + match goal with K : prepend _ ?r = _ |- _ => destruct r; [|discriminate K]; cbn in K; injection K as <- _ _; discriminate end.
      + exfalso. destruct Hc as (_ & _ & Hc). congruence.
    - inversion Hn as [|? ? Hn1 Hn2]; subst.
      pose proof (lexed_again _ _ _ Hn H (lexed_line _ [] r0 _ (r_comment s Hs) ltac:(discriminate) (lexed_lines _ Hn2))) as K.
      pose proof (lexed_lines _ Hn2) as L. destruct (outcome (lex_lines r0 0 0 None)) as [ts0|]; [|discriminate K]. cbn [prepend app] in K.
      injection K as ->. exact (IH Hn2 _ _ _ _ L eq_refl).
    - inversion Hn as [|? ? Hn1 Hn2]; subst. apply Forall_app in Hn2 as [Hn2 Hn3]. inversion Hn3 as [|? ? Hn4 Hn5]; subst.
      pose proof (lexed_again _ _ _ Hn H (lexed_comment cs r0 _ Hcs (lexed_lines _ Hn5))) as K.
      pose proof (lexed_lines _ Hn5) as L. rewrite K in L. exact (IH Hn5 _ _ _ _ L eq_refl).
  Qed.
  Lemma list_cut_tokens ls : list_cut ls -> Forall (no_chr NL) ls -> forall ts, SpecGrammar.lexed ls (inl ts) ->
    exists t r, ts = (t, []) :: r /\ (t = T_EOF \/ t = T_EOL).
  Proof.
    induction 1 as [|r0|s r0 Hs Hc IH|cs r0 Hcs Hc IH]; intros Hn ts H.
    - pose proof (lexed_again _ _ _ Hn H lexed_end) as K. injection K as <-. eauto.
    - inversion Hn as [|? ? Hn1 Hn2]; subst. destruct r0 as [|l2 r0].
      + pose proof (lexed_again _ _ _ Hn H lexed_newline) as K. injection K as <-. eauto.
      + pose proof (lexed_again _ _ _ Hn H (lexed_line [] _ (l2 :: r0) _ (r_blank 0) ltac:(discriminate) (lexed_lines _ Hn2))) as K.
        destruct (outcome (lex_lines (l2 :: r0) 0 0 None)); [|discriminate K]. injection K as <-. cbn. eauto.
    - inversion Hn as [|? ? Hn1 Hn2]; subst.
      pose proof (lexed_again _ _ _ Hn H (lexed_line _ [] r0 _ (r_comment s Hs) ltac:(discriminate) (lexed_lines _ Hn2))) as K.
      pose proof (lexed_lines _ Hn2) as L. destruct (outcome (lex_lines r0 0 0 None)) as [ts0|]; [|discriminate K]. cbn [prepend app] in K.
      injection K as ->. exact (IH Hn2 _ L).
    - inversion Hn as [|? ? Hn1 Hn2]; subst. apply Forall_app in Hn2 as [Hn2 Hn3]. inversion Hn3 as [|? ? Hn4 Hn5]; subst.
      pose proof (lexed_again _ _ _ Hn H (lexed_comment cs r0 _ Hcs (lexed_lines _ Hn5))) as K.
      pose proof (lexed_lines _ Hn5) as L. rewrite K in L. exact (IH Hn5 _ L).
  Qed.

  Lemma reads_first l t v ts : reads l ((t, v) :: ts) -> t <> T_LITERAL.
  Proof. intros H. inversion H; subst; discriminate. Qed.
  Lemma lexed_first ls r : SpecGrammar.lexed ls r -> forall t v ts, r = inl ((t, v) :: ts) -> t <> T_LITERAL.
  Proof.
    induction 1 as [| |l lts rest r Hr Hne H IH|c content rest r Hc Ha H IH|content rest r Ha H IH|c rest Hc Ha|rest Ha]; intros t v ts E.
    - injection E as <- _ _. discriminate.
    - injection E as <- _ _. discriminate.
    - destruct lts as [|[t0 v0] lts]; [destruct r as [r|]; [|discriminate E]; exact (IH t v ts E)|]. destruct r as [r|]; [|discriminate E]. cbn in E.
      assert (t0 = t) as <- by congruence. exact (reads_first _ _ _ _ Hr).
    - destruct r as [r|]; [|discriminate E]. cbn in E. assert (T_BLOCK = t) as <- by (destruct content; cbn in E; congruence). discriminate.
    - exact (IH t v ts E).
    - discriminate E.
    - discriminate E.
  Qed.
  Lemma reads_variable l name t v ts : reads l ((T_VARIABLE, lit ":") :: (T_TEXT, name) :: (t, v) :: ts) -> name <> [].
  Proof. intros H. inversion H; subst; assumption. Qed.

  (* ------------------------------------------------ all the lines *)
  Lemma goes_on n el rest x x1 new ps1 ps u us V' : shaped el -> maximal el rest -> starts_visible el -> acts cf (dp_run n cf) el x x1 ->
    dx_nodes x1 = dx_nodes x ++ new -> Forall2 is_page new ps1 -> adds u x x1 -> goes n rest x1 ps us V' -> goes n (tokens_of el ++ rest) x (ps1 ++ ps) (u ++ us) V'.
  Proof.
    intros Hs Hm Hv Ha En F Ad (els & x' & nodes & c & b & k & M & Vs & A & En' & F' & R & Ad'). exists (el :: els), x', (new ++ nodes), c, b, k.
    split; [constructor; assumption|]. split; [constructor; assumption|]. split; [econstructor; eassumption|]. split; [rewrite En', En, app_assoc; reflexivity|].
    split; [apply Forall2_app; assumption|]. split; [exact R|exact (adds_app _ _ _ _ _ Ad Ad')].
  Qed.
  Lemma goes_quiet n el rest x x1 ps u us V' : shaped el -> maximal el rest -> starts_visible el -> acts cf (dp_run n cf) el x x1 ->
    dx_nodes x1 = dx_nodes x -> adds u x x1 -> goes n rest x1 ps us V' -> goes n (tokens_of el ++ rest) x ps (u ++ us) V'.
  Proof. intros Hs Hm Hv Ha En Ad G. apply (goes_on n el rest x x1 [] [] ps); try assumption; [rewrite app_nil_r; exact En|constructor]. Qed.
  Lemma goes_acts n el rest x V b p ps u us V' : shaped el -> maximal el rest -> starts_visible el ->
    (exists x1, acts cf (dp_run n cf) el x x1 /\ makes V u b p x x1) -> free (u ++ us) x -> (forall x1, ready V None None [] x1 -> free us x1 -> goes n rest x1 ps us V') ->
    goes n (tokens_of el ++ rest) x (shown b p ++ ps) (u ++ us) V'.
  Proof.
    intros Hs Hm Hv (x1 & Ha & nd & En & Hp & R & Ad) Hf H. apply (goes_on n el rest x x1 (shows b nd) (shown b p) ps); try assumption; [|exact (H x1 R (free_after _ _ _ _ Ad Hf))].
    destruct b; repeat constructor. exact Hp.
  Qed.
  Lemma goes_new n el rest x V b p ps u us V' : shaped el -> maximal el rest -> starts_visible el -> (forall i, el <> EItems i) ->
    gives (do_element cf (dp_run n cf) el) x V u b p -> free (u ++ us) x -> (forall x1, ready V None None [] x1 -> free us x1 -> goes n rest x1 ps us V') ->
    goes n (tokens_of el ++ rest) x (shown b p ++ ps) (u ++ us) V'.
  Proof.
    intros Hs Hm Hv He (x1 & Hr & Hk) Hf H. apply (goes_acts n el rest x V b p ps u us V' Hs Hm Hv); [|exact Hf|exact H]. exists x1. split; [|exact Hk].
    destruct el; try exact Hr. destruct (He items eq_refl).
  Qed.
  Lemma tv_cons src toks t v ts : lexes src toks ((t, v) :: ts) -> exists tk r, toks = tk :: r /\ t_type tk = t /\ t_value tk = v /\ lexes src r ts.
  Proof.
    intros [E H]. destruct toks as [|tk r]; [discriminate|]. cbn [map] in E. injection E as E1 E2 E3. inversion H; subst. exists tk, r. split; [reflexivity|]. split; [reflexivity|].
    split; [reflexivity|]. split; [reflexivity|assumption].
  Qed.
  Lemma tv_source src tk r ts : lexes src (tk :: r) ts -> c_source (t_ctx tk) = src /\ Forall (fun t => c_source (t_ctx t) = src) r.
  Proof. intros [_ H]. inversion H; subst. auto. Qed.

  Lemma paragraph_lexed V ts ws ls : Forall2 (fun t w => means V t w /\ reads w [(T_TEXT, w)]) ts ws -> forall us, SpecGrammar.lexed ls (inl us) ->
    SpecGrammar.lexed (ws ++ ls) (inl (map (fun w => (T_TEXT, w)) ws ++ us)).
  Proof.
    induction 1 as [|t w ts ws [_ H] _ IH]; intros us Hu; [exact Hu|]. cbn [app map]. apply (lexed_cons w [(T_TEXT, w)]); [exact H| |exact (IH _ Hu)].
    exact (reads_ne _ _ _ _ H ltac:(discriminate)).
  Qed.
  Lemma paragraph_tokens V ts ws : Forall2 (fun t w => means V t w /\ reads w [(T_TEXT, w)]) ts ws -> forall src toks us, lexes src toks (map (fun w => (T_TEXT, w)) ws ++ us) ->
    exists body rest, toks = body ++ rest /\ lexes src rest us /\ Forall (is_type T_TEXT) body /\ Forall2 (fun t tk => means V t (t_value tk)) ts body /\
      Forall (fun tk => t_value tk <> []) body.
  Proof.
    induction 1 as [|t w ts ws [Hm Hr] _ IH]; intros src toks us E.
    - exists [], toks. split; [reflexivity|]. split; [exact E|]. split; [constructor|]. split; constructor.
    - cbn [map app] in E. apply tv_cons in E as (tk & r & -> & E1 & E2 & E3). destruct (IH _ _ _ E3) as (body & rest & -> & F1 & F2 & F3 & F4).
      exists (tk :: body), rest. split; [reflexivity|]. split; [exact F1|]. split; [constructor; assumption|]. rewrite <- E2 in Hm. split; constructor; try assumption.
      rewrite E2. exact (reads_ne _ _ _ _ Hr ltac:(discriminate)).
  Qed.
  Lemma list_lexed qs ws ls : Forall2 (fun q w => reads w [(T_LIST, fst q); (T_TEXT, snd q)]) qs ws -> forall us, SpecGrammar.lexed ls (inl us) ->
    SpecGrammar.lexed (ws ++ ls) (inl (flat_map (fun q : str * str => [(T_LIST, fst q); (T_TEXT, snd q)]) qs ++ us)).
  Proof.
    induction 1 as [|q w qs ws H _ IH]; intros us Hu; [exact Hu|]. cbn [app flat_map]. apply (lexed_cons w [_; _]); [exact H| |exact (IH _ Hu)].
    exact (reads_ne _ _ _ _ H ltac:(discriminate)).
  Qed.
  Lemma list_tokens qs ws : Forall2 (fun q w => reads w [(T_LIST, fst q); (T_TEXT, snd q)]) qs ws -> forall src toks us,
    lexes src toks (flat_map (fun q : str * str => [(T_LIST, fst q); (T_TEXT, snd q)]) qs ++ us) ->
    exists items rest, toks = tokens_of (EItems items) ++ rest /\ lexes src rest us /\ map pair_value items = qs /\
      Forall (fun it => is_type T_LIST (fst it) /\ is_type T_TEXT (snd it)) items.
  Proof.
    induction 1 as [|q w qs ws Hr _ IH]; intros src toks us E.
    - exists [], toks. split; [reflexivity|]. split; [exact E|]. split; [reflexivity|constructor].
    - cbn [flat_map app] in E. apply tv_cons in E as (h & r & -> & E1 & E2 & E). apply tv_cons in E as (tk & r2 & -> & E3 & E4 & E). destruct (IH _ _ _ E) as (items & rest & -> & F1 & F2 & F3).
      exists ((h, tk) :: items), rest. split; [reflexivity|]. split; [exact F1|]. split; [cbn [map]; rewrite F2; unfold pair_value; cbn [fst snd]; rewrite E2, E4; destruct q; reflexivity|].
      constructor; [split; assumption|exact F3].
  Qed.
  Lemma block_tokens src c ws toks us : lexes src toks (block_shape (fence c) ws ++ us) ->
    exists o ct cl rest, toks = tokens_of (EBlock o ct cl) ++ rest /\ lexes src rest us /\ shaped (EBlock o ct cl) /\ t_value o = fence c /\
      match ct with None => ws = [] | Some t => (ws <> [] /\ t_value t = join [NL] ws) /\ c_source (t_ctx t) = src end.
  Proof.
    unfold block_shape. intros E. destruct ws as [|w ws]; cbn [app] in E.
    - apply tv_cons in E as (o & r & -> & E1 & E2 & E). apply tv_cons in E as (cl & r2 & -> & E3 & E4 & E). exists o, None, cl, r2.
      split; [reflexivity|]. split; [exact E|]. split; [split; [exact E1|split; [constructor|exact E3]]|]. split; [exact E2|reflexivity].
    - apply tv_cons in E as (o & r & -> & E1 & E2 & E). pose proof E as Ec. apply tv_cons in E as (t & r2 & -> & E3 & E4 & E). apply tv_source in Ec as [Ec _]. apply tv_cons in E as (cl & r3 & -> & E5 & E6 & E).
      exists o, (Some t), cl, r3. split; [reflexivity|]. split; [exact E|]. split; [split; [exact E1|split; [constructor; [exact E3|constructor]|exact E5]]|]. split; [exact E2|]. split; [split; [discriminate|exact E4]|exact Ec].
  Qed.
  Lemma lines_joined ws : ws <> [] -> Forall (no_chr NL) ws -> join [NL] ws <> [] -> text_lines (join [NL] ws) = ws.
  Proof.
    intros H Hn Hj. destruct (join [NL] ws) eqn:E; [congruence|]. cbn [text_lines]. rewrite <- E. apply split_join; assumption.
  Qed.
  Lemma join_empty ws : join [NL] ws = [] -> ws = [] \/ ws = [[]].
  Proof. destruct ws as [|w [|w2 ws]]; auto; cbn; [intros ->; auto|]. destruct w; discriminate. Qed.

  Lemma includes_ne V what a g w : includes V what a g w -> w <> [].
  Proof. intros [? ? Hr|? ? ? Hr _]; exact (reads_ne _ _ _ _ Hr ltac:(discriminate)). Qed.
  Lemma lays_nothing F src n V c a l ps us ls V' : lays F src n V c a l ps us ls V' -> ls = [] \/ ls = [[]] -> ps = [] /\ us = [] /\ V' = V.
  Proof.
    intros H. induction H; intros E; try (split; [reflexivity|split; reflexivity]).
    all: try (destruct E as [E|E]; discriminate E).
    all: try (exfalso; destruct E as [E|E]; [discriminate E|]; injection E as -> _; match goal with K : reads [] _ |- _ => apply reads_nil in K; discriminate K | K : includes _ _ _ _ [] |- _ => exact (includes_ne _ _ _ _ _ K eq_refl) end).
    - apply IHlays. destruct E as [E|E]; [discriminate E|]. injection E as _ ->. auto.
    - exfalso. destruct H0 as [|t w ts ws [_ H0] _]; [congruence|]. destruct E as [E|E]; [discriminate E|]. injection E as -> _. apply reads_nil in H0. discriminate.
    - exfalso. match goal with K : Forall2 _ (_ :: _) _ |- _ => inversion K; subst end. destruct E as [E|E]; [discriminate E|]. injection E as -> _. match goal with K : reads [] _ |- _ => apply reads_nil in K; discriminate K end.
  Qed.
  Lemma block_contains src n V content us1 ws V1 ct : lays (cf_files cf) src n V None None [] content us1 ws V1 -> readable src n V None None [] content us1 ws V1 -> linked us1 -> Forall (no_chr NL) ws ->
    match ct with None => ws = [] | Some t => (ws <> [] /\ t_value t = join [NL] ws) /\ c_source (t_ctx t) = src end -> contains (dp_run (S n) cf) V ct content V1.
  Proof.
    intros Hin R L Nw Hct. destruct ct as [t|]; cbn [contains]; [destruct Hct as [[Hwn Et] Es]|destruct (lays_nothing _ _ _ _ _ _ _ _ _ _ _ Hin (or_introl Hct)) as (K1 & _ & K3); auto].
    unfold token_truthy. destruct (t_value t) as [|ch tv'] eqn:Ev.
    + destruct (lays_nothing _ _ _ _ _ _ _ _ _ _ _ Hin (join_empty ws ltac:(congruence))) as (K1 & _ & K3); auto.
    + intros e nx dn We. rewrite <- Ev. destruct (run_readable n V content us1 (t_value t) e (env_update e base_env None false) nx dn [] (origin_of t) V1) as (y & E1 & E2 & E3 & _); try assumption; [|reflexivity|exact (like_base _ _ We)|intros f _ []|exists y; auto].
      change (o_source (origin_of t)) with (c_source (t_ctx t)). rewrite Es, Ev, Et, lines_joined; [exact R|exact Hwn|exact Nw|congruence].
  Qed.
  Lemma nothing_readable src n V c a l : readable src n V c a l [] [] [] V.
  Proof.
    exists [(T_EOF, [])]. split; [constructor|]. intros toks x E R _. apply tv_cons in E as (tk & r & -> & E1 & E2 & E). destruct r; [|destruct E; discriminate].
    exists [], x, [], c, a, l. split; [constructor; exact E1|]. split; [constructor|]. split; [constructor|]. split; [rewrite app_nil_r; reflexivity|]. split; [constructor|]. split; [exact R|apply adds_nil; reflexivity].
  Qed.
  Lemma file_readable src n V content us1 ws V1 : lays (cf_files cf) src n V None None [] content us1 ws V1 -> readable src n V None None [] content us1 ws V1 -> Forall (no_chr NL) ws ->
    readable src n V None None [] content us1 (text_lines (join [NL] ws)) V1.
  Proof.
    intros Hin R Nw. destruct (join [NL] ws) eqn:E.
    - destruct (lays_nothing _ _ _ _ _ _ _ _ _ _ _ Hin (join_empty ws E)) as (-> & -> & ->). apply nothing_readable.
    - rewrite <- E, lines_joined; [exact R|intros ->; discriminate E|exact Nw|congruence].
  Qed.
  Ltac vis E := let u := fresh in let w := fresh in let Eu := fresh in intros u w Eu; injection Eu as <- _; left; rewrite E; discriminate.

  Lemma includes_readable src n V c a l b w what g p u ps us ls V' : includes V what a g w -> (forall x, free u x -> includable src n V c l what g u b p x) ->
    readable src n V None None [] ps us ls V' -> readable src n V c a l (shown b p ++ ps) (u ++ us) (w :: ls) V'.
  Proof.
    intros Hi H (ts & Hl & G). destruct Hi as [a w Hr|dd w s Hr Ha].
    - eexists. split; [apply lexed_cons; [exact Hr|exact (reads_ne _ _ _ _ Hr ltac:(discriminate))|exact Hl]|].
      intros toks x E R F. cbn [app] in E. pose proof E as Es. apply tv_cons in E as (o & r & -> & E1 & E2 & E). apply tv_source in Es as [Es _]. apply tv_cons in E as (ty & r2 & -> & E3 & E4 & E). subst what.
      apply (goes_new n (EInclude o ty None) r2 x V b p ps u us V'); [split; [exact E1|split; [exact E3|exact I]]| |vis E2|discriminate| |exact F|intros x1 R1 F1; exact (G r2 x1 E R1 F1)].
      + intros (t & r & -> & [Et _]). destruct E as [E _]. cbn [map] in E. subst ts. exact (lexed_first _ _ Hl _ _ _ eq_refl Et).
      + exact (include_run src n V c a l x b p a u o ty R Es (H x (free_part _ _ _ F)) eq_refl).
    - eexists. split; [apply lexed_cons; [exact Hr|exact (reads_ne _ _ _ _ Hr ltac:(discriminate))|exact Hl]|].
      intros toks x E R F. cbn [app] in E. pose proof E as Es. apply tv_cons in E as (o & r & -> & E1 & E2 & E). apply tv_source in Es as [Es _]. apply tv_cons in E as (ty & r2 & -> & E3 & E4 & E).
      apply tv_cons in E as (cl & r3 & -> & E5 & E6 & E). apply tv_cons in E as (tk & r4 & -> & E7 & E8 & E). subst what s.
      apply (goes_new n (EInclude o ty (Some (cl, tk))) r4 x V b p ps u us V'); [split; [exact E1|split; [exact E3|split; [split; assumption|exact E7]]]|exact I|vis E2|discriminate| |exact F|intros x1 R1 F1; exact (G r4 x1 E R1 F1)].
      exact (include_with_run src n V c l x b p u o ty cl tk dd R Es Ha (H x (free_part _ _ _ F))).
  Qed.

  Lemma lays_readable src n V c a l ps us ls V' : lays (cf_files cf) src n V c a l ps us ls V' -> Forall (no_chr NL) ls -> readable src n V c a l ps us ls V'.
  Proof.
    induction 1 as [src n V c a l|src n V c a l k0 ps us ls V' H IH|src n V c a l s ps us ls V' Hs H IH|src n V c a l cs ps us ls V' Hc H IH
      |src n V c a l w name s v ps us ls V' Hr Hn Hs Hb Hv Ho H IH|src n V c a l w on name ps us ls V' Hr Hc Ho H IH|src n V c a l w s dd ps us ls V' Hr Ht H IH
      |src n V c a l b s ps us ls V' Hb H IH|src n V c a l w role s t ps us ls V' Hr Hm H IH|src n V c a l b ps us ls V' Hb H IH
      |src n V c a l b w k s t ps us ls V' Hr Hm Hb H IH|src n V c a l b ts ws ps us ls V' Hne Hw Hc Hb H IH|src n V c a l b k o z t es m s qs ws ps us ls V' He Ho Hk Hw Hc Hb H IH
      |src n V c a l b f content us1 ws V1 ps us ls V' Hc Hf Hen Hfn Hba Hin IHin Hlk Hb H IH|src n V c a l b f ws ps us ls V' Hc Hf Hen Hfn Hba H1 Hb H IH
      |src n V c a l b f dl cs ws ps us ls V' Hc Hf Hen Hfn Hba Hdl Hpl Hcs H0 H1 Hb H IH
      |src n V a l name f content us1 ws V1 ps us ls V' Hc Hf Hen Hfn Hne Hi Hin IHin Hlk H IH
      |src n V c a l b w what g ps us ls V' Hi Hw Hb H IH|src n V c a l b w g ps us ls V' Hi Hw Hb H IH
      |src n V a l f content us1 ws V1 g p ps us ls V' Hc Hf Hen Hfn Hg Hgn Hp Hpn His Hin IHin Hlk H IH
      |src n V c a l b w g name ps us ls V' Hi Hu Hb H IH|src n V c a l b w g name ws ps us ls V' Hi Hu Hn Hfl Hws Hnw Hb H IH
      |src n V c a l b w g name ws W content us1 W1 ps us ls V' Hi Hu Hn Hfl Hnw Hpa Hin IHin Hlk Hb H IH]; intros Hnl.
    - apply nothing_readable.
    - inversion Hnl as [|? ? N1 N2]; subst. destruct (IH N2) as (ts & Hl & G).
      destruct k0 as [|k0]; [destruct ls as [|l2 ls]|].
      + exists [(T_EOF, [])]. split; [constructor|]. pose proof (lexed_again _ _ _ N2 Hl lexed_end) as K. assert (ts = [(T_EOF, [])]) as -> by congruence. exact G.
      + exists ((T_EOL, []) :: ts). split; [exact (lexed_line [] _ (l2 :: ls) (inl ts) (r_blank 0) ltac:(discriminate) Hl)|].
        intros toks x E R F. apply tv_cons in E as (tk & r & -> & E1 & E2 & E). apply (goes_quiet n (EBlank tk) r x x ps []); [exact E1|exact I| |intros rem; reflexivity|reflexivity|apply adds_nil; reflexivity|exact (G r x E R F)].
        intros u v Eu. injection Eu as <- _. right. exact E1.
      + exists ((T_EOL, sps (S k0)) :: ts). split; [exact (lexed_line (sps (S k0)) _ ls (inl ts) (r_blank (S k0)) ltac:(discriminate) Hl)|].
        intros toks x E R F. apply tv_cons in E as (tk & r & -> & E1 & E2 & E). apply (goes_quiet n (EBlank tk) r x x ps []); [exact E1|exact I| |intros rem; reflexivity|reflexivity|apply adds_nil; reflexivity|exact (G r x E R F)].
        intros u v Eu. injection Eu as <- _. right. exact E1.
    - inversion Hnl as [|? ? N1 N2]; subst. destruct (IH N2) as (ts & Hl & G). exists ts. split; [|exact G].
      exact (lexed_line (lit "//" ++ s) _ ls (inl ts) (r_comment s Hs) ltac:(discriminate) Hl).
    - inversion Hnl as [|? ? N1 N2]; subst. apply Forall_app in N2 as [_ N2]. inversion N2 as [|? ? _ N3]; subst. destruct (IH N3) as (ts & Hl & G). exists ts. split; [|exact G].
      exact (lexed_comment cs ls (inl ts) Hc Hl).
    - inversion Hnl as [|? ? N1 N2]; subst. destruct (IH N2) as (ts & Hl & G). pose proof (reads_variable _ _ _ _ _ Hr) as Hname.
      eexists. split; [apply lexed_cons; [exact Hr|exact (reads_ne _ _ _ _ Hr ltac:(discriminate))|exact Hl]|].
      intros toks x E R F. cbn [app] in E. apply tv_cons in E as (o & r & -> & E1 & E2 & E). apply tv_cons in E as (nm & r2 & -> & E3 & E4 & E).
      apply tv_cons in E as (cl & r3 & -> & E5 & E6 & E). apply tv_cons in E as (tk & r4 & -> & E7 & E8 & E). subst name.
      destruct (variable_run V c a l x o nm cl s v tk R Hn Hname E8 Hs Hb Hv Ho) as (x1 & Hrn & En & R1 & Ad).
      apply (goes_quiet n (EVariable o nm cl (Some tk)) r4 x x1 ps []); [split; [split; assumption|split; [exact E3|split; [split; assumption|exact (Forall_cons _ E7 (Forall_nil _))]]]|exact I|vis E2|exact Hrn|exact En|exact Ad|].
      exact (G r4 x1 E R1 (free_after [] us x x1 Ad F)).
    - inversion Hnl as [|? ? N1 N2]; subst. destruct (IH N2) as (ts & Hl & G).
      eexists. split; [apply lexed_cons; [exact Hr|exact (reads_ne _ _ _ _ Hr ltac:(discriminate))|exact Hl]|].
      intros toks x E R F. cbn [app] in E. apply tv_cons in E as (o & r & -> & E1 & E2 & E). apply tv_cons in E as (nm & r2 & -> & E3 & E4 & E).
      apply tv_cons in E as (cl & r3 & -> & E5 & E6 & E).
      destruct (flag_run V c a l x o nm cl on name R E4 Ho) as (x1 & Hrn & En & R1 & Ad).
      apply (goes_quiet n (EVariable o nm cl None) r3 x x1 ps []); [split; [split; assumption|split; [exact E3|split; [split; assumption|exact (Forall_nil _)]]]| |vis E2|exact Hrn|exact En|exact Ad|].
      + intros (t & r & -> & Et). destruct E as [E _]; cbn [map] in E; refine (cut_tokens ls Hc N2 ts (t_type t) (t_value t) _ Hl (eq_sym E) Et).
      + exact (G r3 x1 E R1 (free_after [] us x x1 Ad F)).
    - inversion Hnl as [|? ? N1 N2]; subst. destruct (IH N2) as (ts & Hl & G).
      eexists. split; [apply lexed_cons; [exact Hr|exact (reads_ne _ _ _ _ Hr ltac:(discriminate))|exact Hl]|].
      intros toks x E R F. cbn [app] in E. apply tv_cons in E as (o & r & -> & E1 & E2 & E). apply tv_cons in E as (op & r2 & -> & E3 & E4 & E).
      apply tv_cons in E as (tk & r3 & -> & E5 & E6 & E).
      destruct (condition_run V c a l x o op tk s dd R E4 E6 Ht) as (x1 & Hrn & En & R1 & Ad).
      apply (goes_quiet n (EControl o op tk) r3 x x1 ps []); [split; [split; assumption|split; assumption]|exact I|vis E2|exact Hrn|exact En|exact Ad|].
      exact (G r3 x1 E R1 (free_after [] us x x1 Ad F)).
    - inversion Hnl as [|? ? N1 N2]; subst. destruct (IH N2) as (ts & Hl & G).
      exists ([(T_ARGUMENTS, lit "["); (T_TEXT, s); (T_LITERAL, lit "]")] ++ ts). split; [apply lexed_cons; [constructor|discriminate|exact Hl]|].
      intros toks x E R F. cbn [app] in E. apply tv_cons in E as (o & r & -> & E1 & E2 & E). apply tv_cons in E as (tk & r2 & -> & E3 & E4 & E). apply tv_cons in E as (cl & r3 & -> & E5 & E6 & E).
      destruct (arguments_go V c a l x b s tk R Hb E4) as (x1 & Hr & En & R1 & Ad).
      apply (goes_quiet n (EArguments o tk cl) r3 x x1 ps []); [split; [split; assumption|split; [exact E3|split; assumption]]|exact I|vis E2|exact Hr|exact En|exact Ad|].
      exact (G r3 x1 E R1 (free_after [] us x x1 Ad F)).
    - inversion Hnl as [|? ? N1 N2]; subst. destruct (IH N2) as (ts & Hl & G).
      exists ([(T_LABEL, lit "." ++ role); (T_TEXT, s)] ++ ts). split; [apply lexed_cons; [exact Hr|exact (reads_ne _ _ _ _ Hr ltac:(discriminate))|exact Hl]|].
      intros toks x E R F. cbn [app] in E. apply tv_cons in E as (o & r & -> & E1 & E2 & E). apply tv_cons in E as (tk & r2 & -> & E3 & E4 & E).
      destruct (label_run V c a l x role s tk o t R E2 E4 Hm) as (x1 & Hrn & En & R1 & Ad).
      apply (goes_quiet n (ELabel o tk) r2 x x1 ps (uses t)); [split; assumption|exact I|vis E2|exact Hrn|exact En|exact Ad|exact (G r2 x1 E R1 (free_after _ us x x1 Ad F))].
    - inversion Hnl as [|? ? N1 N2]; subst. destruct (IH N2) as (ts & Hl & G).
      exists ([(T_HORIZONTAL_RULE, lit "---")] ++ ts). split; [apply lexed_cons; [constructor|discriminate|exact Hl]|].
      intros toks x E R F. cbn [app] in E. apply tv_cons in E as (o & r & -> & E1 & E2 & E).
      apply (goes_new n (ERule o) r x V b (PRule a l) ps [] us V'); [exact E1|exact I|vis E2|discriminate|exact (rule_run V c a l x b o R Hb)|exact F|intros x1 R1 F1; exact (G r x1 E R1 F1)].
    - inversion Hnl as [|? ? N1 N2]; subst. destruct (IH N2) as (ts & Hl & G).
      exists ([(T_HEADER, EQ1 k); (T_TEXT, s)] ++ ts). split; [apply lexed_cons; [exact Hr|exact (reads_ne _ _ _ _ Hr ltac:(discriminate))|exact Hl]|].
      intros toks x E R F. cbn [app] in E. apply tv_cons in E as (o & r & -> & E1 & E2 & E). apply tv_cons in E as (tk & r2 & -> & E3 & E4 & E). rewrite <- E4 in Hm.
      assert (Hnu : names_of (uses t) = []) by (destruct (text_runs V t _ (origin_of tk) x Hm (rd_env _ _ _ _ _ R)) as (? & ? & ? & ? & _ & _ & _ & (_ & _ & _ & Hu & _)); exact Hu).
      rewrite app_assoc in F |- *.
      apply (goes_new n (EHeader o tk) r2 x V b (PHeading a l (S k) t) ps (uses t ++ name_use b a) us V'); [split; assumption|exact I|vis E2|discriminate| |exact F|intros x1 R1 F1; exact (G r2 x1 E R1 F1)].
      apply (heading_run V c a l x b k o tk t R E2 Hm Hb). apply free_part in F. destruct F as [[_ F] _]. rewrite names_of_app, Hnu in F. exact F.
    - apply Forall_app in Hnl as [N1 N2]. destruct (IH N2) as (ts' & Hl & G).
      exists (map (fun w => (T_TEXT, w)) ws ++ ts'). split; [exact (paragraph_lexed _ _ _ _ Hw _ Hl)|].
      intros toks x E R F. destruct (paragraph_tokens _ _ _ Hw _ _ _ E) as (body & rest & -> & E2 & F1 & F2 & F3).
      assert (Hbd : body <> []) by (intros ->; inversion F2; congruence).
      apply (goes_new n (EParagraph body) rest x V b (PParagraph a l ts) ps (concat (map uses ts)) us V'); [split; assumption| | |discriminate|exact (paragraph_run V c a l x b ts body R Hne F2 Hb)|exact F|intros x1 R1 F4; exact (G rest x1 E2 R1 F4)].
      + intros (t & r & -> & Et). destruct E2 as [E2 _]; cbn [map] in E2; refine (cut_tokens ls Hc N2 ts' (t_type t) (t_value t) _ Hl (eq_sym E2) Et).
      + intros u v Eu. cbn [tokens_of] in Eu. subst body. inversion F3; subst. left. assumption.
    - apply Forall_app in Hnl as [N1 N2]. destruct (IH N2) as (ts' & Hl & G).
      eexists. split; [exact (list_lexed _ _ _ Hw _ Hl)|].
      intros toks x E R F. destruct (list_tokens _ _ Hw _ _ _ E) as (items & rest & -> & E2 & E3 & F1).
      destruct (list_run (dp_run n cf) V c a l x b k o z t es m s qs items R He Ho Hk E3 Hb) as (Hx & it & its & Eit & Lv).
      apply (goes_acts n (EItems items) rest x V b (PList a l o (Item t :: es)) ps _ us V'); [split; [congruence|exact F1]| | |exact Hx|exact F|intros x1 R1 F4; exact (G rest x1 E2 R1 F4)].
      + exists it, its. split; [exact Eit|]. split; [exact Lv|]. destruct (list_cut_tokens ls Hc N2 ts' Hl) as (ty & r & Eu & Hty). rewrite Eu in E2.
        apply tv_cons in E2 as (tk & r2 & -> & K1 & K2 & _). exists tk, r2. split; [reflexivity|]. left. clear -K1 K2 Hty.
        unfold token_in, list_stops, existsb. unfold token_eqb. destruct tk as [ty' v' c']. cbn in K1, K2. subst. destruct Hty as [-> | ->]; reflexivity.
      + intros u v Eu. subst items. cbn [tokens_of flat_map app] in Eu. injection Eu as <- _. left.
        cbn [map] in E3. assert (Em : t_value (fst it) = m) by (injection E3 as E3 _ _; exact E3). rewrite Em. inversion He as [|? ? ? ? ? [_ M] _ _|]; subst. exact M.
    - inversion Hnl as [|? ? N1 N2]; subst. apply Forall_app in N2 as [Nw N2]. inversion N2 as [|? ? _ N3]; subst. destruct (IH N3) as (ts & Hl & G).
      eexists. split; [exact (lexed_block f ws ls (inl ts) Hc Hf Hl)|].
      intros toks x E R F. destruct (block_tokens _ _ _ _ _ E) as (o & ct & cl & rest & -> & E2 & Hsh & Eo & Hct).
      apply (goes_new (S n) (EBlock o ct cl) rest x V1 b (PBlock a l content) ps [] us V'); [exact Hsh|exact I|vis Eo|discriminate| |exact F|intros x1 R1 F1; exact (G rest x1 E2 R1 F1)].
      apply (block_run _ V V1 c); try assumption. exact (block_contains src n V content us1 ws V1 ct Hin (IHin Nw) Hlk Nw Hct).
    - inversion Hnl as [|? ? N1 N2]; subst. apply Forall_app in N2 as [Nw N2]. inversion N2 as [|? ? _ N3]; subst. destruct (IH N3) as (ts & Hl & G).
      eexists. split; [exact (lexed_block f ws ls (inl ts) Hc Hf Hl)|].
      intros toks x E R F. destruct (block_tokens _ _ _ _ _ E) as (o & ct & cl & rest & -> & E2 & Hsh & Eo & Hct).
      apply (goes_new n (EBlock o ct cl) rest x V b (PRaw a l ws) ps [] us V'); [exact Hsh|exact I|vis Eo|discriminate| |exact F|intros x1 R1 F1; exact (G rest x1 E2 R1 F1)].
      apply (raw_run _ V c); try assumption. destruct ct as [t|]; [destruct Hct as [[Hwn Et] _]|exact Hct].
      unfold token_truthy. destruct (t_value t) as [|ch tv'] eqn:Ev.
      + destruct (join_empty ws) as [K|K]; [congruence|exact K|congruence].
      + rewrite Et. apply split_join; assumption.
    - inversion Hnl as [|? ? N1 N2]; subst. apply Forall_app in N2 as [Nw N2]. inversion N2 as [|? ? _ N3]; subst. destruct (IH N3) as (ts & Hl & G).
      eexists. split; [exact (lexed_block f ws ls (inl ts) Hc Hf Hl)|].
      intros toks x E R F. destruct (block_tokens _ _ _ _ _ E) as (o & ct & cl & rest & -> & E2 & Hsh & Eo & Hct).
      apply (goes_new n (EBlock o ct cl) rest x V b (PSource a l cs) ps [] us V'); [exact Hsh|exact I|vis Eo|discriminate| |exact F|intros x1 R1 F1; exact (G rest x1 E2 R1 F1)].
      destruct ct as [t|]; [destruct Hct as [[_ Et] _]|congruence]. apply (source_run _ V c a l x b o t cl dl ws cs); try assumption.
      + unfold token_truthy. destruct (t_value t) eqn:Ev; [|reflexivity]. destruct (join_empty ws) as [K|K]; congruence.
      + rewrite Et. apply split_join; assumption.
    - inversion Hnl as [|? ? N1 N2]; subst. apply Forall_app in N2 as [Nw N2]. inversion N2 as [|? ? _ N3]; subst. destruct (IH N3) as (ts & Hl & G).
      eexists. split; [exact (lexed_block f ws ls (inl ts) Hc Hf Hl)|].
      intros toks x E R F. destruct (block_tokens _ _ _ _ _ E) as (o & ct & cl & rest & -> & E2 & Hsh & Eo & Hct).
      pose proof (block_contains src n V content us1 ws V1 ct Hin (IHin Nw) Hlk Nw Hct) as Hcn.
      pose proof (proj1 (proj1 (free_part [UBody name] us x F))) as Fn. cbn in Fn.
      destruct (footnote_run (dp_run (S n) cf) V V1 a l x o ct cl content name R Hen Hfn Hne Hi Hcn Fn) as (x1 & Hr & En & R1 & Ad).
      apply (goes_quiet (S n) (EBlock o ct cl) rest x x1 ps [UBody name]); [exact Hsh|exact I|vis Eo|exact Hr|exact En|exact Ad|exact (G rest x1 E2 R1 (free_after _ us x x1 Ad F))].
    - inversion Hnl as [|? ? N1 N2]; subst. apply (includes_readable src n V c a l b w what g (PInclude g l what) [] ps us ls V' Hi); [|exact (IH N2)]. intros x _. apply other_run; assumption.
    - inversion Hnl as [|? ? N1 N2]; subst. apply (includes_readable src n V c a l b w _ g (PImage g l) [] ps us ls V' Hi); [|exact (IH N2)]. intros x _. apply image_run; assumption.
    - inversion Hnl as [|? ? N1 N2]; subst. apply Forall_app in N2 as [Nw N2]. inversion N2 as [|? ? _ N3]; subst. destruct (IH N3) as (ts & Hl & G).
      eexists. split; [exact (lexed_block f ws ls (inl ts) Hc Hf Hl)|].
      intros toks x E R F. destruct (block_tokens _ _ _ _ _ E) as (o & ct & cl & rest & -> & E2 & Hsh & Eo & Hct).
      pose proof (block_contains src n V content us1 ws V1 ct Hin (IHin Nw) Hlk Nw Hct) as Hcn.
      pose proof (free_part [UItem g p] us x F) as (_ & (_ & Fn) & _). specialize (Fn g p (or_introl eq_refl)).
      destruct (placed_run (dp_run (S n) cf) V V1 a l x o ct cl content g p R Hen Hfn Hg Hgn Hp Hpn His Hcn Fn) as (x1 & Hr & En & R1 & Ad).
      apply (goes_quiet (S n) (EBlock o ct cl) rest x x1 ps [UItem g p]); [exact Hsh|exact I|vis Eo|exact Hr|exact En|exact Ad|exact (G rest x1 E2 R1 (free_after _ us x x1 Ad F))].
    - inversion Hnl as [|? ? N1 N2]; subst. apply (includes_readable src n V c a l b w _ g (PGroup g l name) [UGroup name] ps us ls V' Hi); [|exact (IH N2)]. intros x _. apply group_run; assumption.
    - inversion Hnl as [|? ? N1 N2]; subst. apply (includes_readable src n V c a l b w _ g (PLines g l name ws) [] ps us ls V' Hi); [|exact (IH N2)]. intros x _. apply lines_run; assumption.
    - inversion Hnl as [|? ? N1 N2]; subst. apply (includes_readable src (S n) V c a l b w _ g (PFile g l name content) (UFile src name :: loads us1) ps us ls V' Hi); [|exact (IH N2)].
      intros x Fx. apply (file_run src n V c l g b name (join [NL] ws) W content us1 W1 x); try assumption. exact (file_readable _ _ _ _ _ _ _ Hin (IHin Hnw) Hnw).
  Qed.
End Pages.
