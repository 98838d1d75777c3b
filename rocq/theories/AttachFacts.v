(* AttachFacts.v -- arguments and conditions in the actions of the elements *)
From Verif Require Export RunFacts SpecAttach.
From Verif Require Import PropertiesDoc.

(* ------------------------------------------------------------ arguments *)
Lemma part_refl a : part_of a a.
Proof. unfold part_of. split; [reflexivity|]. split; [reflexivity|]. split; [reflexivity|]. split; [auto|]. split; [apply incl_refl|auto]. Qed.
Lemma part_trans a b c : part_of a b -> part_of b c -> part_of a c.
Proof.
  intros (T1 & I1 & S1 & N1 & U1 & K1) (T2 & I2 & S2 & N2 & U2 & K2). unfold part_of. split; [congruence|]. split; [congruence|]. split; [congruence|]. split.
  - intros k v H. destruct (N1 k v H) as [H1|H1]; [exact (N2 k v H1)|right; exact (U2 v H1)].
  - split; [exact (incl_tran U1 U2)|]. intros k Hk. rewrite (K1 k Hk). exact (K2 k Hk).
Qed.
Lemma in_ddel {A} k (v : A) j d : In (k, v) (ddel j d) -> In (k, v) d.
Proof. induction d as [|[a w] d IH]; cbn; [auto|]. destruct (str_eqb j a); [auto|]. intros [E|H]; auto. Qed.
Lemma dget_ddel_ne {A} k j (d : dict A) : k <> j -> dget k (ddel j d) = dget k d.
Proof.
  intros Hn. induction d as [|[a w] d IH]; [reflexivity|]. cbn. destruct (str_eqb_spec j a) as [->|Hj].
  - destruct (str_eqb_spec k a) as [->|_]; [congruence|reflexivity].
  - cbn. destruct (str_eqb k a); [reflexivity|exact IH].
Qed.
Lemma in_dset {A} k (v : A) j w d : In (k, v) (dset j w d) -> (k = j /\ v = w) \/ In (k, v) d.
Proof.
  induction d as [|[a u] d IH]; cbn [dset]; [intros [E|[]]; injection E as -> ->; auto|].
  destruct (str_eqb_spec j a) as [->|Hj]; cbn [In]; intros [E|H]; auto.
  - injection E as -> ->. auto.
  - destruct (IH H); auto.
Qed.
Lemma in_dupd {A} k (v : A) e : forall d, In (k, v) (dupd d e) -> In (k, v) d \/ In (k, v) e.
Proof.
  induction e as [|[j w] e IH]; intros d H; [left; exact H|]. cbn in H. apply IH in H as [H|H]; [|right; right; exact H].
  apply in_dset in H as [[-> ->]|H]; [right; left; reflexivity|left; exact H].
Qed.
Lemma dget_dupd_out {A} k (d e : dict A) : ~ In k (keys e) -> dget k (dupd d e) = dget k d.
Proof.
  intros H. rewrite dget_dupd_rev. rewrite (proj2 (dget_none k (rev e))); [reflexivity|]. unfold keys. rewrite map_rev. intros K. apply H, in_rev, K.
Qed.
Ltac used := unfold used_keys; cbn [map]; repeat first [left; reflexivity|right].
Lemma pop_part a k : In k used_keys -> part_of (snd (pop_arg a k)) a.
Proof.
  intros Hk. unfold part_of, pop_arg. cbn [snd na_tags na_internal na_subtype na_named na_unnamed]. split; [reflexivity|]. split; [reflexivity|]. split; [reflexivity|].
  split; [intros j v H; left; exact (in_ddel _ _ _ _ H)|]. split; [apply incl_refl|]. intros j [Hj _]. apply dget_ddel_ne. intros ->. exact (Hj Hk).
Qed.
Lemma set_names_other a names k : ~ In k names -> dget k (na_named (args_set_names a names)) = dget k (na_named a).
Proof.
  intros H. unfold args_set_names, set_names. cbn [na_named]. apply dget_dupd_out. intros K. apply H. apply in_map_iff in K as ([k' v] & E & K). cbn in E. subst k'.
  apply in_dupd in K as [[]|K]. apply in_combine_l in K. apply filter_In in K as [K _]. exact K.
Qed.
Lemma set_names_part a names : incl names used_keys -> part_of (args_set_names a names) a.
Proof.
  intros Hn. unfold part_of. split; [reflexivity|]. split; [reflexivity|]. split; [reflexivity|]. split; [|split].
  3: { intros k [Hk _]. apply set_names_other. intros K. exact (Hk (Hn _ K)). }
  all: unfold args_set_names, set_names; cbn [na_named na_unnamed].
  - intros k v H. apply in_dupd in H as [H|H]; [auto|]. right. apply in_dupd in H as [[]|H]. exact (in_combine_r _ _ _ _ H).
  - intros v H. rewrite <- (firstn_skipn (length (filter (fun n => negb (dmem n (na_named a))) names)) (na_unnamed a)). apply in_or_app. right. exact H.
Qed.
Lemma pop_other a k j : k <> j -> dget k (na_named (snd (pop_arg a j))) = dget k (na_named a).
Proof. intros H. apply dget_ddel_ne, H. Qed.

Lemma incl_used names : Forall (fun k => In k used_keys) names -> incl names used_keys.
Proof. intros H k. rewrite Forall_forall in H. apply H. Qed.
Ltac used_all := repeat (apply Forall_cons; [used|]); apply Forall_nil.

(* a source block uses some arguments *)
Lemma source_args e t a lg ls a' : source_block e t a = Ok (lg, ls, a') ->
  part_of a' a /\ forall k, ~ In k [lit "marker_delimiter"; lit "highlight_marker"; lit "highlight_default_style"; lit "language"] -> dget k (na_named a') = dget k (na_named a).
Proof.
  unfold source_block. cbn [pop_arg]. intros H. destruct (style_aliases e) as [al|]; [|discriminate H]. cbn [rbind] in H.
  destruct (for_each _ _) as [lines|]; [|discriminate H]. cbn [rbind] in H. apply Ok_inv in H.
  match type of H with (_, _, ?A) = _ => assert (E : a' = A) by (injection H; intros; congruence) end. subst a'. clear H.
  set (a1 := snd (pop_arg a (lit "marker_delimiter"))). set (a2 := snd (pop_arg a1 (lit "highlight_marker"))).
  set (a3 := snd (pop_arg a2 (lit "highlight_default_style"))). set (a4 := args_set_names a3 [lit "language"]).
  change (part_of (snd (pop_arg a4 (lit "language"))) a /\ forall k, ~ In k [lit "marker_delimiter"; lit "highlight_marker"; lit "highlight_default_style"; lit "language"] ->
    dget k (na_named (snd (pop_arg a4 (lit "language")))) = dget k (na_named a)).
  split.
  - eapply part_trans; [apply pop_part; used|]. eapply part_trans; [apply set_names_part, incl_used; used_all|]. eapply part_trans; [apply pop_part; used|].
    eapply part_trans; [apply pop_part; used|]. apply pop_part; used.
  - intros k Hk. cbn [In] in Hk. rewrite pop_other by intuition congruence. unfold a4. rewrite set_names_other by (cbn [In]; intuition congruence).
    unfold a3. rewrite pop_other by intuition congruence. unfold a2. rewrite pop_other by intuition congruence. unfold a1. rewrite pop_other by intuition congruence. reflexivity.
Qed.
Lemma block_args_part x : part_of (block_args x) (args_or (dx_args x)).
Proof. unfold block_args. eapply part_trans; apply pop_part; used. Qed.
Lemma block_args_other x k : k <> lit "classes" -> k <> lit "engine" -> dget k (na_named (block_args x)) = dget k (na_named (args_or (dx_args x))).
Proof. intros H K. unfold block_args. rewrite !pop_other by assumption. reflexivity. Qed.
Lemma pending_args x k : pending_arg x k = dget (lit k) (na_named (args_or (dx_args x))).
Proof. unfold pending_arg. destruct (dx_args x); reflexivity. Qed.

Section Engine.
  Context (cf : config) (run : run_fn) (run_ok : forall e n d f t o, fine_res (run e n d f t o)).
  Lemma engine_args en ctx c cl a x node a' nctx z : runs (dp_engine run en ctx c cl a) x (node, a', nctx) z ->
    part_of a' a /\ (forall at_, node_attrs (node at_) = (at_args at_, at_labels at_) /\ a_block (node at_)) /\
    forall k, ~ In k [lit "marker_delimiter"; lit "highlight_marker"; lit "highlight_default_style"; lit "language"] -> dget k (na_named a') = dget k (na_named a).
  Proof.
    intros H. unfold dp_engine in H. destruct (str_eqb en (lit "default")).
    { apply runs_bind_inv in H as (nodes & y & H1 & H); [|apply default_engine_quiet, run_ok]. apply runs_ret in H as [E _]. injection E as -> -> _.
      split; [apply part_refl|split; [intros at_; split; [reflexivity|exact I]|auto]]. }
    destruct (str_eqb en (lit "raw")); [apply runs_ret in H as [E _]; injection E as -> -> _; split; [apply part_refl|split; [intros at_; split; [reflexivity|exact I]|auto]]|].
    destruct (str_eqb en (lit "source")); [|destruct (runs_raise _ _ _ _ H)].
    destruct c as [t|]; [|apply runs_ret in H as [E _]; injection E as -> -> _; split; [apply part_refl|split; [intros at_; split; [reflexivity|exact I]|auto]]].
    destruct (token_truthy t); [|apply runs_ret in H as [E _]; injection E as -> -> _; split; [apply part_refl|split; [intros at_; split; [reflexivity|exact I]|auto]]].
    apply runs_pget in H. apply runs_lift in H as ([[lg ls] a2] & Es & H). apply runs_ret in H as [E _]. injection E as -> -> _.
    apply source_args in Es as [P Q]. split; [exact P|]. split; [split; [reflexivity|exact I]|exact Q].
  Qed.
  Lemma dget_filter {A} (f : str * A -> bool) k d : (forall v, f (k, v) = true) -> dget k (filter f d) = dget k d.
  Proof.
    intros H. induction d as [|[j w] d IH]; [reflexivity|]. cbn [filter dget]. destruct (str_eqb_spec k j) as [->|Hn].
    - rewrite H. cbn [dget]. rewrite str_eqb_refl. reflexivity.
    - destruct (f (j, w)); cbn [dget]; [|exact IH]. destruct (str_eqb_spec k j); [contradiction|exact IH].
  Qed.
  Lemma filter_part a : part_of (mkArgs (na_unnamed a) (filter (fun kv : str * str => negb (startswith CALL (fst kv))) (na_named a)) (na_tags a) (na_internal a) (na_subtype a)) a.
  Proof.
    unfold part_of. cbn [na_tags na_internal na_subtype na_named na_unnamed]. split; [reflexivity|]. split; [reflexivity|]. split; [reflexivity|].
    split; [intros k v H; apply filter_In in H as [H _]; auto|]. split; [apply incl_refl|]. intros k [_ Hk]. apply dget_filter. intros v. cbn [fst].
    change CALL with (lit "call:"). rewrite Hk. reflexivity.
  Qed.
  Lemma mau_node_args a ctx x node a' z : runs (dp_mau cf run a ctx) x (node, a') z -> part_of a' a.
  Proof.
    intros H. unfold dp_mau in H. cbn [pop_arg] in H. apply runs_need_uri in H as (uri & Eu & _ & H). apply runs_pmod in H. apply runs_pget in H.
    destruct (source_in _ _) eqn:Es; [destruct (runs_raise _ _ _ _ H)|]. cbv zeta in H. apply runs_pmod in H. apply runs_read in H as (text & Et & H).
    apply runs_pget in H. apply runs_bind_inv in H as (e & y & H1 & H); [|destruct (str_eqb _ _); [apply quiet_lift, nest_env_fine|quiet]].
    apply runs_lift in H as (y2 & Ey & H). apply runs_pmod in H. apply runs_ret in H as [E _]. injection E as _ ->.
    eapply part_trans; [apply (filter_part (mau_args a))|]. unfold mau_args. eapply part_trans; [apply pop_part; used|]. eapply part_trans; [apply pop_part; used|]. apply set_names_part, incl_used; used_all.
  Qed.
  Lemma include_args ty ctx a x node a' z : runs (include_node cf run ty ctx a) x (node, a') z ->
    part_of a' a /\ forall at_, node_attrs (node at_) = (at_args at_, at_labels at_).
  Proof.
    intros H. unfold include_node in H. destruct (str_eqb _ _).
    { unfold dp_image in H. cbn [pop_arg] in H. apply runs_need_uri in H as (uri & _ & _ & H). apply runs_ret in H as [E _]. injection E as -> ->.
      split; [|reflexivity].
      match goal with |- part_of ?A a => change A with (snd (pop_arg (snd (pop_arg (snd (pop_arg (args_set_names a [lit "uri"; lit "alt_text"; lit "classes"]) (lit "uri"))) (lit "alt_text"))) (lit "classes"))) end.
      eapply part_trans; [apply pop_part; used|]. eapply part_trans; [apply pop_part; used|]. eapply part_trans; [apply pop_part; used|]. apply set_names_part, incl_used; used_all. }
    destruct (str_eqb _ _).
    { split; [exact (mau_node_args _ _ _ _ _ _ H)|]. apply mau_inv in H as (uri & text & e & y & _ & _ & _ & _ & _ & -> & _). reflexivity. }
    destruct (str_eqb _ _).
    { unfold dp_include_raw in H. cbn [pop_arg] in H. apply runs_need_uri in H as (uri & _ & _ & H). apply runs_read in H as (t & _ & H).
      apply runs_ret in H as [E _]. injection E as -> ->. split; [|reflexivity].
      match goal with |- part_of ?A a => change A with (snd (pop_arg (args_set_names a [lit "uri"]) (lit "uri"))) end.
      eapply part_trans; [apply pop_part; used|]. apply set_names_part, incl_used; used_all. }
    destruct (str_eqb _ _).
    { apply runs_bind_inv in H as (f & y & H1 & H); [|unfold dp_toc; apply quiet_bind; [apply fresh_quiet|]; intros id; quiet].
      unfold dp_toc in H1. apply runs_fresh in H1. apply runs_pmod in H1. apply runs_ret in H1 as [-> ->]. apply runs_ret in H as [E _]. injection E as -> ->.
      split; [apply part_refl|reflexivity]. }
    destruct (str_eqb _ _).
    { apply runs_bind_inv in H as (f & y & H1 & H); [|unfold dp_footnotes; apply quiet_bind; [apply fresh_quiet|]; intros id; quiet].
      unfold dp_footnotes in H1. apply runs_fresh in H1. apply runs_pmod in H1. apply runs_ret in H1 as [-> ->]. apply runs_ret in H as [E _]. injection E as -> ->.
      split; [apply part_refl|reflexivity]. }
    destruct (str_eqb _ _); [|apply runs_ret in H as [E _]; injection E as -> ->; split; [apply part_refl|reflexivity]].
    unfold dp_blockgroup in H. cbn [pop_arg] in H. destruct (dget (lit "group") _) as [g|]; [|destruct (runs_raise _ _ _ _ H)].
    apply runs_fresh in H. apply runs_pmod in H. apply runs_ret in H as [E _]. injection E as -> ->. split; [|reflexivity].
    match goal with |- part_of ?A a => change A with (snd (pop_arg (args_set_names a [lit "group"]) (lit "group"))) end.
    eapply part_trans; [apply pop_part; used|]. apply set_names_part, incl_used; used_all.
  Qed.
End Engine.

(* ------------------------------------------------------------ conditions *)
Lemma run_control_holds e c b : run_control e c = Ok b -> (b = true <-> holds e c).
Proof.
  unfold run_control, holds. destruct (dget (ct_variable c) e) as [v|]; [|discriminate]. intros H. apply Ok_inv in H.
  assert (V : value_is v (ct_value c) = true <-> v = EStr (ct_value c)).
  { destruct v as [s| | |]; cbn; [|split; discriminate..]. split; [intros E; apply str_eqb_eq in E; congruence|intros [= ->]; apply str_eqb_refl]. }
  destruct (ct_equal c).
  - rewrite <- H, V. split; [intros ->; eexists; split; [reflexivity|tauto]|intros (w & [= <-] & W); tauto].
  - destruct (value_is v (ct_value c)); subst b; cbn [negb].
    + split; [discriminate|]. intros (w & [= <-] & W). assert (false = true) by tauto. discriminate.
    + split; [|reflexivity]. intros _. eexists. split; [reflexivity|]. split; [discriminate|]. intros E. apply V in E. discriminate E.
Qed.
Lemma admitted_allowed x ok : admitted x ok -> (ok = true <-> allowed x (dx_env x)).
Proof.
  unfold admitted, allowed. destruct (dx_control x) as [c|]; [apply run_control_holds|]. intros ->. tauto.
Qed.
