(* PropertiesEnv.v -- C14 to C19: configuration environments and positional names *)
From Verif Require Import EnvFacts NodeArgs.

(* ------------------------------------------------------------------ C14 *)
(* A nested dictionary whose keys are distinct and have no dot, at every level. *)
Inductive nested : env_val -> Prop :=
| nested_str s : nested (EStr s)
| nested_list l : nested (EList l)
| nested_other i : nested (EOther i)
| nested_dict d : NoDup (map fst d) ->
    (forall k v, In (k, v) d -> no_chr DOT k /\ nested v) -> nested (EDict d).

Lemma nested_wf : forall v, nested v -> wf_val v.
Proof.
  induction v as [| | |d IH] using env_val_ind'; intros H; try (apply wf_leaf; exact I).
  inversion H as [| | |x Hn Hk]; subst. apply wf_dict, wf_dict_iff. split; [exact Hn|].
  rewrite Forall_forall in *. intros [k v] Hin. destruct (Hk k v Hin) as [H1 H2]. split; [exact H1|].
  apply (IH (k, v) Hin H2).
Qed.

Theorem C14_nest_flatten d : nested (EDict d) -> ~ In [] (map fst d) ->
  nest_flattened_dict (flatten_nested_dict [] d) = Ok d.
Proof.
  intros H Hk. apply nested_wf in H. assert (Hw : wf_dict_ d).
  { inversion H as [v Hl|x Hx]; subst; [|exact Hx]. destruct d; [constructor|destruct Hl]. }
  apply nest_flatten; [exact Hw|]. apply Forall_forall. intros [k v] Hin. left. cbn. intros ->.
  apply Hk. apply (in_map fst) in Hin. exact Hin.
Qed.

(* The same through the class: Environment.from_dict(d).asdict() == d. *)
Theorem C14_from_dict_asdict d : nested (EDict d) -> ~ In [] (map fst d) ->
  env_asdict (env_from_dict d None) = Ok d.
Proof.
  intros H Hk. unfold env_asdict, env_from_dict, env_dupdate, env_empty.
  assert (Hw : wf_dict_ d).
  { pose proof (nested_wf _ H) as K. inversion K as [v Hl|x Hx]; subst; [|exact Hx]. destruct d; [constructor|destruct Hl]. }
  rewrite dupd_nil; [apply C14_nest_flatten; assumption|].
  unfold flatten_nested_dict. assert (K : forall acc, NoDup (keys acc) ->
    NoDup (keys (fold_left (fun flat kv => dupd flat (flat_value (child_key [] (fst kv)) (snd kv))) d acc))).
  { clear. induction d as [|kv d IH]; intros acc Ha; [exact Ha|]. cbn. apply IH, dupd_nodup, Ha. }
  apply K. constructor.
Qed.

Example C14_ex : let d := [(lit "mau", EDict [(lit "a", EStr (lit "1")); (lit "b", EDict []); (lit "", EDict [(lit "c", EList [])])]);
                           (lit "x", EOther (lit "3"))] in nested (EDict d) /\ ~ In [] (map fst d) /\
  keys (flatten_nested_dict [] d) = [lit "mau.a"; lit "mau.b"; lit "mau..c"; lit "x"].
Proof.
  assert (K : forall l : list str, NoDup l <-> NoDup l) by tauto.
  cbn zeta. split; [|split; [cbn; intuition discriminate|reflexivity]].
  repeat match goal with
  | |- nested (EDict _) => apply nested_dict
  | |- nested _ => constructor
  | |- NoDup _ => repeat constructor; cbn; intuition discriminate
  | |- forall k v, In _ _ -> _ => let k := fresh in let v := fresh in let H := fresh in intros k v H; cbn in H;
      repeat (destruct H as [H|H]; [injection H as <- <-; split; [intros K1; vm_compute in K1; intuition discriminate|]|]); try contradiction
  end.
Qed.

(* ------------------------------------------------------------------ C15 *)
(* Same answer to Environment.get: equal values, or environments with the same variables. *)
Definition same_answer (a b : env_found) : Prop :=
  match a, b with
  | FVal v, FVal w => v = w
  | FEnv d, FEnv e => forall k, env_item d k = env_item e k
  | FDefault, FDefault => True
  | _, _ => False
  end.

(* No variable is a namespace of another one, none starts with a dot. *)
Definition prefix_free (e : env) : Prop :=
  (forall k k', In k (keys e) -> In k' (keys e) -> ~ exists r, k' = k ++ [DOT] ++ r) /\
  (forall k, In k (keys e) -> ~ exists r, k = [DOT] ++ r).

Lemma removeprefix_inj p a b : startswith p a = true -> startswith p b = true -> removeprefix p a = removeprefix p b -> a = b.
Proof.
  intros Ha Hb. apply startswith_spec in Ha as [r ->]. apply startswith_spec in Hb as [s ->].
  rewrite !removeprefix_app. congruence.
Qed.

Lemma ns_items (e : env) p : flat_env e -> forall acc,
  let found := filter (fun kv => startswith p (fst kv)) e in
  fold_left (fun d kv => dset (removeprefix p (fst kv)) (snd kv) d) found acc =
  dupd acc (map (fun kv => (removeprefix p (fst kv), snd kv)) found).
Proof.
  intros He acc found. clearbody found. revert acc. induction found as [|kv f IH]; intros acc; [reflexivity|].
  cbn [fold_left map]. rewrite IH. reflexivity.
Qed.

Lemma ns_nodup (e : env) p : NoDup (keys e) ->
  NoDup (keys (map (fun kv => (removeprefix p (fst kv), snd kv)) (filter (fun kv => startswith p (fst kv)) e))).
Proof.
  unfold keys. rewrite map_map. cbn [fst]. induction e as [|[k v] e IH]; intros H; [constructor|].
  inversion H as [|x y Hx Hy]; subst. cbn [filter fst]. destruct (startswith p k) eqn:E; [|auto].
  cbn [map fst]. constructor; [|auto]. intros Hin. apply in_map_iff in Hin as ([k' v'] & Eq & Hin).
  apply filter_In in Hin as [Hin Hs]. cbn in *. apply removeprefix_inj in Eq; auto. subst. apply Hx.
  apply (in_map fst) in Hin. exact Hin.
Qed.

Lemma ns_dget (e : env) p k : NoDup (keys e) ->
  dget k (map (fun kv => (removeprefix p (fst kv), snd kv)) (filter (fun kv => startswith p (fst kv)) e)) = dget (p ++ k) e.
Proof.
  intros H. induction e as [|[a v] e IH]; [reflexivity|]. inversion H as [|x y Hx Hy]; subst.
  cbn [filter fst]. destruct (startswith p a) eqn:E.
  - apply startswith_spec in E as [r ->]. cbn [map fst snd dget]. rewrite removeprefix_app, IH by exact Hy.
    destruct (str_eqb_spec k r) as [->|Hn]; [rewrite str_eqb_refl; reflexivity|].
    destruct (str_eqb_spec (p ++ k) (p ++ r)) as [Eq|_]; [apply app_inv_head in Eq; congruence|reflexivity].
  - cbn [dget]. rewrite IH by exact Hy. destruct (str_eqb_spec (p ++ k) a) as [<-|_]; [|reflexivity].
    rewrite startswith_app in E. discriminate.
Qed.

Lemma env_get_ns (e : env) k sub : flat_env e -> env_get e k = FEnv sub ->
  flat_env sub /\ forall q, dget q sub = dget (k ++ [DOT] ++ q) e.
Proof.
  intros He. unfold env_get. destruct (dget k e); [discriminate|]. set (p := k ++ [DOT]).
  destruct (filter (fun kv => startswith p (fst kv)) e) as [|kv f] eqn:Ef; [discriminate|].
  rewrite <- Ef. rewrite (ns_items e p He []). rewrite dupd_nil by (apply ns_nodup, He). intros H. injection H as <-.
  set (m := map _ _).
  assert (Hm : flat_env m).
  { split; [apply ns_nodup, He|]. unfold m. rewrite Forall_map. cbn [snd]. apply Forall_forall.
    intros x Hx. apply filter_In in Hx as [Hx _]. destruct He as [_ He]. rewrite Forall_forall in He. exact (He x Hx). }
  rewrite from_dict_flat by exact Hm. split; [exact Hm|]. intros q. unfold m. rewrite ns_dget by apply He.
  unfold p. rewrite <- app_assoc. reflexivity.
Qed.

Lemma env_get_default (e : env) k : env_get e k = FDefault ->
  dget k e = None /\ forall q, dget (k ++ [DOT] ++ q) e = None.
Proof.
  unfold env_get. destruct (dget k e) eqn:E; [discriminate|].
  destruct (filter (fun kv => startswith (k ++ [DOT]) (fst kv)) e) as [|kv f] eqn:Ef; [|discriminate].
  intros _. split; [reflexivity|]. intros q. apply dget_none. intros Hin.
  apply in_map_iff in Hin as ([a v] & Ea & Hin). cbn in Ea. subst a.
  assert (Hf : In (k ++ [DOT] ++ q, v) (filter (fun kv => startswith (k ++ [DOT]) (fst kv)) e)).
  { apply filter_In. split; [exact Hin|]. cbn [fst]. rewrite app_assoc. apply startswith_app. }
  rewrite Ef in Hf. destruct Hf.
Qed.

Lemma env_get_val (e : env) k v : env_get e k = FVal v <-> dget k e = Some v.
Proof.
  unfold env_get. destruct (dget k e); [split; congruence|].
  destruct (filter _ e); split; discriminate.
Qed.

Lemma same_lookups (a b : env) : flat_env a -> flat_env b -> (forall k, dget k a = dget k b) ->
  forall k, same_answer (env_get a k) (env_get b k).
Proof.
  intros Ha Hb H k.
  assert (Hns : forall x y : env, flat_env x -> flat_env y -> (forall k, dget k x = dget k y) ->
            forall sub, env_get x k = FEnv sub -> env_get y k <> FDefault).
  { intros x y Hx Hy Hxy sub Hs Hd. destruct (env_get_default _ _ Hd) as [_ K].
    unfold env_get in Hs. destruct (dget k x) eqn:E; [discriminate|].
    destruct (filter (fun kv => startswith (k ++ [DOT]) (fst kv)) x) as [|[q v] f] eqn:Ef; [discriminate|].
    assert (Hin : In (q, v) (filter (fun kv => startswith (k ++ [DOT]) (fst kv)) x)) by (rewrite Ef; left; reflexivity).
    apply filter_In in Hin as [Hin Hq]. cbn in Hq. apply startswith_spec in Hq as [r ->].
    rewrite <- app_assoc in Hin. specialize (K r).
    apply in_dget in Hin; [|apply Hx]. rewrite Hxy in Hin. congruence. }
  destruct (env_get a k) as [v|sa|] eqn:Ea.
  - apply env_get_val in Ea. rewrite H in Ea. apply env_get_val in Ea. rewrite Ea. reflexivity.
  - destruct (env_get b k) as [w|sb|] eqn:Eb.
    + apply env_get_val in Eb. rewrite <- H in Eb. apply env_get_val in Eb. congruence.
    + cbn. intros q. unfold env_item. rewrite (proj2 (env_get_ns _ _ _ Ha Ea)), (proj2 (env_get_ns _ _ _ Hb Eb)), H. reflexivity.
    + exact (Hns a b Ha Hb H sa Ea Eb).
  - destruct (env_get b k) as [w|sb|] eqn:Eb.
    + apply env_get_val in Eb. rewrite <- H in Eb. apply env_get_val in Eb. congruence.
    + apply (Hns b a Hb Ha) in Eb; [congruence|]. intros q; symmetry; apply H.
    + exact I.
Qed.

Theorem C15_from_environment_preserves e : flat_env e -> prefix_free e ->
  exists e', env_from_environment e None = Ok e' /\
    (forall k, env_item e' k = env_item e k) /\
    (forall k, same_answer (env_get e' k) (env_get e k)).
Proof.
  intros He [H1 H2]. destruct (from_environment_perm e He) as (e' & E1 & E2).
  - intros k k' A B [r C]. apply (H1 k k' A B). exists r; exact C.
  - intros k Hk. destruct (startswith [DOT] k) eqn:E; [|reflexivity]. apply startswith_spec in E as [r E].
    exfalso. apply (H2 k Hk). exists r; exact E.
  - assert (Hn : NoDup (keys e')) by (eapply Permutation_NoDup; [apply Permutation_map, Permutation_sym, E2|apply He]).
    assert (Hd : forall k, dget k e' = dget k e) by (intros k; apply dget_perm; assumption).
    exists e'. split; [exact E1|]. split.
    + intros k. unfold env_item. rewrite Hd. reflexivity.
    + apply same_lookups; [|exact He|exact Hd]. split; [exact Hn|].
      eapply Permutation_Forall; [apply Permutation_sym, E2|apply He].
Qed.

(* Outside that domain, some variable is lost or asdict raises: the condition is
   also necessary. *)
Lemma flat_value_no_dot v : wf_val v -> forall key, startswith [DOT] key = false ->
  forall k, In k (keys (flat_value key v)) -> startswith [DOT] k = false.
Proof.
  assert (Hd : forall (a b : dict env_val) k, In k (keys (dupd a b)) -> In k (keys a) \/ In k (keys b)).
  { intros a b k H. destruct (dget k (dupd a b)) eqn:E; [|apply dget_none in E; contradiction].
    rewrite dget_dupd_rev in E. destruct (dget k (rev b)) eqn:E2.
    - right. apply dget_in, in_rev, (in_map fst) in E2. exact E2.
    - left. apply dget_in, (in_map fst) in E. exact E. }
  induction v as [| | |d IH] using env_val_ind'; intros Hw key Hk k;
    try (intros [<-|[]]; exact Hk).
  destruct d as [|kv d]; [intros [<-|[]]; exact Hk|].
  assert (Hwd : wf_dict_ (kv :: d)) by (inversion Hw; subst; [destruct H|assumption]).
  change (flat_value key (EDict (kv :: d))) with
      (fold_left (fun flat kv => dupd flat (flat_value (child_key key (fst kv)) (snd kv))) (kv :: d) []).
  assert (G : forall acc, (forall k, In k (keys acc) -> startswith [DOT] k = false) ->
    forall k, In k (keys (fold_left (fun flat kv => dupd flat (flat_value (child_key key (fst kv)) (snd kv))) (kv :: d) acc)) ->
    startswith [DOT] k = false).
  { clear Hw k. induction Hwd as [|a v l Ha Hl Hv Hwl IHl]; intros acc Hacc k; [apply Hacc|].
    inversion IH as [|x y I1 I2]; subst. cbn [fold_left fst snd]. apply (IHl I2).
    intros q Hq. apply Hd in Hq as [Hq|Hq]; [apply Hacc, Hq|].
    revert Hq. apply (I1 Hv). unfold child_key. destruct key as [|c key].
    - destruct a as [|b a]; [reflexivity|]. cbn [startswith]. destruct (N.eqb_spec DOT b) as [<-|]; [|reflexivity].
      exfalso. apply Ha. left; reflexivity.
    - exact Hk. }
  apply (G []). intros q [].
Qed.

Lemma flatten_no_dot d : wf_dict_ d -> forall k, In k (keys (flatten_nested_dict [] d)) -> startswith [DOT] k = false.
Proof.
  intros Hw k. destruct d as [|kv d]; [intros []|].
  change (flatten_nested_dict [] (kv :: d)) with (flat_value [] (EDict (kv :: d))).
  apply flat_value_no_dot; [apply wf_dict, Hw|reflexivity].
Qed.

Lemma wf_dset k v d : no_chr DOT k -> wf_val v -> wf_dict_ d -> wf_dict_ (dset k v d).
Proof.
  rewrite !wf_dict_iff. intros Hk Hv [H1 H2]. split; [apply dset_nodup, H1|]. clear H1.
  induction H2 as [|[a w] d Ha Hd IH]; cbn; [constructor; [split; assumption|constructor]|].
  destruct (str_eqb_spec k a) as [->|]; constructor; auto.
Qed.

Lemma split_into_wf p : dotfree p -> forall v d d', is_leaf v -> wf_dict_ d -> split_into p v d = Ok d' ->
  wf_dict_ d' /\ (p <> [] -> d' <> []).
Proof.
  induction p as [|k p IH]; intros Hp v d d' Hv Hd; [intros [= <-]; split; [exact Hd|congruence]|].
  inversion Hp as [|x y Hk Hp']; subst.
  assert (Hne : forall u, dset k u d <> []) by (intros u; destruct d as [|[a w] d]; cbn; [|destruct (str_eqb k a)]; discriminate).
  destruct p as [|k2 p].
  - cbn [split_into]. intros [= <-]. split; [apply wf_dset; auto; apply wf_leaf, Hv|intros _; apply Hne].
  - rewrite split_into_cons by discriminate.
    assert (Hstep : forall d0, wf_dict_ d0 -> (let? d1 := split_into (k2 :: p) v d0 in Ok (dset k (EDict d1) d)) = Ok d' ->
       wf_dict_ d' /\ (k :: k2 :: p <> [] -> d' <> [])).
    { intros d0 H0 H. apply rbind_ok in H as (d1 & H1 & H2). injection H2 as <-.
      destruct (IH Hp' v d0 d1 Hv H0 H1) as [W _]. split; [apply wf_dset; auto; apply wf_dict, W|intros _; apply Hne]. }
    destruct (dget k d) as [[| | |d0]|] eqn:E; try discriminate.
    + apply Hstep. apply dget_in in E. apply wf_dict_iff in Hd as [_ Hd]. rewrite Forall_forall in Hd.
      destruct (Hd _ E) as [_ W]. cbn in W. inversion W as [x Hl|x Hx]; subst; [|exact Hx].
      destruct d0; [constructor|destruct Hl].
    + apply Hstep. constructor.
Qed.

Lemma top_ok_dset k v d : (k <> [] \/ is_leaf v) -> top_ok d -> top_ok (dset k v d).
Proof.
  unfold top_ok. intros Hk Hd. induction Hd as [|[a w] d Ha Hd IH]; cbn; [constructor; [exact Hk|constructor]|].
  destruct (str_eqb_spec k a) as [->|]; constructor; auto.
Qed.

Lemma split_into_top p v d d' : is_leaf v -> (forall r, p = [] :: r -> r = []) -> top_ok d ->
  split_into p v d = Ok d' -> top_ok d'.
Proof.
  intros Hv Hp Hd. destruct p as [|k [|k2 p]]; [intros [= <-]; exact Hd|intros [= <-]; apply top_ok_dset; auto|].
  assert (Hk : k <> []) by (intros ->; specialize (Hp _ eq_refl); discriminate).
  rewrite split_into_cons by discriminate.
  destruct (dget k d) as [[| | |d0]|]; try discriminate; intros H; apply rbind_ok in H as (d1 & _ & H);
    injection H as <-; apply top_ok_dset; auto.
Qed.

Lemma nest_wf e : Forall (fun kv => is_leaf (snd kv)) e -> forall d d', wf_dict_ d -> nest_items e d = Ok d' ->
  wf_dict_ d' /\ ((forall k, In k (keys e) -> startswith [DOT] k = false) -> top_ok d -> top_ok d').
Proof.
  induction 1 as [|[k v] e Hv He IH]; intros d d' Hd; [intros [= <-]; auto|]. cbn [nest_items]. intros H.
  apply rbind_ok in H as (d1 & H1 & H2).
  destruct (split_into_wf _ (split_no_dot k) v d d1 Hv Hd H1) as [W _]. destruct (IH d1 d' W H2) as [A B].
  split; [exact A|]. intros Hk Ht. apply B; [intros q Hq; apply Hk; right; exact Hq|].
  eapply split_into_top; [exact Hv| |exact Ht|exact H1].
  intros r Hr. destruct r as [|x r]; [reflexivity|]. exfalso.
  specialize (Hk k (or_introl eq_refl)). rewrite <- (join_split DOT k), Hr in Hk.
  rewrite join_cons in Hk by discriminate. discriminate.
Qed.

Lemma val_paths_prefix : forall v, wf_val v -> forall p q a b,
  In (p, a) (val_paths v) -> In (q, b) (val_paths v) -> path_prefix p q -> p = q.
Proof.
  induction v as [| | |d IH] using env_val_ind'; intros Hw p q a b;
    try (intros [E1|[]] [E2|[]] _; congruence).
  destruct d as [|kv d]; [intros [E1|[]] [E2|[]] _; congruence|].
  assert (Hwd : wf_dict_ (kv :: d)) by (inversion Hw; subst; [destruct H|assumption]).
  rewrite val_paths_dict. clear Hw. induction Hwd as [|k v l Hk Hl Hv Hwl IHl]; [intros []|].
  inversion IH as [|x y I1 I2]; subst. rewrite paths_cons', !in_app_iff, !in_map_iff.
  intros [([p1 a1] & E1 & Hp)|Hp] [([q1 b1] & E2 & Hq)|Hq] Hpre.
  - injection E1 as <- <-. injection E2 as <- <-. f_equal. apply (I1 Hv _ _ _ _ Hp Hq).
    destruct Hpre as [r Hr]. exists r. cbn in Hr. congruence.
  - injection E1 as <- <-. destruct Hpre as [r Hr]. cbn in Hr. subst q. apply paths_in_key in Hq. contradiction.
  - injection E2 as <- <-. destruct Hpre as [r Hr]. destruct p as [|c p]; [apply paths_nonempty in Hp; congruence|].
    cbn in Hr. injection Hr as <- _. apply paths_in_key in Hp. contradiction.
  - apply (IHl I2 Hp Hq Hpre).
Qed.

Theorem C15_only_on_that_domain e e' : flat_env e -> env_from_environment e None = Ok e' ->
  (forall k, env_item e' k = env_item e k) -> prefix_free e.
Proof.
  intros He Hf Hk. unfold env_from_environment in Hf. apply rbind_ok in Hf as (d & Hd & Hf). injection Hf as <-.
  assert (Hkeys : forall k, In k (keys e) -> In k (keys (env_from_dict d None))).
  { intros k Hin. specialize (Hk k). unfold env_item in Hk.
    destruct (dget k e) eqn:E; [|apply dget_none in E; contradiction].
    destruct (dget k (env_from_dict d None)) eqn:E2; [|discriminate].
    apply dget_in, (in_map fst) in E2. exact E2. }
  destruct (nest_wf e (proj2 He) [] d wf_nil Hd) as [W T].
  assert (Hfd : env_from_dict d None = dupd [] (flatten_nested_dict [] d)) by reflexivity.
  assert (Hsub : forall k, In k (keys (env_from_dict d None)) -> In k (keys (flatten_nested_dict [] d))).
  { intros k H. rewrite Hfd in H. destruct (dget k (dupd [] (flatten_nested_dict [] d))) eqn:E; [|apply dget_none in E; contradiction].
    rewrite dget_dupd_rev in E. destruct (dget k (rev (flatten_nested_dict [] d))) eqn:E2; [|discriminate].
    apply dget_in, in_rev, (in_map fst) in E2. exact E2. }
  assert (Hdot : forall k, In k (keys e) -> startswith [DOT] k = false).
  { intros k H. apply (flatten_no_dot d W). apply Hsub, Hkeys, H. }
  assert (Ht : top_ok d) by (apply T; [exact Hdot|constructor]).
  split.
  - intros k k' H1 H2 [r Hr]. apply Hkeys, Hsub in H1. apply Hkeys, Hsub in H2.
    rewrite flatten_paths in H1, H2 by assumption. unfold keys in H1, H2. rewrite map_map in H1, H2.
    apply in_map_iff in H1 as ([p a] & E1 & P1). apply in_map_iff in H2 as ([q b] & E2 & P2).
    cbn [flat_entry fst snd] in E1, E2.
    assert (Hdf : forall p a, In (p, a) (paths d) -> dotfree p).
    { intros p0 a0 H. destruct (wf_dict_paths _ W) as (_ & K & _). rewrite Forall_forall in K. exact (K _ H). }
    assert (Hpq : path_prefix p q).
    { exists (split_on DOT r). rewrite <- (split_join DOT q (paths_nonempty _ _ _ P2) (Hdf _ _ P2)), E2, Hr, <- E1.
      rewrite <- (join_split DOT r) at 1.
      rewrite <- join_app; [|eapply paths_nonempty; eauto|apply split_on_nonnil].
      apply split_join; [intros E; apply app_eq_nil in E as [_ E]; exact (split_on_nonnil _ _ E)|].
      apply Forall_app; split; [exact (Hdf _ _ P1)|apply split_no_dot]. }
    assert (p = q).
    { destruct d as [|kv d]; [destruct P1|]. apply (val_paths_prefix (EDict (kv :: d)) (wf_dict _ W) p q a b P1 P2 Hpq). }
    subst q. assert (k = k') by congruence. subst k'. apply (f_equal (@length N)) in Hr. rewrite !app_length in Hr. cbn [length] in Hr. rewrite E1 in Hr. lia.
  - intros k H [r Hr]. specialize (Hdot k H). rewrite Hr in Hdot. discriminate.
Qed.

Example C15_ex : let e := [(lit "a.b", EStr (lit "1")); (lit "c", EStr []); (lit "a.d.e", EList [])] in
  flat_env e /\ keys e <> [] /\
  match env_from_environment e None with Ok e' => keys e' = [lit "a.b"; lit "a.d.e"; lit "c"] | _ => False end.
Proof. split; [|split; [discriminate|reflexivity]]. split; repeat constructor; cbn; intuition discriminate. Qed.

(* What happens outside: a TypeError, a lost variable, a renamed variable. *)
Theorem C15_outside :
  env_asdict [(lit "a", EStr (lit "1")); (lit "a.b", EStr (lit "2"))] = Exc (ExPy "TypeError") /\
  env_from_environment [(lit "a.b", EStr (lit "2")); (lit "a", EStr (lit "1"))] None = Ok [(lit "a", EStr (lit "1"))] /\
  env_from_environment [(lit ".a", EStr (lit "1"))] None = Ok [(lit "a", EStr (lit "1"))].
Proof. repeat split. Qed.

(* ------------------------------------------------------------------ C16 *)
Lemma env_set_leaf e k v : is_leaf v -> env_set e k v = dset k v e.
Proof. intros H. unfold env_set, env_dupdate. destruct v as [| | |[|]]; try reflexivity. destruct H. Qed.

(* v is not a (non-empty) dictionary *)
Theorem C16_read_after_write e k v : (forall kv d, v <> EDict (kv :: d)) ->
  env_item (env_set e k v) k = Ok v /\ env_get (env_set e k v) k = FVal v /\
  (forall q, q <> k -> env_item (env_set e k v) q = env_item e q).
Proof.
  intros Hv. rewrite env_set_leaf by (destruct v as [| | |[|kv d]]; try exact I; exact (Hv kv d eq_refl)).
  unfold env_item. split; [|split].
  - rewrite dget_dset, str_eqb_refl. reflexivity.
  - apply env_get_val. rewrite dget_dset, str_eqb_refl. reflexivity.
  - intros q Hq. rewrite dget_dset. destruct (str_eqb_spec q k); [congruence|reflexivity].
Qed.

(* any history of writes: the last one to k is read *)
Theorem C16_last_write_wins e before after k v : (forall kv d, v <> EDict (kv :: d)) ->
  Forall (fun w => fst w <> k /\ forall kv d, snd w <> EDict (kv :: d)) after ->
  let run := fold_left (fun e w => env_set e (fst w) (snd w)) in
  env_item (run (before ++ (k, v) :: after) e) k = Ok v.
Proof.
  intros Hv Ha run. unfold run. rewrite fold_left_app. cbn [fold_left fst snd].
  set (e1 := fold_left _ before e). generalize (env_set e1 k v), (proj1 (C16_read_after_write e1 k v Hv)).
  induction Ha as [|[q w] l [Hq Hw] Hl IH]; intros e2 H2; [exact H2|]. cbn [fold_left fst snd] in *. apply IH.
  rewrite (proj2 (proj2 (C16_read_after_write e2 q w Hw))); [exact H2|congruence].
Qed.

Example C16_ex : env_item (fold_left (fun e w => env_set e (fst w) (snd w))
  [(lit "a.b", EStr (lit "1")); (lit "a", EStr (lit "2")); (lit "a.b", EStr (lit "3")); (lit "c", EStr [])] []) (lit "a.b")
  = Ok (EStr (lit "3")).
Proof. reflexivity. Qed.

(* ------------------------------------------------------------------ C17 *)
Theorem C17_namespace_lookup e k : flat_env e -> env_item e k = Exc (ExPy "KeyError") ->
  match env_get e k with
  | FVal _ => False
  | FEnv sub => (exists q v, env_item sub q = Ok v) /\ forall q, env_item sub q = env_item e (k ++ [DOT] ++ q)
  | FDefault => forall q, env_item e (k ++ [DOT] ++ q) = Exc (ExPy "KeyError")
  end.
Proof.
  intros He Hk. destruct (env_get e k) as [v|sub|] eqn:E.
  - apply env_get_val in E. unfold env_item in Hk. rewrite E in Hk. discriminate.
  - destruct (env_get_ns _ _ _ He E) as [Hs K]. split.
    + unfold env_get in E. destruct (dget k e); [discriminate|].
      destruct (filter (fun kv => startswith (k ++ [DOT]) (fst kv)) e) as [|[q v] f] eqn:Ef; [discriminate|].
      assert (Hin : In (q, v) (filter (fun kv => startswith (k ++ [DOT]) (fst kv)) e)) by (rewrite Ef; left; reflexivity).
      apply filter_In in Hin as [Hin Hq]. cbn in Hq. apply startswith_spec in Hq as [r ->].
      exists r, v. unfold env_item. rewrite K, app_assoc. rewrite (in_dget _ _ _ (proj1 He) Hin). reflexivity.
    + intros q. unfold env_item. rewrite K. reflexivity.
  - intros q. unfold env_item. rewrite (proj2 (env_get_default _ _ E)). reflexivity.
Qed.

Example C17_ex : exists sub, env_get [(lit "a.b", EStr (lit "1")); (lit "ab", EStr []); (lit "a.c.d", EStr (lit "2"))] (lit "a") = FEnv sub
  /\ keys sub = [lit "b"; lit "c.d"].
Proof. eexists; split; reflexivity. Qed.

(* ------------------------------------------------------------------ C18 *)
Theorem C18_update e o k : flat_env e -> flat_env o ->
  env_item (env_update e o None true) k =
    (if dmem k o then env_item o k else env_item e k) /\
  env_item (env_update e o None false) k =
    (if dmem k e then env_item e k else env_item o k).
Proof.
  intros He Ho. unfold env_update. rewrite (from_dict_flat o Ho). unfold env_item, dmem.
  rewrite !dget_dupd by (apply He || apply Ho). split; [destruct (dget k o)|destruct (dget k e)]; reflexivity.
Qed.

(* under a namespace *)
Lemma from_dict_ns o ns : flat_env o -> o <> [] -> ns <> [] ->
  env_from_dict o (Some ns) = map (fun kv : str * env_val => (ns ++ [DOT] ++ fst kv, snd kv)) o.
Proof.
  intros [Hn Hl] Ho Hns. destruct ns as [|a ns]; [congruence|].
  assert (G : forall acc, fold_left (fun flat kv => dupd flat (flat_value (child_key (a :: ns) (fst kv)) (snd kv))) o acc
              = dupd acc (map (fun kv : str * env_val => ((a :: ns) ++ [DOT] ++ fst kv, snd kv)) o)).
  { clear Ho Hn. induction Hl as [|[k v] l Hv Hl IH]; intros acc; [reflexivity|]. cbn [fold_left map fst snd]. rewrite IH.
    assert (flat_value (child_key (a :: ns) k) v = [((a :: ns) ++ [DOT] ++ k, v)]) as ->
      by (cbn in Hv; destruct v as [| | |[|]]; try reflexivity; destruct Hv).
    reflexivity. }
  assert (N1 : NoDup (keys (map (fun kv : str * env_val => ((a :: ns) ++ [DOT] ++ fst kv, snd kv)) o))).
  { assert (E : keys (map (fun kv : str * env_val => ((a :: ns) ++ [DOT] ++ fst kv, snd kv)) o)
                = map (fun k => (a :: ns) ++ [DOT] ++ k) (keys o)) by (unfold keys; rewrite !map_map; reflexivity).
    rewrite E. apply FinFun.Injective_map_NoDup; [|exact Hn].
    intros x y Exy. apply app_inv_head in Exy. apply app_inv_head in Exy. exact Exy. }
  unfold env_from_dict, env_dupdate, env_empty, flatten_nested_dict. cbn [fold_left fst snd child_key].
  destruct o as [|kv o]; [congruence|].
  change (flat_value (a :: ns) (EDict (kv :: o))) with
      (fold_left (fun flat kv => dupd flat (flat_value (child_key (a :: ns) (fst kv)) (snd kv))) (kv :: o) []).
  rewrite G, !(dupd_nil _ N1). reflexivity.
Qed.

Theorem C18_update_namespace e o ns k : flat_env e -> flat_env o -> o <> [] -> ns <> [] ->
  env_item (env_update e o (Some ns) true) (ns ++ [DOT] ++ k) =
    (if dmem k o then env_item o k else env_item e (ns ++ [DOT] ++ k)) /\
  env_item (env_update e o (Some ns) false) (ns ++ [DOT] ++ k) =
    (if dmem (ns ++ [DOT] ++ k) e then env_item e (ns ++ [DOT] ++ k) else env_item o k).
Proof.
  intros He Ho Hne Hns. unfold env_update. pose proof (from_dict_ns o ns Ho Hne Hns) as Hf.
  assert (Hflat : flat_env (env_from_dict o (Some ns))) by apply flat_dupdate, flat_empty.
  unfold env_item, dmem. rewrite !dget_dupd by (apply He || apply Hflat). rewrite Hf.
  assert (K : dget (ns ++ [DOT] ++ k) (map (fun kv : str * env_val => (ns ++ [DOT] ++ fst kv, snd kv)) o) = dget k o).
  { clear. induction o as [|[a v] o IH]; [reflexivity|]. cbn [map dget fst snd]. rewrite IH.
    destruct (str_eqb_spec (ns ++ [DOT] ++ k) (ns ++ [DOT] ++ a)) as [E|E].
    - apply app_inv_head in E. apply app_inv_head in E. subst. rewrite str_eqb_refl. reflexivity.
    - destruct (str_eqb_spec k a); [congruence|reflexivity]. }
  rewrite K. split; [destruct (dget k o)|destruct (dget _ e)]; reflexivity.
Qed.

(* every environment built through the interface is flat, so C15, C17 and C18 apply to it *)
Theorem C18_environments_are_flat e o d ns ow k v : flat_env e -> flat_env o ->
  flat_env env_empty /\ flat_env (env_from_dict d ns) /\ flat_env (env_dupdate e d ns) /\
  flat_env (env_set e k v) /\ flat_env (env_update e o ns ow).
Proof.
  intros He Ho. split; [apply flat_empty|]. split; [apply flat_dupdate, flat_empty|].
  split; [apply flat_dupdate, He|]. split; [apply flat_set, He|apply flat_update; assumption].
Qed.

Example C18_ex : env_update [(lit "x.a", EStr (lit "1"))] [(lit "a", EStr (lit "2")); (lit "b", EStr (lit "3"))] (Some (lit "x")) false
  = [(lit "x.a", EStr (lit "1")); (lit "x.b", EStr (lit "3"))].
Proof. reflexivity. Qed.

(* ------------------------------------------------------------------ C19 *)
Lemma dget_combine_nth {A} (names : list str) (vals : list A) i k v : NoDup names ->
  nth_error names i = Some k -> nth_error vals i = Some v -> dget k (combine names vals) = Some v.
Proof.
  revert vals i; induction names as [|n names IH]; intros vals i Hn; [destruct i; discriminate|].
  inversion Hn as [|x y Hx Hy]; subst. destruct vals as [|w vals]; [destruct i; discriminate|].
  destruct i as [|i]; cbn.
  - intros [= ->] [= ->]. rewrite str_eqb_refl. reflexivity.
  - intros H1 H2. destruct (str_eqb_spec k n) as [->|]; [apply nth_error_In in H1; contradiction|eauto].
Qed.
Lemma combine_keys {A} (names : list str) (vals : list A) : keys (combine names vals) = firstn (length vals) names.
Proof.
  revert vals; induction names as [|n names IH]; intros [|v vals]; cbn; try reflexivity. f_equal. apply IH.
Qed.

(* [free] are the positional names that were not given explicitly. *)
Theorem C19_set_names {A} (unnamed : list A) (named : dict A) (names : list str) unnamed' named' :
  NoDup names -> NoDup (keys named) ->
  set_names unnamed named names = (unnamed', named') ->
  let free := filter (fun n => negb (mem_str n (keys named))) names in
  unnamed' = skipn (length free) unnamed /\
  (forall k v, dget k named = Some v -> dget k named' = Some v) /\
  (forall i k v, nth_error free i = Some k -> nth_error unnamed i = Some v -> dget k named' = Some v) /\
  (forall k, ~ In k (keys named) -> ~ In k (firstn (length unnamed) free) -> dget k named' = None).
Proof.
  intros Hn Hd H free. unfold set_names in H.
  assert (Hfree : filter (fun n => negb (dmem n named)) names = free).
  { unfold free. apply filter_ext. intros n. f_equal. destruct (dmem n named) eqn:E.
    - apply dmem_In in E. symmetry. apply mem_str_In, E.
    - destruct (mem_str n (keys named)) eqn:E2; [|reflexivity]. apply mem_str_In, dmem_In in E2. congruence. }
  rewrite Hfree in H. injection H as <- <-.
  assert (Hnf : NoDup free) by (apply NoDup_filter, Hn).
  assert (Hnc : NoDup (keys (combine free unnamed))).
  { rewrite combine_keys. clear - Hnf. rewrite <- (firstn_skipn (length unnamed) free) in Hnf.
    revert Hnf. generalize (firstn (length unnamed) free) as a, (skipn (length unnamed) free) as b.
    induction a as [|x a IH]; intros b H; [constructor|]. cbn in H. inversion H as [|u w K1 K2]; subst.
    constructor; [intros K; apply K1, in_or_app; auto|]. apply (IH b K2). }
  rewrite (dupd_nil _ Hnc). split; [reflexivity|].
  assert (Hin : forall k, dget k (combine free unnamed) <> None -> dget k named = None).
  { intros k Hk. destruct (dget k (combine free unnamed)) eqn:E; [|congruence].
    apply dget_in, in_combine_l in E. apply filter_In in E as [_ E]. apply negb_true_iff in E.
    apply dget_none. intros K. apply mem_str_In in K. congruence. }
  split; [|split].
  - intros k v Hk. rewrite dget_dupd by exact Hnc. destruct (dget k (combine free unnamed)) eqn:E; [|exact Hk].
    rewrite (Hin k) in Hk; [discriminate|congruence].
  - intros i k v H1 H2. rewrite dget_dupd by exact Hnc. rewrite (dget_combine_nth _ _ _ _ _ Hnf H1 H2). reflexivity.
  - intros k H1 H2. rewrite dget_dupd by exact Hnc. rewrite <- combine_keys in H2.
    rewrite (proj2 (dget_none k _) H2). apply dget_none, H1.
Qed.

Example C19_ex : set_names [lit "1"; lit "2"; lit "3"] [(lit "b", lit "x")] [lit "a"; lit "b"; lit "c"]
  = ([lit "3"], [(lit "b", lit "x"); (lit "a", lit "1"); (lit "c", lit "2")]).
Proof. reflexivity. Qed.

Print Assumptions C14_nest_flatten.
Print Assumptions C14_from_dict_asdict.
Print Assumptions C15_from_environment_preserves.
Print Assumptions C15_only_on_that_domain.
Print Assumptions C15_outside.
Print Assumptions C16_read_after_write.
Print Assumptions C16_last_write_wins.
Print Assumptions C17_namespace_lookup.
Print Assumptions C18_update.
Print Assumptions C18_update_namespace.
Print Assumptions C18_environments_are_flat.
Print Assumptions C19_set_names.
