(* EnvFacts.v -- flattening and nesting configurations *)
From Verif Require Export Env.

Notation path := (list str).
Definition flat_entry (pv : path * env_val) : str * env_val := (join [DOT] (fst pv), snd pv).
Definition under (k : str) (pv : path * env_val) : path * env_val := (k :: fst pv, snd pv).

Lemma paths_cons' k v d : paths ((k, v) :: d) = map (under k) (val_paths v) ++ paths d.
Proof. reflexivity. Qed.
Lemma paths_app d e : paths (d ++ e) = paths d ++ paths e.
Proof. induction d as [|[k v] d IH]; [reflexivity|]. cbn [app]. rewrite !paths_cons', IH, app_assoc. reflexivity. Qed.

Definition dotfree (p : path) : Prop := Forall (no_chr DOT) p.

Lemma val_paths_nonnil v : val_paths v <> [].
Proof.
  induction v as [| | |d IH] using env_val_ind'; try discriminate.
  destruct d as [|[k v] d]; [discriminate|]. rewrite val_paths_dict, paths_cons'.
  inversion IH as [|x y H1 H2]; subst. cbn in H1. destruct (val_paths v); [congruence|discriminate].
Qed.

Lemma paths_in_key k p v d : In (k :: p, v) (paths d) -> In k (keys d).
Proof.
  induction d as [|[a w] d IH]; [intros []|]. rewrite paths_cons', in_app_iff, in_map_iff.
  intros [([q u] & E & _)|H]; [injection E as -> _ _; left; reflexivity|right; auto].
Qed.

Lemma paths_nonempty p v d : In (p, v) (paths d) -> p <> [].
Proof.
  induction d as [|[a w] d IH]; [intros []|]. rewrite paths_cons', in_app_iff, in_map_iff.
  intros [([q u] & E & _)|H]; [injection E as <- _; discriminate|auto].
Qed.

Lemma paths_of_key k v d : In (k, v) d -> exists p w, In (k :: p, w) (paths d) /\ In (p, w) (val_paths v).
Proof.
  induction d as [|[a u] d IH]; [intros []|]. intros [E|H].
  - injection E as -> ->. destruct (val_paths v) as [|[p w] r] eqn:E; [destruct (val_paths_nonnil _ E)|].
    exists p, w. split; [|left; reflexivity]. rewrite paths_cons', in_app_iff. left. rewrite E. left. reflexivity.
  - destruct (IH H) as (p & w & H1 & H2). exists p, w. split; [|exact H2].
    rewrite paths_cons', in_app_iff. auto.
Qed.

Definition pnodup (ps : list (path * env_val)) : Prop := NoDup (map fst ps).

Lemma nodup_under k ps : pnodup ps -> pnodup (map (under k) ps).
Proof.
  unfold pnodup. rewrite map_map. cbn [under fst]. intros H.
  rewrite <- (map_map fst (cons k)). apply FinFun.Injective_map_NoDup; [|exact H].
  intros a b E; congruence.
Qed.

Lemma nodup_app {A} (a b : list A) : NoDup a -> NoDup b -> (forall x, In x a -> ~ In x b) -> NoDup (a ++ b).
Proof.
  induction a as [|x a IH]; intros H1 H2 H3; [exact H2|]. inversion H1; subst. cbn. constructor.
  - rewrite in_app_iff. intros [H|H]; [auto|exact (H3 x (or_introl eq_refl) H)].
  - apply IH; auto. intros y Hy. apply H3. right; exact Hy.
Qed.

Lemma wf_paths_both :
  (forall v, wf_val v -> pnodup (val_paths v) /\ Forall (fun pv => dotfree (fst pv)) (val_paths v)
                         /\ Forall (fun pv => is_leaf (snd pv)) (val_paths v)) /\
  (forall d, wf_dict_ d -> pnodup (paths d) /\ Forall (fun pv => dotfree (fst pv)) (paths d)
                         /\ Forall (fun pv => is_leaf (snd pv)) (paths d)).
Proof.
  assert (H : forall v, (wf_val v -> pnodup (val_paths v) /\ Forall (fun pv => dotfree (fst pv)) (val_paths v)
                         /\ Forall (fun pv => is_leaf (snd pv)) (val_paths v))).
  { intros v Hv. induction Hv using wf_val_mind with
      (P := fun v _ => pnodup (val_paths v) /\ Forall (fun pv => dotfree (fst pv)) (val_paths v)
                         /\ Forall (fun pv => is_leaf (snd pv)) (val_paths v))
      (P0 := fun d _ => pnodup (paths d) /\ Forall (fun pv => dotfree (fst pv)) (paths d)
                         /\ Forall (fun pv => is_leaf (snd pv)) (paths d)).
    - rewrite val_paths_leaf by assumption. repeat constructor; [intros []|assumption].
    - destruct d as [|kv d]; [|exact IHHv]. cbn. repeat constructor. intros [].
    - repeat constructor.
    - destruct IHHv as (A1 & A2 & A3). destruct IHHv0 as (B1 & B2 & B3). rewrite paths_cons'. split; [|split].
      + unfold pnodup. rewrite map_app. apply nodup_app; [apply nodup_under, A1|exact B1|].
        intros p Hp Hq. rewrite in_map_iff in Hp, Hq. destruct Hp as ([p1 v1] & <- & Hp).
        rewrite in_map_iff in Hp. destruct Hp as ([p2 v2] & E & _). injection E as <- <-.
        destruct Hq as ([q1 w1] & E & Hq). cbn in E. subst q1. apply paths_in_key in Hq. contradiction.
      + rewrite Forall_app. split; [|exact B2]. rewrite Forall_map. eapply Forall_impl; [|exact A2].
        intros pv Hpv. constructor; assumption.
      + rewrite Forall_app. split; [|exact B3]. rewrite Forall_map. exact A3. }
  split; [exact H|]. intros d Hd. destruct d as [|kv d].
  - repeat constructor.
  - apply (H (EDict (kv :: d))). apply wf_dict. exact Hd.
Qed.
Definition wf_val_paths := proj1 wf_paths_both.
Definition wf_dict_paths := proj2 wf_paths_both.

Lemma join_dot_inj p q : dotfree p -> dotfree q -> p <> [] -> q <> [] -> join [DOT] p = join [DOT] q -> p = q.
Proof.
  intros H1 H2 N1 N2 E. rewrite <- (split_join DOT p N1 H1), <- (split_join DOT q N2 H2), E. reflexivity.
Qed.

Lemma join_key_inj key p q : dotfree p -> dotfree q -> join [DOT] (key :: p) = join [DOT] (key :: q) -> p = q.
Proof.
  intros H1 H2 E. destruct p as [|a p], q as [|b q]; [reflexivity| | |].
  - rewrite (join_cons _ key (b :: q)) in E by discriminate. cbn [join] in E. exfalso.
    apply (f_equal (@length N)) in E. rewrite !app_length in E. cbn in E. lia.
  - rewrite (join_cons _ key (a :: p)) in E by discriminate. cbn [join] in E. exfalso.
    apply (f_equal (@length N)) in E. rewrite !app_length in E. cbn in E. lia.
  - rewrite !(join_cons _ key) in E by discriminate. apply app_inv_head in E. apply app_inv_head in E.
    apply join_dot_inj; auto; discriminate.
Qed.

Lemma nodup_flat_entries (f : path -> str) ps :
  pnodup ps -> (forall p q v w, In (p, v) ps -> In (q, w) ps -> f p = f q -> p = q) ->
  NoDup (keys (map (fun pv => (f (fst pv), snd pv)) ps)).
Proof.
  unfold pnodup, keys. rewrite map_map. cbn [fst]. induction ps as [|[p v] ps IH]; intros H Hf; [constructor|].
  cbn in *. inversion H as [|x y Hx Hy]; subst. constructor.
  - intros Hin. apply in_map_iff in Hin as ([q w] & E & Hq). cbn in E. apply Hx.
    rewrite (Hf p q v w (or_introl eq_refl) (or_intror Hq) (eq_sym E)). apply (in_map fst) in Hq. exact Hq.
  - apply IH; [exact Hy|]. intros p' q' v' w' H1 H2. apply Hf with v' w'; auto.
Qed.

Lemma dupd_dupd {A} (d a b : dict A) : dupd (dupd d a) b = dupd d (a ++ b).
Proof. unfold dupd. rewrite fold_left_app. reflexivity. Qed.

Lemma join_child key k p : key <> [] -> join [DOT] (child_key key k :: p) = join [DOT] (key :: k :: p).
Proof.
  intros H. unfold child_key. destruct key as [|a key]; [congruence|].
  destruct p as [|b p]; [reflexivity|]. rewrite !join_cons by discriminate. rewrite <- !app_assoc. reflexivity.
Qed.

Lemma flat_value_paths v : wf_val v -> forall key, (key <> [] \/ is_leaf v) ->
  flat_value key v = map (fun pv => (join [DOT] (key :: fst pv), snd pv)) (val_paths v).
Proof.
  intros Hv. induction Hv using wf_val_mind with
    (P := fun v _ => forall key, (key <> [] \/ is_leaf v) ->
        flat_value key v = map (fun pv => (join [DOT] (key :: fst pv), snd pv)) (val_paths v))
    (P0 := fun d _ => forall key acc, key <> [] ->
       fold_left (fun flat kv => dupd flat (flat_value (child_key key (fst kv)) (snd kv))) d acc =
       dupd acc (map (fun pv => (join [DOT] (key :: fst pv), snd pv)) (paths d))).
  - intros key _. rewrite val_paths_leaf by assumption. destruct v as [| | |[|]]; try reflexivity. destruct i.
  - intros key Hk. destruct d as [|kv d]; [reflexivity|]. destruct Hk as [Hk|[]].
    rewrite val_paths_dict. change (flat_value key (EDict (kv :: d))) with
      (fold_left (fun flat kv => dupd flat (flat_value (child_key key (fst kv)) (snd kv))) (kv :: d) []).
    rewrite IHHv by exact Hk. apply dupd_nil.
    destruct (wf_dict_paths _ w) as (P1 & P2 & _). apply (nodup_flat_entries (fun p => join [DOT] (key :: p))); [exact P1|].
    intros p q v' w' H1 H2. rewrite Forall_forall in P2. apply join_key_inj; [exact (P2 _ H1)|exact (P2 _ H2)].
  - reflexivity.
  - intros key acc Hk. cbn [fold_left fst snd]. rewrite IHHv0 by exact Hk. rewrite IHHv.
    + rewrite dupd_dupd, paths_cons', map_app, map_map. f_equal. f_equal. apply map_ext. intros [p u].
      cbn [fst snd under]. rewrite join_child by exact Hk. reflexivity.
    + left. destruct key; [congruence|]. discriminate.
Qed.

(* no top-level empty key holds a non-empty dictionary *)
Definition top_ok (d : dict env_val) : Prop := Forall (fun kv => fst kv <> [] \/ is_leaf (snd kv)) d.

Lemma flatten_paths d : wf_dict_ d -> top_ok d -> flatten_nested_dict [] d = map flat_entry (paths d).
Proof.
  intros Hw Ht. unfold flatten_nested_dict.
  assert (H : forall acc, fold_left (fun flat kv => dupd flat (flat_value (child_key [] (fst kv)) (snd kv))) d acc =
                dupd acc (map flat_entry (paths d))).
  { revert Ht. clear - Hw. induction Hw; intros Ht acc; [reflexivity|]. inversion Ht as [|x y T1 T2]; subst.
    cbn [fold_left fst snd child_key]. rewrite IHHw by exact T2. rewrite flat_value_paths by assumption.
    rewrite dupd_dupd, paths_cons', map_app, map_map. reflexivity. }
  rewrite H. apply dupd_nil. destruct (wf_dict_paths _ Hw) as (P1 & P2 & _).
  apply (nodup_flat_entries (join [DOT])); [exact P1|]. rewrite Forall_forall in P2.
  intros p q v w H1 H2. apply join_dot_inj; [exact (P2 _ H1)|exact (P2 _ H2)| |]; eapply paths_nonempty; eauto.
Qed.

(* -------------------------------------------------------------- nesting *)
Fixpoint ins_all (ps : list (path * env_val)) (out : dict env_val) : res (dict env_val) :=
  match ps with
  | [] => Ok out
  | (p, v) :: r => let? out' := split_into p v out in ins_all r out'
  end.

Lemma nest_items_paths ps out : Forall (fun pv => fst pv <> [] /\ dotfree (fst pv)) ps ->
  nest_items (map flat_entry ps) out = ins_all ps out.
Proof.
  revert out; induction ps as [|[p v] ps IH]; intros out H; [reflexivity|].
  inversion H as [|x y [H1 H2] H3]; subst. cbn [map flat_entry fst snd nest_items ins_all] in *.
  rewrite split_join by assumption. destruct (split_into p v out); [|reflexivity]. cbn. apply IH, H3.
Qed.

Lemma dget_last {A} (k : str) (v : A) out : ~ In k (keys out) -> dget k (out ++ [(k, v)]) = Some v.
Proof.
  intros H. rewrite dget_app. rewrite <- dget_none in H. rewrite H. cbn. rewrite str_eqb_refl. reflexivity.
Qed.
Lemma dset_last {A} (k : str) (v w : A) out : ~ In k (keys out) -> dset k w (out ++ [(k, v)]) = out ++ [(k, w)].
Proof.
  induction out as [|[a u] out IH]; cbn; intros H; [rewrite str_eqb_refl; reflexivity|].
  destruct (str_eqb_spec k a); [subst; tauto|]. rewrite IH by tauto. reflexivity.
Qed.

Lemma split_into_cons k p v out : p <> [] -> split_into (k :: p) v out =
  match dget k out with
  | None => let? d := split_into p v [] in Ok (dset k (EDict d) out)
  | Some (EDict d0) => let? d := split_into p v d0 in Ok (dset k (EDict d) out)
  | Some _ => Exc (ExPy (match p with [_] => "TypeError" | _ => "AttributeError" end))
  end.
Proof. destruct p as [|a p]; [congruence|]. intros _. cbn [split_into]. reflexivity. Qed.

Lemma ins_under k ps : Forall (fun pv => fst pv <> []) ps -> forall out d0, ~ In k (keys out) ->
  ins_all (map (under k) ps) (out ++ [(k, EDict d0)]) =
  rmap (fun d => out ++ [(k, EDict d)]) (ins_all ps d0).
Proof.
  induction ps as [|[p v] ps IH]; intros H out d0 Hk; [reflexivity|]. inversion H as [|x y H1 H2]; subst.
  cbn [map under fst snd ins_all] in *. rewrite split_into_cons by exact H1. rewrite dget_last by exact Hk.
  destruct (split_into p v d0) as [d1|e]; [|reflexivity]. cbn [rbind].
  rewrite dset_last by exact Hk. apply IH; assumption.
Qed.

Lemma ins_fresh k ps : ps <> [] -> Forall (fun pv => fst pv <> []) ps -> forall out, ~ In k (keys out) ->
  ins_all (map (under k) ps) out = rmap (fun d => out ++ [(k, EDict d)]) (ins_all ps []).
Proof.
  destruct ps as [|[p v] ps]; [congruence|]. intros _ H out Hk. inversion H as [|x y H1 H2]; subst.
  cbn [map under fst snd ins_all] in *. rewrite split_into_cons by exact H1.
  rewrite (proj2 (dget_none k out) Hk). destruct (split_into p v []) as [d1|e]; [|reflexivity]. cbn [rbind].
  rewrite dset_new by exact Hk. apply ins_under; assumption.
Qed.

Lemma ins_all_app a b out : ins_all (a ++ b) out = let? o := ins_all a out in ins_all b o.
Proof.
  revert out; induction a as [|[p v] a IH]; intros out; [reflexivity|]. cbn [app ins_all].
  destruct (split_into p v out); [apply IH|reflexivity].
Qed.

Lemma paths_all_nonempty d : Forall (fun pv => fst pv <> []) (paths d).
Proof. apply Forall_forall. intros [p v] H. eapply paths_nonempty; eauto. Qed.

Lemma ins_paths d : wf_dict_ d -> forall out, (forall k, In k (keys d) -> ~ In k (keys out)) ->
  ins_all (paths d) out = Ok (out ++ d).
Proof.
  intros Hd. induction Hd using wf_dict_mind with
    (P := fun v _ => forall k out, ~ In k (keys out) -> ins_all (map (under k) (val_paths v)) out = Ok (out ++ [(k, v)]))
    (P0 := fun d _ => forall out, (forall k, In k (keys d) -> ~ In k (keys out)) -> ins_all (paths d) out = Ok (out ++ d)).
  - intros k out Hk. rewrite val_paths_leaf by assumption. cbn. rewrite dset_new by exact Hk. reflexivity.
  - intros k out Hk. destruct d as [|kv d].
    + cbn. rewrite dset_new by exact Hk. reflexivity.
    + rewrite val_paths_dict. rewrite ins_fresh; [| |apply paths_all_nonempty|exact Hk].
      * rewrite IHHd by (intros ? _ []). reflexivity.
      * destruct kv as [a w]. rewrite paths_cons'. pose proof (val_paths_nonnil w).
        destruct (val_paths w); [congruence|discriminate].
  - intros out _. cbn. rewrite app_nil_r. reflexivity.
  - intros out Hk. rewrite paths_cons', ins_all_app. rewrite IHHd by (apply Hk; left; reflexivity). cbn [rbind].
    rewrite IHHd0; [rewrite <- app_assoc; reflexivity|].
    intros q Hq. unfold keys. rewrite map_app, in_app_iff. intros [H|[H|[]]].
    + exact (Hk q (or_intror Hq) H).
    + cbn in H. subst. contradiction.
Qed.

Lemma nest_flatten d : wf_dict_ d -> top_ok d -> nest_flattened_dict (flatten_nested_dict [] d) = Ok d.
Proof.
  intros Hw Ht. rewrite flatten_paths by assumption. unfold nest_flattened_dict.
  rewrite nest_items_paths.
  - rewrite ins_paths; [reflexivity|exact Hw|intros ? _ []].
  - destruct (wf_dict_paths _ Hw) as (_ & P2 & _). apply Forall_forall. intros [p v] H.
    split; [eapply paths_nonempty; eauto|]. rewrite Forall_forall in P2. exact (P2 _ H).
Qed.

(* ----------------------------------------------- flattening what was nested *)
Definition path_prefix (p q : path) : Prop := exists r, q = p ++ r.
Definition compat (p : path) (ps : list (path * env_val)) : Prop :=
  forall q v, In (q, v) ps -> ~ path_prefix q p /\ ~ path_prefix p q.

Lemma dget_split {A} k (v : A) d : dget k d = Some v -> exists a b, d = a ++ (k, v) :: b /\ ~ In k (keys a).
Proof.
  induction d as [|[x w] d IH]; cbn; [discriminate|]. destruct (str_eqb_spec k x) as [->|Hn].
  - intros [= ->]. exists [], d. split; [reflexivity|intros []].
  - intros H. destruct (IH H) as (a & b & -> & Ha). exists ((x, w) :: a), b. split; [reflexivity|].
    cbn. intuition congruence.
Qed.
Lemma dset_mid {A} k (v w : A) a b : ~ In k (keys a) -> dset k w (a ++ (k, v) :: b) = a ++ (k, w) :: b.
Proof.
  induction a as [|[x u] a IH]; cbn; intros H; [rewrite str_eqb_refl; reflexivity|].
  destruct (str_eqb_spec k x); [subst; tauto|]. rewrite IH by tauto. reflexivity.
Qed.

Lemma wf_dict_iff d : wf_dict_ d <-> NoDup (keys d) /\ Forall (fun kv => no_chr DOT (fst kv) /\ wf_val (snd kv)) d.
Proof.
  induction d as [|[k v] d IH]; split; intros H.
  - repeat constructor.
  - constructor.
  - inversion H; subst. apply IH in H6 as [H1 H2]. split; constructor; auto.
  - destruct H as [H1 H2]. inversion H1; subst. inversion H2 as [|x y [K1 K2] K3]; subst. constructor; auto. apply IH; auto.
Qed.

Lemma split_into_paths p : p <> [] -> dotfree p -> forall v d, is_leaf v -> wf_dict_ d -> compat p (paths d) ->
  exists d', split_into p v d = Ok d' /\ wf_dict_ d' /\ d' <> [] /\ Permutation (paths d') ((p, v) :: paths d).
Proof.
  induction p as [|k p IH]; [congruence|]. intros _ Hp v d Hv Hw Hc. inversion Hp as [|x y Hk Hp']; subst.
  assert (Hsnoc : forall u, wf_val u -> ~ In k (keys d) -> wf_dict_ (d ++ [(k, u)])).
  { intros u Hu Hn. rewrite wf_dict_iff in *. destruct Hw as [W1 W2]. split.
    - unfold keys. rewrite map_app. apply nodup_app; [exact W1|repeat constructor; intros []|].
      intros q Hq [E|[]]. cbn in E. subst. contradiction.
    - rewrite Forall_app. split; [exact W2|]. constructor; [split; assumption|constructor]. }
  destruct p as [|k2 p].
  - assert (Hn : ~ In k (keys d)).
    { intros Hin. unfold keys in Hin. apply in_map_iff in Hin as ([a w] & E & Hin). cbn in E. subst a.
      destruct (paths_of_key _ _ _ Hin) as (q & u & H1 & _). destruct (Hc _ _ H1) as [_ H2]. apply H2.
      exists q. reflexivity. }
    exists (d ++ [(k, v)]). cbn [split_into]. rewrite dset_new by exact Hn. split; [reflexivity|].
    split; [apply Hsnoc; [apply wf_leaf; exact Hv|exact Hn]|]. split; [destruct d; discriminate|].
    rewrite paths_app, paths_cons', val_paths_leaf by exact Hv. cbn [map under fst snd app paths flat_map'].
    apply Permutation_sym, Permutation_cons_append.
  - rewrite split_into_cons by discriminate. assert (Hne : k2 :: p <> []) by discriminate.
    destruct (dget k d) as [w|] eqn:Eg.
    + destruct (dget_split _ _ _ Eg) as (a & b & -> & Ha).
      assert (Hleaf : ~ is_leaf w).
      { intros Hl. destruct (Hc [k] w) as [H _].
        - rewrite paths_app, paths_cons', val_paths_leaf by exact Hl. apply in_or_app; right; left; reflexivity.
        - apply H. exists (k2 :: p). reflexivity. }
      destruct w as [| | |[|kv d0]]; try (exfalso; apply Hleaf; exact I).
      assert (Hwd : wf_dict_ (kv :: d0)).
      { rewrite wf_dict_iff in Hw. destruct Hw as [_ W2]. rewrite Forall_app in W2. destruct W2 as [_ W2].
        inversion W2 as [|x y [_ W3] _]; subst. cbn in W3. inversion W3; subst; [destruct H|assumption]. }
      destruct (IH Hne Hp' v (kv :: d0) Hv Hwd) as (d1 & E1 & E2 & E3 & E4).
      { intros q u Hq. destruct (Hc (k :: q) u) as [H1 H2].
        - rewrite paths_app, paths_cons', val_paths_dict. apply in_or_app; right. apply in_or_app; left.
          change (k :: q, u) with (under k (q, u)). apply in_map, Hq.
        - split; intros [r Hr]; [apply H1|apply H2]; exists r; cbn [app]; f_equal; exact Hr. }
      rewrite E1. cbn [rbind]. rewrite dset_mid by exact Ha. eexists; split; [reflexivity|].
      split; [|split; [destruct a; discriminate|]].
      * rewrite wf_dict_iff in *. destruct Hw as [W1 W2]. unfold keys in *. rewrite map_app in *. split; [exact W1|].
        rewrite Forall_app in *. destruct W2 as [W2 W3]. split; [exact W2|]. inversion W3 as [|x y [W4 _] W5]; subst.
        constructor; [|exact W5]. split; [exact W4|]. cbn. apply wf_dict. rewrite wf_dict_iff. exact E2.
      * rewrite !paths_app, !paths_cons'. destruct d1 as [|kv1 d1]; [congruence|]. rewrite !val_paths_dict.
        eapply Permutation_trans; [apply Permutation_app_head, Permutation_app_tail, Permutation_map, E4|].
        cbn [map under fst snd app]. apply Permutation_sym, Permutation_middle.
    + destruct (IH Hne Hp' v [] Hv wf_nil) as (d1 & E1 & E2 & E3 & E4); [intros q u []|].
      rewrite E1. cbn [rbind]. pose proof (proj1 (dget_none k d) Eg) as Hn.
      rewrite dset_new by exact Hn. eexists; split; [reflexivity|].
      split; [apply Hsnoc; [apply wf_dict; exact E2|exact Hn]|]. split; [destruct d; discriminate|].
      rewrite paths_app, paths_cons'. destruct d1 as [|kv1 d1]; [congruence|]. rewrite val_paths_dict.
      cbn [paths flat_map']. rewrite app_nil_r.
      eapply Permutation_trans; [apply Permutation_app_head, Permutation_map, E4|].
      cbn [map under fst snd]. apply Permutation_sym, Permutation_cons_append.
Qed.

(* prefix-free lists of paths nest without loss *)
Lemma ins_all_perm ps : Forall (fun pv => fst pv <> [] /\ dotfree (fst pv) /\ is_leaf (snd pv)) ps ->
  (forall i j p q v w, nth_error ps i = Some (p, v) -> nth_error ps j = Some (q, w) -> i <> j -> ~ path_prefix p q) ->
  forall d, wf_dict_ d -> (forall p v, In (p, v) ps -> compat p (paths d)) ->
  exists d', ins_all ps d = Ok d' /\ wf_dict_ d' /\ Permutation (paths d') (ps ++ paths d).
Proof.
  induction ps as [|[p v] ps IH]; intros H Hpf d Hw Hc.
  - exists d. split; [reflexivity|]. split; [exact Hw|apply Permutation_refl].
  - inversion H as [|x y (H1 & H2 & H3) H4]; subst. cbn [fst snd ins_all] in *.
    destruct (split_into_paths p H1 H2 v d H3 Hw (Hc p v (or_introl eq_refl))) as (d1 & E1 & E2 & _ & E4).
    rewrite E1. cbn [rbind].
    destruct (IH H4) with (d := d1) as (d2 & F1 & F2 & F3); [| exact E2 | |].
    + intros i j q1 q2 u1 u2 A B C. apply (Hpf (S i) (S j) q1 q2 u1 u2 A B). lia.
    + intros q u Hq q' u' Hq'. apply (Permutation_in _ E4) in Hq'. destruct Hq' as [E|Hq'].
      * injection E as <- <-. apply In_nth_error in Hq as [i Hi].
        split; [apply (Hpf 0 (S i) p q v u eq_refl Hi); lia|apply (Hpf (S i) 0 q p u v Hi eq_refl); lia].
      * apply (Hc q u (or_intror Hq) q' u' Hq').
    + exists d2. split; [exact F1|]. split; [exact F2|].
      eapply Permutation_trans; [exact F3|]. eapply Permutation_trans; [apply Permutation_app_head, E4|].
      apply Permutation_sym, Permutation_middle.
Qed.

(* a key seen as a path *)
Definition split_entry (kv : str * env_val) : path * env_val := (split_on DOT (fst kv), snd kv).

Lemma split_no_dot k : dotfree (split_on DOT k).
Proof.
  induction k as [|a k IH]; cbn [split_on]; [repeat constructor; intros []|].
  destruct (N.eqb_spec a DOT) as [->|Hn]; [constructor; [intros []|exact IH]|].
  destruct (split_on DOT k) as [|p ps]; [repeat constructor; intros [E|[]]; congruence|].
  inversion IH; subst. constructor; [|assumption]. intros [E|E]; [congruence|contradiction].
Qed.

Lemma flat_split kv : flat_entry (split_entry kv) = kv.
Proof. destruct kv as [k v]. unfold flat_entry, split_entry. cbn [fst snd]. rewrite join_split. reflexivity. Qed.

(* k' is k followed by a dot and more *)
Definition below (k k' : str) : Prop := exists r, k' = k ++ [DOT] ++ r.

Lemma join_app sep p q : p <> [] -> q <> [] -> join sep (p ++ q) = join sep p ++ sep ++ join sep q.
Proof.
  intros Hp Hq. induction p as [|a p IH]; [congruence|]. destruct p as [|b p].
  - cbn [app]. rewrite (join_cons sep a q) by exact Hq. reflexivity.
  - cbn [app] in *. rewrite (join_cons sep a (b :: p ++ q)), (join_cons sep a (b :: p)) by discriminate.
    rewrite IH by discriminate. rewrite <- !app_assoc. reflexivity.
Qed.

Lemma prefix_below k k' : path_prefix (split_on DOT k) (split_on DOT k') -> k' = k \/ below k k'.
Proof.
  intros [r Hr]. destruct r as [|x r].
  - left. rewrite app_nil_r in Hr. rewrite <- (join_split DOT k), <- (join_split DOT k'), Hr. reflexivity.
  - right. exists (join [DOT] (x :: r)).
    rewrite <- (join_split DOT k'), Hr, join_app, join_split by (apply split_on_nonnil || discriminate). reflexivity.
Qed.

Lemma nest_total_flat e : flat_env e ->
  (forall k k', In k (keys e) -> In k' (keys e) -> ~ below k k') ->
  exists d, env_asdict e = Ok d /\ wf_dict_ d /\ Permutation (map flat_entry (paths d)) e.
Proof.
  intros [Hn Hl] Hb. unfold env_asdict, nest_flattened_dict.
  assert (He : map flat_entry (map split_entry e) = e).
  { rewrite map_map. rewrite <- (map_id e) at 2. apply map_ext. apply flat_split. }
  assert (Hf : Forall (fun pv => fst pv <> [] /\ dotfree (fst pv) /\ is_leaf (snd pv)) (map split_entry e)).
  { rewrite Forall_map. eapply Forall_impl; [|exact Hl]. intros kv Hkv. cbn.
    split; [apply split_on_nonnil|split; [apply split_no_dot|exact Hkv]]. }
  destruct (ins_all_perm (map split_entry e)) with (d := @nil (str * env_val)) as (d & D1 & D2 & D3).
  - exact Hf.
  - intros i j p q v w Hi Hj Hij Hpre. rewrite nth_error_map in Hi, Hj.
    destruct (nth_error e i) as [[k1 v1]|] eqn:Ei; [|discriminate]. destruct (nth_error e j) as [[k2 v2]|] eqn:Ej; [|discriminate].
    cbn in Hi, Hj. injection Hi as <- <-. injection Hj as <- <-.
    destruct (prefix_below _ _ Hpre) as [->|Hbel].
    + apply Hij. assert (A : nth_error (keys e) i = Some k1) by (unfold keys; rewrite nth_error_map, Ei; reflexivity).
      assert (B : nth_error (keys e) j = Some k1) by (unfold keys; rewrite nth_error_map, Ej; reflexivity).
      apply (proj1 (NoDup_nth_error (keys e)) Hn); [|congruence].
      apply nth_error_Some. congruence.
    + apply (Hb k1 k2); [| |exact Hbel].
      * apply nth_error_In, (in_map fst) in Ei. exact Ei.
      * apply nth_error_In, (in_map fst) in Ej. exact Ej.
  - constructor.
  - intros p v _ q w [].
  - exists d. rewrite <- He, nest_items_paths.
    + split; [exact D1|]. split; [exact D2|]. apply Permutation_map. cbn [paths flat_map'] in D3. rewrite app_nil_r in D3. exact D3.
    + eapply Forall_impl; [|exact Hf]. intros a (K1 & K2 & _); split; assumption.
Qed.

Lemma from_environment_perm e : flat_env e ->
  (forall k k', In k (keys e) -> In k' (keys e) -> ~ below k k') ->
  (forall k, In k (keys e) -> startswith [DOT] k = false) ->
  exists e', env_from_environment e None = Ok e' /\ Permutation e' e.
Proof.
  intros Hf Hb Hd. destruct (nest_total_flat e Hf Hb) as (d & D1 & D2 & D3).
  unfold env_from_environment. rewrite D1. cbn [rbind]. eexists; split; [reflexivity|].
  unfold env_from_dict, env_dupdate, env_empty.
  rewrite flatten_paths; [|exact D2|].
  - rewrite dupd_nil; [exact D3|]. eapply Permutation_NoDup; [apply Permutation_map, Permutation_sym, D3|apply Hf].
  - apply Forall_forall. intros [k v] Hin. cbn. destruct k as [|a k]; [|left; discriminate]. right.
    destruct v as [| | |[|kv d0]]; try exact I. exfalso.
    destruct (paths_of_key _ _ _ Hin) as (p & w & P1 & P2). rewrite val_paths_dict in P2.
    apply (in_map flat_entry) in P1. apply (Permutation_in _ D3) in P1. unfold flat_entry in P1. cbn [fst snd] in P1.
    apply (in_map fst) in P1. cbn [fst] in P1. apply Hd in P1. rewrite join_cons in P1; [discriminate|].
    eapply paths_nonempty; eauto.
Qed.

(* the environment a dictionary of leaves gives *)
Lemma flatten_flat e : flat_env e -> flatten_nested_dict [] e = e.
Proof.
  intros [Hn Hl]. unfold flatten_nested_dict.
  assert (H : forall acc, fold_left (fun flat kv => dupd flat (flat_value (child_key [] (fst kv)) (snd kv))) e acc = dupd acc e).
  { clear Hn. induction Hl as [|[k v] e Hv Hl IH]; intros acc; [reflexivity|]. cbn [fold_left fst snd child_key].
    rewrite IH. assert (flat_value k v = [(k, v)]) as -> by (cbn in Hv; destruct v as [| | |[|]]; try reflexivity; destruct Hv).
    reflexivity. }
  rewrite H. apply dupd_nil, Hn.
Qed.

Lemma from_dict_flat e : flat_env e -> env_from_dict e None = e.
Proof. intros H. unfold env_from_dict, env_dupdate. rewrite flatten_flat by exact H. apply dupd_nil, H. Qed.

(* every operation keeps the environment flat *)
Lemma flat_dset e k v : flat_env e -> is_leaf v -> flat_env (dset k v e).
Proof.
  intros [H1 H2] Hv. split; [apply dset_nodup, H1|]. clear H1. induction H2 as [|[a w] e Ha He IH]; cbn.
  - repeat constructor. exact Hv.
  - destruct (str_eqb k a); constructor; auto.
Qed.
Lemma flat_dupd e o : flat_env e -> Forall (fun kv => is_leaf (snd kv)) o -> flat_env (dupd e o).
Proof.
  unfold dupd. intros He Ho. revert e He; induction Ho as [|[k v] o Hv Ho IH]; intros e He; [exact He|].
  cbn. apply IH, flat_dset; assumption.
Qed.
Lemma leaf_dupd e o : Forall (fun kv : str * env_val => is_leaf (snd kv)) e -> Forall (fun kv => is_leaf (snd kv)) o ->
  Forall (fun kv => is_leaf (snd kv)) (dupd e o).
Proof.
  unfold dupd. intros He Ho. revert e He; induction Ho as [|[k v] o Hv Ho IH]; intros e He; [exact He|].
  cbn. apply IH. clear - He Hv. induction He as [|[a w] e Ha He IH]; cbn; [repeat constructor; exact Hv|].
  destruct (str_eqb k a); constructor; auto.
Qed.
Lemma flat_value_leaves v : forall key, Forall (fun kv => is_leaf (snd kv)) (flat_value key v).
Proof.
  induction v as [| | |d IH] using env_val_ind'; intros key; try (repeat constructor; fail).
  destruct d as [|kv d]; [repeat constructor|].
  change (flat_value key (EDict (kv :: d))) with
      (fold_left (fun flat kv => dupd flat (flat_value (child_key key (fst kv)) (snd kv))) (kv :: d) []).
  assert (H : forall acc, Forall (fun kv => is_leaf (snd kv)) acc ->
    Forall (fun kv => is_leaf (snd kv)) (fold_left (fun flat kv => dupd flat (flat_value (child_key key (fst kv)) (snd kv))) (kv :: d) acc)).
  { induction IH as [|[k v] l Hv IH IH2]; intros acc Ha; [exact Ha|]. cbn. apply IH2, leaf_dupd; [exact Ha|apply Hv]. }
  apply H. constructor.
Qed.
Lemma flatten_leaves d parent : Forall (fun kv => is_leaf (snd kv)) (flatten_nested_dict parent d).
Proof.
  unfold flatten_nested_dict. assert (H : forall acc, Forall (fun kv => is_leaf (snd kv)) acc ->
    Forall (fun kv => is_leaf (snd kv)) (fold_left (fun flat kv => dupd flat (flat_value (child_key parent (fst kv)) (snd kv))) d acc)).
  { induction d as [|[k v] d IH]; intros acc Ha; [exact Ha|]. cbn. apply IH, leaf_dupd; [exact Ha|apply flat_value_leaves]. }
  apply H. constructor.
Qed.
Lemma flat_dupdate e d ns : flat_env e -> flat_env (env_dupdate e d ns).
Proof. intros H. apply flat_dupd; [exact H|apply flatten_leaves]. Qed.
Lemma flat_empty : flat_env env_empty.
Proof. repeat constructor. Qed.
Lemma flat_update e o ns ow : flat_env e -> flat_env o -> flat_env (env_update e o ns ow).
Proof.
  intros He Ho. unfold env_update. assert (Hn : flat_env (env_from_dict o ns)) by (apply flat_dupdate, flat_empty).
  destruct ow; apply flat_dupd; auto; [apply Hn|apply He].
Qed.
Lemma flat_set e k v : flat_env e -> flat_env (env_set e k v).
Proof. apply flat_dupdate. Qed.
