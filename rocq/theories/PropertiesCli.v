(* PropertiesCli.v -- C51, C52, C61 to C63: the command line and the Mau class *)
From Verif Require Import EnvFacts PropertiesEnv Cli PropertiesDoc PropertiesVars.
From Coq Require Import Lia.

(* ------------------------------------------------------------------ C51 *)
(* the variable that is written KEY=VALUE *)
Definition assignment (kv : str * str) : str := fst kv ++ [EQUALS] ++ snd kv.
Definition no_equals (kv : str * str) : Prop := ~ In EQUALS (fst kv) /\ ~ In EQUALS (snd kv).
(* the value given last *)
Definition last_given {A} (kvs : list (str * A)) (k : str) : option A := dget k (rev kvs).

Lemma key_value_assignment kv : no_equals kv -> key_value (assignment kv) = Ok kv.
Proof.
  destruct kv as [k v]. intros [H1 H2]. unfold key_value, assignment. cbn [fst snd app].
  rewrite split_on_app by exact H1. rewrite split_on_none by exact H2. reflexivity.
Qed.

Lemma read_variables_spec kvs : Forall no_equals kvs -> forall flat,
  read_variables (map assignment kvs) flat = Ok (dupd flat (map (fun kv => (fst kv, EStr (snd kv))) kvs)).
Proof.
  induction 1 as [|kv kvs Hk _ IH]; intros flat; [reflexivity|]. cbn [map read_variables].
  rewrite key_value_assignment by exact Hk. cbn [rbind fst snd]. rewrite IH. reflexivity.
Qed.

Lemma dget_map_str k kvs : dget k (map (fun kv : str * str => (fst kv, EStr (snd kv))) kvs) = option_map EStr (dget k kvs).
Proof. induction kvs as [|[a v] kvs IH]; [reflexivity|]. cbn. destruct (str_eqb k a); [reflexivity|exact IH]. Qed.

Lemma dget_prefixed (p : str) k (o : dict env_val) : dget (p ++ k) (map (fun kv : str * env_val => (p ++ fst kv, snd kv)) o) = dget k o.
Proof.
  induction o as [|[a v] o IH]; [reflexivity|]. cbn [map dget fst snd]. rewrite IH.
  destruct (str_eqb_spec (p ++ k) (p ++ a)) as [E|E].
  - apply app_inv_head in E. subst. rewrite str_eqb_refl. reflexivity.
  - destruct (str_eqb_spec k a); [congruence|reflexivity].
Qed.
Lemma dget_unprefixed (p q : str) (o : dict env_val) : (forall k, q <> p ++ k) ->
  dget q (map (fun kv : str * env_val => (p ++ fst kv, snd kv)) o) = None.
Proof.
  intros H. apply dget_none. intros K. unfold keys in K. rewrite map_map in K. cbn [fst] in K.
  apply in_map_iff in K as ([a v] & E & _). exact (H _ (eq_sym E)).
Qed.

(* the name of a variable in the environment *)
Definition variable_name (ns default k : str) : str :=
  lit "mau." ++ (match ns with [] => default | _ => ns end) ++ lit "." ++ k.

Theorem C51_variables_partial e kvs ns : flat_env e -> Forall no_equals kvs ->
  exists e', load_environment_variables e (map assignment kvs) ns = Ok e' /\
    (forall k, env_item e' (variable_name ns (lit "envvars") k) =
       match last_given kvs k with Some v => Ok (EStr v) | None => env_item e (variable_name ns (lit "envvars") k) end) /\
    (forall q, (forall k, q <> variable_name ns (lit "envvars") k) -> env_item e' q = env_item e q).
Proof.
  intros He Hk. unfold load_environment_variables. rewrite read_variables_spec by exact Hk. cbn [rbind].
  eexists. split; [reflexivity|].
  set (flat := dupd [] (map (fun kv : str * str => (fst kv, EStr (snd kv))) kvs)).
  set (root := lit "mau" ++ [DOT] ++ namespace_or ns (lit "envvars")).
  assert (Hroot : root <> []) by discriminate.
  assert (Hname : forall k, variable_name ns (lit "envvars") k = (root ++ [DOT]) ++ k).
  { intros k. unfold variable_name, root, namespace_or. destruct ns; rewrite <- !app_assoc; reflexivity. }
  assert (Hflat : flat_env flat).
  { apply flat_dupd; [apply flat_empty|]. apply Forall_map. apply Forall_forall. intros x _. exact I. }
  assert (Hget : forall k, dget k flat = option_map EStr (last_given kvs k)).
  { intros k. unfold flat. rewrite dget_dupd_rev. rewrite <- map_rev, dget_map_str. unfold last_given.
    destruct (dget k (rev kvs)); reflexivity. }
  clearbody root flat. clear Hk.
  assert (Hnew : forall q, dget q (match flat with [] => e | _ :: _ => env_dupdate e flat (Some root) end) =
    match dget q (map (fun kv : str * env_val => ((root ++ [DOT]) ++ fst kv, snd kv)) flat) with Some v => Some v | None => dget q e end).
  { intros q. destruct flat as [|kv f]; [reflexivity|].
    assert (E : env_dupdate e (kv :: f) (Some root) = dupd e (env_from_dict (kv :: f) (Some root))).
    { unfold env_from_dict, env_dupdate at 2, env_empty. unfold env_dupdate.
      destruct root as [|a root]; [congruence|]. rewrite (dupd_nil (flatten_nested_dict _ _)); [reflexivity|].
      unfold flatten_nested_dict. cbn [fold_left]. apply dupd_nodup. constructor. }
    rewrite E. rewrite dget_dupd by (apply (flat_dupdate env_empty (kv :: f) (Some root)), flat_empty).
    rewrite from_dict_ns by (try exact Hflat; try exact Hroot; discriminate).
    assert (Em : map (fun kv : str * env_val => (root ++ [DOT] ++ fst kv, snd kv)) (kv :: f) =
                 map (fun kv : str * env_val => ((root ++ [DOT]) ++ fst kv, snd kv)) (kv :: f)).
    { apply map_ext. intros [a v]. cbn [fst snd]. rewrite <- app_assoc. reflexivity. }
    rewrite Em. reflexivity. }
  split.
  - intros k. unfold env_item. rewrite Hname, Hnew, dget_prefixed, Hget. destruct (last_given kvs k); reflexivity.
  - intros q Hq. unfold env_item. rewrite Hnew. rewrite dget_unprefixed; [reflexivity|]. intros k E. apply (Hq k). rewrite Hname. exact E.
Qed.

(* Anything else on the list makes the program stop: also KEY=VALUE when the value
   contains an equals sign. *)
Lemma read_variables_error vs flat v : In v vs -> (forall kv, no_equals kv -> v <> assignment kv) ->
  read_variables vs flat = Exc (ExPy "ValueError").
Proof.
  intros Hin Hv. revert flat. induction vs as [|u vs IH]; intros flat; [destruct Hin|].
  assert (K : forall u, (exists kv, key_value u = Ok kv /\ no_equals kv /\ u = assignment kv) \/ key_value u = Exc (ExPy "ValueError")).
  { clear. intros u. unfold key_value. destruct (split_on EQUALS u) as [|k [|v [|]]] eqn:E; auto. left. exists (k, v).
    pose proof (split_on_parts EQUALS u) as P. rewrite E in P. inversion P as [|x y P1 P2]; subst. inversion P2; subst.
    split; [reflexivity|]. split; [split; assumption|]. rewrite <- (join_split EQUALS u), E. reflexivity. }
  cbn [read_variables]. destruct (K u) as [(kv & E & H1 & H2)|E]; rewrite E; [|reflexivity]. cbn [rbind].
  destruct Hin as [->|Hin]; [destruct (Hv kv H1 H2)|]. apply IH, Hin.
Qed.

Theorem C51_refuted :
  (forall e vs ns v, In v vs -> (forall kv, no_equals kv -> v <> assignment kv) ->
     load_environment_variables e vs ns = Exc (ExPy "ValueError")) /\
  (forall e ns, load_environment_variables e [lit "query=a=b"] ns = Exc (ExPy "ValueError")).
Proof.
  split; [|reflexivity]. intros e vs ns v Hin Hv. unfold load_environment_variables.
  rewrite (read_variables_error vs [] v Hin Hv). reflexivity.
Qed.

Example C51_ex : exists e', load_environment_variables (env_from_dict [(lit "mau", EDict [(lit "x", EDict [(lit "old", EStr (lit "0"))])])] None)
   (map assignment [(lit "a", lit "1"); (lit "b.c", lit "2"); (lit "a", lit "3")]) (lit "x") = Ok e' /\
  keys e' = [lit "mau.x.old"; lit "mau.x.a"; lit "mau.x.b.c"] /\ env_item e' (lit "mau.x.a") = Ok (EStr (lit "3")).
Proof. eexists. split; [vm_compute; reflexivity|]. split; reflexivity. Qed.

(* ------------------------------------------------------------------ C61 *)
(* the leaves of a YAML document *)
Inductive leaf_at : env_val -> list str -> env_val -> Prop :=
| leaf_here v : (forall kv d, v <> EDict (kv :: d)) -> leaf_at v [] v
| leaf_below d k v p w : In (k, v) d -> leaf_at v p w -> leaf_at (EDict d) (k :: p) w.

Lemma leaf_paths v p w : leaf_at v p w -> In (p, w) (val_paths v).
Proof.
  induction 1 as [v H|d k v p w Hin _ IH].
  - rewrite val_paths_leaf; [left; reflexivity|]. destruct v as [| | |[|kv d]]; try exact I. exact (H kv d eq_refl).
  - destruct d as [|kv d]; [destruct Hin|]. rewrite val_paths_dict. revert Hin. generalize (kv :: d). clear kv d. intros d.
    induction d as [|[a u] d IHd]; intros Hin; [destruct Hin|]. rewrite paths_cons', in_app_iff. destruct Hin as [Hin|Hin].
    + injection Hin as -> ->. left. apply in_map_iff. exists (p, w). auto.
    + right. auto.
Qed.

Lemma read_files_spec yaml files contents : Forall2 (fun f c => yaml (snd (key_path f)) = Some c) files contents ->
  forall flat, read_files yaml files flat = Ok (dupd flat (combine (map (fun f => fst (key_path f)) files) contents)).
Proof.
  induction 1 as [|f c files contents H _ IH]; intros flat; [reflexivity|]. cbn [read_files]. rewrite H, IH. reflexivity.
Qed.

(* A file is given as KEY=PATH, or as a path without equals sign (the key is the
   name of the file without its extension) *)
Theorem C61_key_path :
  (forall k p, no_equals (k, p) -> key_path (k ++ lit "=" ++ p) = (k, p)) /\
  (forall dir name ext, ~ In EQUALS (dir ++ lit "/" ++ name ++ lit "." ++ ext) ->
     ~ In SLASH name -> ~ In SLASH ext -> ~ In DOT ext -> name <> [] -> ext <> [] ->
     key_path (dir ++ lit "/" ++ name ++ lit "." ++ ext) = (name, dir ++ lit "/" ++ name ++ lit "." ++ ext)).
Proof.
  split.
  - intros k p H. unfold key_path. change (k ++ lit "=" ++ p) with (assignment (k, p)). rewrite key_value_assignment by exact H. reflexivity.
  - intros dir name ext He Hn Hx Hd Hn0 Hx0. set (p := dir ++ _).
    unfold key_path, key_value. rewrite split_on_none by exact He. f_equal.
    unfold stem. assert (Ep : path_name p = name ++ [DOT] ++ ext).
    { unfold path_name. assert (Es : split_on SLASH p = split_on SLASH dir ++ [name ++ [DOT] ++ ext]).
      { unfold p. change (lit "/") with [SLASH]. change (lit ".") with [DOT]. cbn [app]. clear - Hn Hx.
        induction dir as [|c dir IH].
        - cbn [app split_on]. rewrite N.eqb_refl. rewrite split_on_none; [reflexivity|].
          intros K. apply in_app_iff in K as [K|[K|K]]; [exact (Hn K)|discriminate|exact (Hx K)].
        - cbn [app split_on]. rewrite IH. destruct (c =? SLASH)%N; [reflexivity|].
          destruct (split_on SLASH dir) as [|q qs] eqn:E; [apply split_on_nonnil in E; contradiction|]. reflexivity. }
      rewrite Es, filter_app. cbn [filter].
      assert (K : negb (str_eqb (name ++ [DOT] ++ ext) []) && negb (str_eqb (name ++ [DOT] ++ ext) [DOT]) = true).
      { destruct name as [|c name]; [congruence|]. cbn [app]. apply andb_true_iff. split; [reflexivity|].
        apply negb_true_iff, str_eqb_neq. intros K. injection K as -> K. destruct name; discriminate. }
      rewrite K. apply last_last. }
    rewrite Ep. assert (Es : split_on DOT (name ++ [DOT] ++ ext) = split_on DOT name ++ [ext]).
    { clear - Hd. cbn [app]. induction name as [|c name IH].
      - cbn [app split_on]. rewrite N.eqb_refl, split_on_none by exact Hd. reflexivity.
      - cbn [app split_on]. rewrite IH. destruct (c =? DOT)%N; [reflexivity|].
        destruct (split_on DOT name) as [|q qs] eqn:E; [apply split_on_nonnil in E; contradiction|]. reflexivity. }
    rewrite Es, removelast_last, last_last, join_split. destruct name; [congruence|]. destruct ext; [congruence|]. reflexivity.
Qed.

Theorem C61_files e yaml files contents ns : flat_env e ->
  Forall2 (fun f c => yaml (snd (key_path f)) = Some c) files contents ->
  Forall nested contents -> Forall (fun f => ~ In DOT (fst (key_path f))) files ->
  exists e', load_environment_files yaml e files ns = Ok e' /\
    (forall k c p v, last_given (combine (map (fun f => fst (key_path f)) files) contents) k = Some c -> leaf_at c p v ->
       env_item e' (join (lit ".") (variable_name ns (lit "envfiles") k :: p)) = Ok v) /\
    (forall q, (forall k, q <> variable_name ns (lit "envfiles") k) -> env_item e' q = env_item e q).
Proof.
  intros He Hy Hc Hd. unfold load_environment_files. rewrite (read_files_spec _ _ _ Hy). cbn [rbind].
  set (given := combine (map (fun f => fst (key_path f)) files) contents).
  set (root := lit "mau" ++ [DOT] ++ namespace_or ns (lit "envfiles")).
  exists (match dupd [] given with [] => e | _ :: _ => env_dupdate e (dupd [] given) (Some root) end).
  split; [destruct (dupd [] given); reflexivity|].
  assert (Hroot : root <> []) by discriminate.
  assert (Hname : forall k, variable_name ns (lit "envfiles") k = root ++ [DOT] ++ k).
  { intros k. unfold variable_name, root, namespace_or. destruct ns; rewrite <- ?app_assoc; reflexivity. }
  assert (Hw : wf_dict_ (dupd [] given)).
  { apply wf_dict_iff. split; [apply dupd_nodup; constructor|].
    assert (G : Forall (fun kv => no_chr DOT (fst kv) /\ wf_val (snd kv)) given).
    { unfold given. clear - Hy Hc Hd. induction Hy as [|f c files contents H _ IH]; [constructor|].
      inversion Hc; subst. inversion Hd; subst. cbn [map combine]. constructor; [|auto]. cbn. split; [assumption|]. apply nested_wf. assumption. }
    apply Forall_forall. intros [k v] Hin. apply in_dget in Hin; [|apply dupd_nodup; constructor].
    rewrite dget_dupd_rev in Hin. cbn [dget] in Hin. destruct (dget k (rev given)) eqn:E; [|discriminate]. injection Hin as ->.
    apply dget_in, in_rev in E. rewrite Forall_forall in G. exact (G _ E). }
  assert (Hget : forall k c, last_given given k = Some c -> In (k, c) (dupd [] given)).
  { intros k c E. apply dget_in. rewrite dget_dupd_rev. unfold last_given in E. rewrite E. reflexivity. }
  clearbody root given. revert Hw Hget. generalize (dupd [] given). intros flat Hw Hget.
  assert (Hnew : forall q, dget q (match flat return env with [] => e | _ :: _ => env_dupdate e flat (Some root) end) =
    match dget q (map (fun pv => (join [DOT] (root :: fst pv), snd pv)) (paths flat)) with Some v => Some v | None => dget q e end /\
    NoDup (keys (map (fun pv => (join [DOT] (root :: fst pv), snd pv)) (paths flat)))).
  { intros q.
    assert (N : NoDup (keys (map (fun pv => (join [DOT] (root :: fst pv), snd pv)) (paths flat)))).
    { destruct (wf_dict_paths _ Hw) as (P1 & P2 & _). apply (nodup_flat_entries (fun p => join [DOT] (root :: p))); [exact P1|].
      intros p' q' v' w' H1 H2. rewrite Forall_forall in P2. apply join_key_inj; [exact (P2 _ H1)|exact (P2 _ H2)]. }
    split; [|exact N]. destruct flat as [|kv f]; [reflexivity|].
    unfold env_dupdate. destruct root as [|a root]; [congruence|].
    assert (E : flatten_nested_dict [] [(a :: root, EDict (kv :: f))] =
                map (fun pv => (join [DOT] ((a :: root) :: fst pv), snd pv)) (paths (kv :: f))).
    { unfold flatten_nested_dict. cbn [fold_left fst snd child_key].
      rewrite flat_value_paths by (try (left; discriminate); apply wf_dict; exact Hw).
      rewrite val_paths_dict. apply dupd_nil. exact N. }
    rewrite E. apply dget_dupd. exact N. }
  split.
  - intros k c p v Ek Hl. unfold env_item. destruct (Hnew (join (lit ".") (variable_name ns (lit "envfiles") k :: p))) as [E N].
    rewrite E. rewrite (in_dget _ v); [reflexivity|exact N|].
    apply in_map_iff. exists (k :: p, v). cbn [fst snd]. split.
    + rewrite Hname. f_equal. change (lit ".") with [DOT]. destruct p as [|b p]; [reflexivity|].
      rewrite !join_cons by discriminate. rewrite (join_cons _ (root ++ [DOT] ++ k)) by discriminate. rewrite <- !app_assoc. reflexivity.
    + apply Hget in Ek. apply leaf_paths in Hl. revert Ek. generalize flat. intros d.
      induction d as [|[a u] d IHd]; intros Hin; [destruct Hin|]. rewrite paths_cons', in_app_iff. destruct Hin as [Hin|Hin].
      * injection Hin as -> ->. left. apply in_map_iff. exists (p, v). auto.
      * right. auto.
  - intros q Hq. unfold env_item. destruct (Hnew q) as [E N]. rewrite E.
    assert (K : dget q (map (fun pv => (join [DOT] (root :: fst pv), snd pv)) (paths flat)) = None).
    { apply dget_none. intros K. unfold keys in K. rewrite map_map in K. cbn [fst] in K.
      apply in_map_iff in K as ([p v] & Ep & Hin). cbn [fst] in Ep. destruct p as [|k p]; [exact (paths_nonempty _ _ _ Hin eq_refl)|].
      rewrite join_cons in Ep by discriminate. apply (Hq (join [DOT] (k :: p))). rewrite Hname. symmetry. exact Ep. }
    rewrite K. reflexivity.
Qed.

Theorem C61_bad_file e yaml files ns f : In f files -> yaml (snd (key_path f)) = None ->
  load_environment_files yaml e files ns = Exc (ExPy "ConfigurationError").
Proof.
  intros Hin Hf. unfold load_environment_files. assert (K : forall flat, read_files yaml files flat = Exc (ExPy "ConfigurationError")).
  { induction files as [|g files IH]; intros flat; [destruct Hin|]. cbn [read_files]. destruct Hin as [->|Hin]; [rewrite Hf; reflexivity|].
    destruct (yaml (snd (key_path g))); [apply IH, Hin|reflexivity]. }
  rewrite K. reflexivity.
Qed.

Example C61_ex :
  let yaml := fun p => if str_eqb p (lit "conf/site.yaml") then Some (EDict [(lit "title", EStr (lit "T")); (lit "nav", EDict [(lit "home", EStr (lit "/"))])]) else None in
  exists e', load_environment_files yaml env_empty [lit "conf/site.yaml"] [] = Ok e' /\
    keys e' = [lit "mau.envfiles.site.title"; lit "mau.envfiles.site.nav.home"].
Proof. eexists. split; vm_compute; reflexivity. Qed.

(* ------------------------------------------------------------------ C71 *)
(* The configuration is in the environment under "mau", the files and the variables
   below it in their namespaces: a variable wins over the leaf of a file with the same
   name, and both win over the configuration. *)
Lemma config_leaves cfg p v : nested cfg -> leaf_at cfg p v ->
  env_item (dupd env_empty (flatten_nested_dict [] [(lit "mau", cfg)])) (join (lit ".") (lit "mau" :: p)) = Ok v.
Proof.
  intros Hn Hl. assert (Hw : wf_dict_ [(lit "mau", cfg)]).
  { apply wf_dict_iff. split; [repeat constructor; intros []|]. constructor; [|constructor]. cbn [fst snd]. split; [|apply nested_wf, Hn].
    intros H. cbn in H. repeat (destruct H as [H|H]; [discriminate H|]). exact H. }
  assert (N : NoDup (keys (map (fun pv => (join [DOT] (fst pv), snd pv)) (paths [(lit "mau", cfg)])))).
  { destruct (wf_dict_paths _ Hw) as (P1 & P2 & _). apply (nodup_flat_entries (fun p => join [DOT] p)); [exact P1|].
    rewrite Forall_forall in P2. intros p' q' v' w' H1 H2. apply join_dot_inj; [exact (P2 _ H1)|exact (P2 _ H2)| |]; eapply paths_nonempty; eauto. }
  assert (Ep : paths [(lit "mau", cfg)] = map (fun pv => (lit "mau" :: fst pv, snd pv)) (val_paths cfg)).
  { rewrite paths_cons'. cbn [paths]. rewrite app_nil_r. reflexivity. }
  assert (E : flatten_nested_dict [] [(lit "mau", cfg)] = map (fun pv => (join [DOT] (fst pv), snd pv)) (paths [(lit "mau", cfg)])).
  { unfold flatten_nested_dict. cbn [fold_left fst snd child_key]. rewrite flat_value_paths by (try (left; discriminate); apply nested_wf, Hn).
    rewrite dupd_nil.
    - rewrite Ep, map_map. reflexivity.
    - rewrite Ep, map_map in N. exact N. }
  unfold env_item. rewrite E. unfold env_empty. rewrite dupd_nil by exact N. rewrite (in_dget _ v); [reflexivity|exact N|].
  apply in_map_iff. exists (lit "mau" :: p, v). split; [reflexivity|]. rewrite Ep. apply in_map_iff. exists (p, v). split; [reflexivity|]. apply leaf_paths, Hl.
Qed.

Theorem C71_precedence w a cfg contents kvs :
  match op_config a with None | Some [] => cfg = EDict [] | Some c => wd_yaml w c = Some cfg end -> nested cfg ->
  Forall2 (fun f c => wd_yaml w (snd (key_path f)) = Some c) (op_files a) contents -> Forall nested contents ->
  Forall (fun f => ~ In DOT (fst (key_path f))) (op_files a) ->
  op_variables a = map assignment kvs -> Forall no_equals kvs ->
  let var := variable_name (op_variables_ns a) (lit "envvars") in
  let file := variable_name (op_files_ns a) (lit "envfiles") in
  exists e, main_environment w a = Ok e /\
    (forall k v, last_given kvs k = Some v -> env_item e (var k) = Ok (EStr v)) /\
    (forall k c p v, last_given (combine (map (fun f => fst (key_path f)) (op_files a)) contents) k = Some c -> leaf_at c p v ->
       let q := join (lit ".") (file k :: p) in
       (forall k', q = var k' -> last_given kvs k' = None) -> env_item e q = Ok v) /\
    (forall p v, leaf_at cfg p v ->
       let q := join (lit ".") (lit "mau" :: p) in
       (forall k', q = var k' -> last_given kvs k' = None) -> (forall k, q <> file k) -> env_item e q = Ok v).
Proof.
  intros Hc Hn Hy Hcs Hd Hv Hk var file. unfold main_environment.
  assert (E : match op_config a with
    | Some ((_ :: _) as c) => match wd_yaml w c with Some v => Ok v | None => Exc (ExPy "Error") end
    | _ => Ok (EDict []) end = Ok cfg).
  { destruct (op_config a) as [[|x c]|]; [rewrite Hc|rewrite Hc|rewrite Hc]; reflexivity. }
  rewrite E. cbn [rbind]. clear E Hc.
  assert (F : flat_env (dupd env_empty (flatten_nested_dict [] [(lit "mau", cfg)]))) by (apply (flat_dupdate env_empty [(lit "mau", cfg)] None), flat_empty).
  destruct (C61_files _ (wd_yaml w) (op_files a) contents (op_files_ns a) F Hy Hcs Hd) as (e1 & E1 & L1 & K1). rewrite E1. cbn [rbind].
  assert (F1 : flat_env e1).
  { unfold load_environment_files in E1. destruct (read_files _ _ _) as [flat|]; [|discriminate]. cbn [rbind] in E1.
    destruct flat; [|].
    - assert (e1 = dupd env_empty (flatten_nested_dict [] [(lit "mau", cfg)])) as -> by congruence. exact F.
    - match type of E1 with Ok ?t = _ => assert (e1 = t) as -> by congruence end. apply flat_dupdate, F. }
  destruct (C51_variables_partial e1 kvs (op_variables_ns a) F1 Hk) as (e2 & E2 & L2 & K2). rewrite Hv, E2. exists e2. split; [reflexivity|].
  assert (G : forall q, (forall k', q = var k' -> last_given kvs k' = None) -> env_item e2 q = env_item e1 q).
  { intros q Hq. destruct (list_eq_dec N.eq_dec (firstn (length (var [])) q) (var [])) as [Ep|Ep].
    - assert (Eq : q = var (skipn (length (var [])) q)).
      { rewrite <- (firstn_skipn (length (var [])) q) at 1. rewrite Ep. unfold var, variable_name. rewrite <- !app_assoc. reflexivity. }
      rewrite Eq at 1. unfold var at 1. rewrite L2. rewrite (Hq _ Eq). unfold var in Eq at 1. rewrite <- Eq. reflexivity.
    - apply K2. intros k ->. apply Ep. unfold var, variable_name. rewrite !(app_assoc (lit "mau.")), !(app_assoc _ (lit ".")).
      rewrite app_nil_r. rewrite firstn_app, firstn_all, Nat.sub_diag. cbn [firstn]. apply app_nil_r. }
  split; [|split].
  - intros k v Hl. unfold var. rewrite L2, Hl. reflexivity.
  - intros k c p v Hl Hp Hq. rewrite G by exact Hq. apply (L1 _ _ _ _ Hl Hp).
  - intros p v Hp Hq Hf. rewrite G by exact Hq. rewrite K1 by exact Hf. apply config_leaves; assumption.
Qed.
Example C71_ex :
  let yaml p := if str_eqb p (lit "c") then Some (EDict [(lit "x", EDict [(lit "s", EDict [(lit "a", EStr (lit "config a"))]); (lit "z", EStr (lit "config z"))])])
                else if str_eqb p (lit "s.yaml") then Some (EDict [(lit "a", EStr (lit "file a")); (lit "b", EStr (lit "file b"))]) else None in
  let w := mkWorld yaml (fun _ => Ok []) [] (mkConfig (fun _ => Missing) (fun _ => []) (fun _ => []) 1) 1 in
  let o := mkOptions (Some (lit "c")) (lit "d.mau") None [lit "s=s.yaml"] (lit "x") [lit "s.b=var b"] (lit "x") None false false in
  exists e, main_environment w o = Ok e /\ env_item e (lit "mau.x.s.a") = Ok (EStr (lit "file a")) /\
    env_item e (lit "mau.x.s.b") = Ok (EStr (lit "var b")) /\ env_item e (lit "mau.x.z") = Ok (EStr (lit "config z")).
Proof. eexists. split; [vm_compute; reflexivity|]. repeat split. Qed.

(* ------------------------------------------------------------------ C52 *)
Definition contains (sub s : str) : Prop := exists a b, s = a ++ sub ++ b.

Lemma split_sub_skip sep : forall k cur s, split_sub sep k cur s = split_sub sep 0 cur (skipn k s).
Proof.
  induction k as [|k IH]; intros cur s; [reflexivity|]. destruct s as [|c s]; [reflexivity|]. cbn [split_sub skipn]. apply IH.
Qed.
(* cutting a text at the first occurrence *)
Lemma split_sub_cases (sep : str) : sep <> [] -> forall s cur,
  (~ contains sep s /\ split_sub sep 0 cur s = [cur ++ s]) \/
  (exists a b, s = a ++ sep ++ b /\ split_sub sep 0 cur s = (cur ++ a) :: split_sub sep 0 [] b).
Proof.
  intros Hs. induction s as [|c s IH]; intros cur.
  - left. split; [|cbn [split_sub]; rewrite app_nil_r; reflexivity].
    intros (a & b & E). destruct a; [|discriminate]. destruct sep; [congruence|discriminate].
  - cbn [split_sub]. destruct (startswith sep (c :: s)) eqn:E.
    + apply startswith_spec in E as [b E]. right. exists [], b. split; [exact E|]. rewrite app_nil_r. f_equal.
      rewrite split_sub_skip. f_equal. destruct sep as [|d sep]; [congruence|]. injection E as _ ->. assert (El : length (d :: sep) - 1 = length sep) by (cbn [length]; lia). rewrite El.
      rewrite skipn_app, skipn_all, Nat.sub_diag. reflexivity.
    + destruct (IH (cur ++ [c])) as [[H1 H2]|(a & b & -> & H2)]; rewrite H2, <- app_assoc.
      * left. split; [|reflexivity]. intros (a & b & E2). destruct a as [|a0 a].
        { assert (K : startswith sep (c :: s) = true) by (apply startswith_spec; exists b; exact E2). congruence. }
        injection E2 as -> ->. apply H1. exists a, b. reflexivity.
      * right. exists (c :: a), b. split; reflexivity.
Qed.

Lemma split_sub_nonnil sep : forall s k cur, split_sub sep k cur s <> [].
Proof. induction s as [|c s IH]; intros [|k] cur; cbn [split_sub]; try discriminate; [destruct (startswith sep (c :: s)); [discriminate|]|]; apply IH. Qed.

(* what str.replace does: the first occurrence is replaced, then the rest *)
Lemma replace_cases (old new : str) s : old <> [] ->
  (~ contains old s /\ replace old new s = s) \/ (exists a b, s = a ++ old ++ b /\ replace old new s = a ++ new ++ replace old new b).
Proof.
  intros Ho. unfold replace. destruct (split_sub_cases old Ho s []) as [[H E]|(a & b & Es & E)]; rewrite E; [left; split; [exact H|reflexivity]|].
  right. exists a, b. split; [exact Es|]. rewrite join_cons by apply split_sub_nonnil. reflexivity.
Qed.
Lemma replace_length (old new : str) : old <> [] -> forall s, exists k,
  length (replace old new s) + k * length old = length s + k * length new /\ (contains old s -> 0 < k).
Proof.
  intros Ho s. remember (length s) as n eqn:En. revert s En. induction n as [n IH] using lt_wf_ind. intros s ->.
  destruct (replace_cases old new s Ho) as [[H ->]|(a & b & -> & E)].
  - exists 0. split; [lia|]. intros K. destruct (H K).
  - rewrite E. destruct (IH (length b)) with (s := b) as (k & K & _); [|reflexivity|].
    + rewrite !app_length. destruct old; [congruence|cbn [length]; lia].
    + exists (S k). rewrite !app_length. split; [|lia]. cbn [Nat.mul]. lia.
Qed.
Lemma replace_changes (old new s : str) : old <> [] -> new <> old -> contains old s -> replace old new s <> s.
Proof.
  intros Ho Hn Hc E. destruct (replace_length old new Ho s) as (k & K & Kp). specialize (Kp Hc). rewrite E in K.
  assert (L : length old = length new) by nia.
  destruct (replace_cases old new s Ho) as [[H _]|(a & b & Es & Er)]; [exact (H Hc)|].
  rewrite E, Es in Er. apply app_inv_head in Er. apply Hn.
  assert (F : firstn (length old) (old ++ b) = firstn (length old) (new ++ replace old new b)) by (rewrite Er; reflexivity).
  rewrite firstn_app, Nat.sub_diag, firstn_all in F. rewrite L, firstn_app, Nat.sub_diag, firstn_all in F. cbn [firstn] in F. rewrite !app_nil_r in F. symmetry. exact F.
Qed.

(* the file that a run writes *)
Definition writes (r : list event * ending) (f : str) : Prop := exists text, In (Write f text) (fst r).

Lemma fail_writes e f text : ~ In (Write f text) (fst (fail e)).
Proof. destruct e; cbn; first [intros [K|[]]; discriminate | intros []]. Qed.

(* A run that writes a file is one in which everything succeeded. *)
Inductive complete_run (w : world) (a : options) : env -> str -> list token -> dx -> visitor -> str -> Prop :=
| run_complete e text toks x f v out :
    main_environment w a = Ok e -> wd_text w (op_input a) = Ok text ->
    lex_document (buffer text (mkOrigin 0 0 (Some (op_input a)))) = Ok toks -> op_lexer_only a = false ->
    parse_document (wd_depth w) (wd_config w) e text (mkOrigin 0 0 (Some (op_input a))) = Ok x ->
    op_format a = Some f -> dget f (wd_visitors w) = Some v ->
    vs_render v (dx_env x) (document_of x) (dx_done x) = Ok out ->
    complete_run w a e text toks x v out.

Lemma in_printed (b : bool) (ev : list event) f t : In (Write f t) ((if b then [PrintTokens] else []) ++ ev) -> In (Write f t) ev.
Proof. intros K. apply in_app_iff in K as [K|K]; [|exact K]. destruct b; [|destruct K]. destruct K as [K|K]; [discriminate|destruct K]. Qed.

Lemma main_writes w a f t : In (Write f t) (fst (main w a)) ->
  exists e text toks x v out, complete_run w a e text toks x v out /\ f = output_name a v /\ f <> lit "-" /\ t = out ++ [NL] /\
    main w a = ((if op_print_tokens a then [PrintTokens] else []) ++ [Write f t], Exit 0).
Proof.
  unfold main. destruct (main_environment w a) as [e|] eqn:E1; [|intros []]. cbn [rbind].
  destruct (wd_text w (op_input a)) as [text|] eqn:E2; [|intros []]. cbn [rbind].
  destruct (lex_document _) as [toks|] eqn:E3; [|intros K; destruct (fail_writes _ _ _ K)].
  destruct (op_lexer_only a) eqn:E4.
  { cbn [fst]. intros K. apply in_printed in K. destruct K as [K|K]; [discriminate|destruct K]. }
  destruct (parse_document _ _ _ _ _) as [x|ex] eqn:E5.
  2: { destruct (fail ex) as [ev en] eqn:Ef. cbn [fst]. intros K. apply in_printed in K. pose proof (fail_writes ex f t) as N. rewrite Ef in N. destruct (N K). }
  destruct (op_format a) as [[|c fm]|] eqn:E6.
  1,3: cbn [fst]; intros K; apply in_printed in K; destruct K as [K|K]; [discriminate|destruct K].
  destruct (dget (c :: fm) (wd_visitors w)) as [v|] eqn:E7.
  2: { cbn [fst]. intros K. rewrite <- (app_nil_r (if op_print_tokens a then _ else _)) in K. apply in_printed in K. destruct K. }
  destruct (vs_render _ _ _ _) as [out|ex] eqn:E8.
  2: { destruct (fail ex) as [ev en] eqn:Ef. cbn [fst]. intros K. apply in_printed in K. pose proof (fail_writes ex f t) as N. rewrite Ef in N. destruct (N K). }
  cbn [fst]. intros K. apply in_printed in K. unfold write_output in K |- *. destruct (str_eqb_spec (output_name a v) (lit "-")) as [Ed|Ed].
  { destruct K as [K|K]; [discriminate|destruct K]. }
  destruct K as [K|K]; [|destruct K]. injection K as <- <-. exists e, text, toks, x, v, out.
  split; [econstructor; eassumption|]. auto.
Qed.

(* what main does when everything succeeds *)
Lemma main_complete w a e text toks x v out : complete_run w a e text toks x v out -> op_format a <> Some [] ->
  main w a = ((if op_print_tokens a then [PrintTokens] else []) ++ write_output out (output_name a v), Exit 0).
Proof.
  intros H Hf. inversion H as [? ? ? ? f ? ? E1 E2 E3 E4 E5 E6 E7 E8]; subst. unfold main. rewrite E1. cbn [rbind]. rewrite E2. cbn [rbind].
  rewrite E3, E4, E5, E6. destruct f as [|c f]; [destruct (Hf E6)|]. rewrite E7, E8. reflexivity.
Qed.

(* Without -o the input is not overwritten when its name contains .mau (and the
   extension of the format is not itself mau) ... *)
Theorem C52_not_overwritten_partial w a : op_output a = None -> contains (lit ".mau") (op_input a) ->
  (forall f v, dget f (wd_visitors w) = Some v -> vs_extension v <> lit "mau") ->
  ~ writes (main w a) (op_input a).
Proof.
  intros Ho Hc Hv [t K]. apply main_writes in K as (e & text & toks & x & v & out & Hr & Ef & _).
  inversion Hr as [? ? ? ? f ? ? E1 E2 E3 E4 E5 E6 E7 E8]; subst. unfold output_name in Ef. rewrite Ho in Ef.
  apply (replace_changes (lit ".mau") (DOT :: vs_extension v) (op_input a)); [discriminate| |exact Hc|symmetry; exact Ef].
  intros K. apply (Hv _ _ E7). injection K as K. exact K.
Qed.

(* ... and it is, always, when its name does not contain it: a run that succeeds
   replaces the source of the document. *)
Theorem C52_refuted w a e text toks x v out : op_output a = None -> ~ contains (lit ".mau") (op_input a) -> op_input a <> lit "-" ->
  complete_run w a e text toks x v out -> op_format a <> Some [] -> In (Write (op_input a) (out ++ [NL])) (fst (main w a)).
Proof.
  intros Ho Hc Hd Hr Hf. rewrite (main_complete _ _ _ _ _ _ _ _ Hr Hf). cbn [fst]. apply in_app_iff. right.
  assert (E : output_name a v = op_input a).
  { unfold output_name. rewrite Ho. destruct (replace_cases (lit ".mau") (DOT :: vs_extension v) (op_input a)) as [[_ E]|(p & q & E & _)]; [discriminate|exact E|].
    destruct Hc. exists p, q. exact E. }
  rewrite E. unfold write_output. destruct (str_eqb_spec (op_input a) (lit "-")); [congruence|]. left. reflexivity.
Qed.

(* a visitor that gives the number of nodes *)
Definition counter : visitor := mkVisitor (lit "txt") (fun _ d _ => Ok (str_of_nat (match d with Some (l, _) => length l | None => 0 end))).
Definition world1 (name : string) (text : str) : world :=
  mkWorld (fun _ => None) (fun f => if str_eqb f (lit name) then Ok text else Exc (ExPy "FileNotFoundError"))
    [(lit "count", counter)] (mkConfig (fun _ => Missing) (fun _ => lit "id") (fun _ => lit "fid") 100) 5.
Definition options1 (name : string) : options := mkOptions None (lit name) None [] [] [] [] (Some (lit "count")) false false.
Example C52_ex :
  main (world1 "notes.mau" (lit "one")) (options1 "notes.mau") = ([Write (lit "notes.txt") (lit "1" ++ [NL])], Exit 0) /\
  main (world1 "notes.txt" (lit "one")) (options1 "notes.txt") = ([Write (lit "notes.txt") (lit "1" ++ [NL])], Exit 0) /\
  output_name (options1 "a.mau/b.mau") (mkVisitor (lit ".j2") (fun _ _ _ => Ok [])) = lit "a..j2/b..j2".
Proof. split; [|split]; vm_compute; reflexivity. Qed.

(* ------------------------------------------------------------------ C62 *)
(* A file is written only by a run in which everything succeeded: one file, the
   last thing that is done, with the rendered text and a final newline; it is the
   file of -o or the one named after the input. *)
Theorem C62_writes_on_success w a f t : In (Write f t) (fst (main w a)) ->
  snd (main w a) = Exit 0 /\
  (exists printed, fst (main w a) = printed ++ [Write f t] /\ forall g u, ~ In (Write g u) printed) /\
  exists e text toks x v out, complete_run w a e text toks x v out /\ t = out ++ [NL] /\ f <> lit "-" /\
    (forall o, op_output a = Some o -> o <> [] -> f = o) /\
    (op_output a = None -> f = replace (lit ".mau") (lit "." ++ vs_extension v) (op_input a)).
Proof.
  intros K. apply main_writes in K as (e & text & toks & x & v & out & Hr & Ef & Hd & Et & Em). rewrite Em. cbn [fst snd]. split; [reflexivity|]. split.
  - eexists. split; [reflexivity|]. intros g u K. destruct (op_print_tokens a); [|destruct K]. destruct K as [K|K]; [discriminate|destruct K].
  - exists e, text, toks, x, v, out. split; [exact Hr|]. split; [exact Et|]. split; [exact Hd|]. unfold output_name in Ef. split.
    + intros o Eo Ho. rewrite Eo in Ef. destruct o; [congruence|exact Ef].
    + intros Eo. rewrite Eo in Ef. exact Ef.
Qed.

(* When everything succeeds the text is written, or printed with -o - *)
Theorem C62_success w a e text toks x v out : complete_run w a e text toks x v out -> op_format a <> Some [] ->
  snd (main w a) = Exit 0 /\
  (op_output a = Some (lit "-") -> In (PrintText out) (fst (main w a))) /\
  (forall o, op_output a = Some o -> o <> [] -> o <> lit "-" -> In (Write o (out ++ [NL])) (fst (main w a))).
Proof.
  intros Hr Hf. rewrite (main_complete _ _ _ _ _ _ _ _ Hr Hf). cbn [fst snd]. split; [reflexivity|]. unfold output_name. split.
  - intros ->. apply in_app_iff. right. left. reflexivity.
  - intros o -> Ho Hd. destruct o as [|c o]; [congruence|]. apply in_app_iff. right. unfold write_output.
    destruct (str_eqb_spec (c :: o) (lit "-")); [congruence|]. left. reflexivity.
Qed.

(* A Mau error, whoever raises it, is shown and gives the exit code 1. *)
Theorem C62_error_reported w a e text m : main_environment w a = Ok e -> wd_text w (op_input a) = Ok text ->
  let o := mkOrigin 0 0 (Some (op_input a)) in
  (lex_document (buffer text o) = Exc (ExMau m) \/
   (op_lexer_only a = false /\ (exists toks, lex_document (buffer text o) = Ok toks) /\
    (parse_document (wd_depth w) (wd_config w) e text o = Exc (ExMau m) \/
     exists x f v, parse_document (wd_depth w) (wd_config w) e text o = Ok x /\ op_format a = Some f /\ f <> [] /\
       dget f (wd_visitors w) = Some v /\ vs_render v (dx_env x) (document_of x) (dx_done x) = Exc (ExMau m)))) ->
  snd (main w a) = Exit 1 /\ In (PrintMessage m) (fst (main w a)) /\ forall f, ~ writes (main w a) f.
Proof.
  intros E1 E2 o H. unfold main. rewrite E1. cbn [rbind]. rewrite E2. cbn [rbind]. fold o.
  assert (W : forall (b : bool), snd ((if b then [PrintTokens] else []) ++ [PrintMessage m], Exit 1) = Exit 1 /\
     In (PrintMessage m) (fst ((if b then [PrintTokens] else []) ++ [PrintMessage m], Exit 1)) /\
     forall f, ~ writes ((if b then [PrintTokens] else []) ++ [PrintMessage m], Exit 1) f).
  { intros b. cbn [fst snd]. split; [reflexivity|]. split; [apply in_app_iff; right; left; reflexivity|].
    intros f [t K]. apply in_printed in K. destruct K as [K|K]; [discriminate|destruct K]. }
  destruct H as [->|(E4 & [toks ->] & H)]; [exact (W false)|]. rewrite E4.
  destruct H as [->|(x & f & v & -> & -> & Hf & -> & ->)]; [exact (W (op_print_tokens a))|]. destruct f; [congruence|]. exact (W (op_print_tokens a)).
Qed.

Example C62_ex :
  main (world1 "a.mau" (mau ":x")) (options1 "a.mau") = ([], Crash (ExPy "IndexError")) /\
  (exists m, main (world1 "a.mau" (mau "one {x}")) (options1 "a.mau") = ([PrintMessage m], Exit 1)) /\
  main (world1 "a.mau" (mau "one|two")) (options1 "a.mau") = ([Write (lit "a.txt") (lit "1" ++ [NL])], Exit 0).
Proof. split; [vm_compute; reflexivity|]. split; [eexists|]; vm_compute; reflexivity. Qed.

(* ------------------------------------------------------------------ C65 *)
(* The environment of a Mau object is the one that its documents change: after a
   document that defines no variable it answers as before (but for the defaults). *)
Theorem C65_reuse_partial n cf v e text source e' out : flat_env e -> mau_process n cf v e text source = Ok (e', out) ->
  (forall k, ~ defines text (mkOrigin 0 0 (Some source)) k) ->
  forall k, env_item e' k = env_item e k \/ (env_item e k = Exc (ExPy "KeyError") /\ env_item e' k = default_value k).
Proof.
  intros He H Hd k. unfold mau_process in H. destruct (parse_document _ _ _ _ _) as [x|] eqn:P; [|discriminate]. cbn [rbind] in H.
  destruct (vs_render _ _ _ _); [|discriminate]. cbn [rbind] in H. assert (dx_env x = e') as <- by congruence.
  destruct (C63_only_definitions n cf e 0 [] [] _ _ x He P) as [_ K]. destruct (K k) as [D|D]; [destruct (Hd k D)|exact D].
Qed.

(* A second document sees the variables of the first one: the same text is an error
   with a new object. *)
Theorem C65_refuted : let cf := mkConfig (fun _ => Missing) (fun _ => lit "id") (fun _ => lit "fid") 100 in
  let second := mau "{title}" in
  (exists e1 out, mau_process 5 cf counter env_empty (mau ":title:One|") (lit "a.mau") = Ok (e1, out) /\
     exists e2 out2, mau_process 5 cf counter e1 second (lit "b.mau") = Ok (e2, out2)) /\
  (exists m, mau_process 5 cf counter env_empty second (lit "b.mau") = Exc (ExMau m)).
Proof.
  cbv zeta. split.
  - do 2 eexists. split; [vm_compute; reflexivity|]. do 2 eexists. vm_compute. reflexivity.
  - eexists. vm_compute. reflexivity.
Qed.
