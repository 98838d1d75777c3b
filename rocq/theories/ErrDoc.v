(* ErrDoc.v -- which Python exceptions other than MauException the document parser raises *)
From Verif Require Import DocFacts SimFacts LexerThms ParseFacts RunFacts AttachFacts MonoFacts.
From Verif Require Export ErrFacts.

(* ------------------------------------------------ what an element raises *)
(* m, from s, raises a class of S only; when it ends, Q *)
Definition wp {A} (S : string -> Prop) (Q : A -> list token * dx -> Prop) (m : D A) (s : list token * dx) : Prop :=
  okres S (snd (m s)) /\ forall a, snd (m s) = Ok a -> Q a (fst (m s)).
Section Wp.
  Context (S : string -> Prop).
  Lemma wp_ret {A} (Q : A -> _ -> Prop) a s : Q a s -> wp S Q (pret a) s.
  Proof. intros H. split; [exact I|]. cbn. intros b E. apply Ok_inv in E. subst b. exact H. Qed.
  Lemma wp_mau {A} (Q : A -> _ -> Prop) m s : wp S Q (praise (ExMau m)) s.
  Proof. split; [exact I|discriminate]. Qed.
  Lemma wp_py {A} (Q : A -> _ -> Prop) c s : S c -> wp S Q (praise (ExPy c)) s.
  Proof. split; [assumption|discriminate]. Qed.
  Lemma wp_lift {A} (Q : A -> _ -> Prop) r s : okres S r -> (forall a, r = Ok a -> Q a s) -> wp S Q (plift r) s.
  Proof. intros H K. split; [exact H|exact K]. Qed.
  Lemma wp_get (Q : dx -> _ -> Prop) s : Q (snd s) s -> wp S Q pget s.
  Proof. intros H. split; [exact I|]. cbn. intros b E. apply Ok_inv in E. subst b. exact H. Qed.
  Lemma wp_mod (Q : unit -> _ -> Prop) g s : Q tt (fst s, g (snd s)) -> wp S Q (pmod g) s.
  Proof. intros H. split; [exact I|]. cbn. intros [] _. exact H. Qed.
  Lemma wp_bind {A B} (Q : B -> _ -> Prop) (m : D A) (f : A -> D B) s : wp S (fun a s' => wp S Q (f a) s') m s -> wp S Q (pbind m f) s.
  Proof.
    intros [H K]. unfold wp, pbind. destruct (m s) as [s' [a|e]]; cbn [fst snd] in *; [exact (K a eq_refl)|]. split; [exact H|discriminate].
  Qed.
  Lemma wp_weak {A} (Q Q' : A -> _ -> Prop) m s : (forall a s', Q a s' -> Q' a s') -> wp S Q m s -> wp S Q' m s.
  Proof. intros H [H1 H2]. split; auto. Qed.

  (* the parts *)
  Definition top {A} (a : A) (s : list token * dx) : Prop := True.
  Lemma wp_pop_opt (Q : option node_args -> _ -> Prop) s : Q (dx_args (snd s)) (fst s, set_args (snd s) None) -> wp S Q dp_pop_args_opt s.
  Proof. intros H. apply wp_bind, wp_get, wp_bind, wp_mod, wp_ret. exact H. Qed.
  Lemma wp_pop (Q : node_args -> _ -> Prop) s : Q (match dx_args (snd s) with Some a => a | None => empty_args end) (fst s, set_args (snd s) None) -> wp S Q dp_pop_args s.
  Proof. intros H. apply wp_bind, wp_pop_opt, wp_ret. exact H. Qed.
  Lemma wp_labels (Q : labels -> _ -> Prop) s : Q (dx_labels (snd s)) (fst s, set_labels (snd s) []) -> wp S Q dp_pop_labels s.
  Proof. intros H. apply wp_bind, wp_get, wp_bind, wp_mod, wp_ret. exact H. Qed.
  Lemma wp_admitted s : wp S top dp_admitted s.
  Proof. apply wp_bind, wp_get, wp_bind, wp_mod. destruct (dx_control _); [|apply wp_ret; exact I]. apply wp_lift; [apply run_control_err|intros; exact I]. Qed.
  Lemma wp_finish n s : wp S top (dp_finish n) s.
  Proof. apply wp_bind. eapply wp_weak; [|apply wp_admitted]. intros [|] s' _; [apply wp_bind, wp_mod, wp_ret; exact I|apply wp_ret; exact I]. Qed.
  Lemma wp_fresh (Q : nat -> _ -> Prop) s : Q (dx_next (snd s)) (fst s, set_shared (snd s) (Datatypes.S (dx_next (snd s))) (dx_done (snd s))) -> wp S Q dp_fresh s.
  Proof. intros H. apply wp_bind, wp_get, wp_bind, wp_mod, wp_ret. exact H. Qed.
  Lemma wp_text cf (Q : list inode -> _ -> Prop) t s : (forall c, text_error (dx_env (snd s)) c -> S c) ->
    (forall nodes s', dx_env (snd s') = dx_env (snd s) -> dx_args (snd s') = dx_args (snd s) ->
       (nodes = [] -> no_nodes cf (dx_env (snd s)) t) -> Q nodes s') -> wp S Q (dp_text cf (t_value t) (origin_of t)) s.
  Proof.
    intros HS HQ. apply wp_bind, wp_get, wp_bind. pose proof (preprocess_err (dx_env (snd s)) (t_value t) (origin_of t)) as E.
    apply wp_lift; [apply (okres_weak none); [intros c []|exact E]|]. intros p Ep. apply wp_bind.
    apply wp_lift; [apply (okres_weak (text_error (dx_env (snd s)))); [exact HS|apply tp_run_err]|]. intros y Ey.
    apply wp_bind, wp_mod, wp_ret. apply HQ; [reflexivity|reflexivity|]. intros Hn. exists p. do 2 eexists. split; [exact Ep|]. split; [exact Ey|exact Hn].
  Qed.
  Lemma wp_first_last {A} (Q : A * A -> _ -> Prop) l s : (l = [] -> S "IndexError"%string) -> (forall p, Q p s) -> wp S Q (first_last l) s.
  Proof. intros H K. destruct l; [apply wp_py, H; reflexivity|apply wp_ret, K]. Qed.
End Wp.

Lemma wp_fails {A} S (Q : A -> _ -> Prop) m x c : (forall rem, wp S Q m (rem, x)) -> fails m x (ExPy c) -> S c.
Proof. intros H F. destruct (H []) as [K _]. rewrite (F []) in K. exact K. Qed.

Lemma arg_dget x k : dget k (na_named (match dx_args x with Some a => a | None => empty_args end)) = arg_of x k.
Proof. unfold arg_of. destruct (dx_args x); reflexivity. Qed.

Lemma int_err v : okres (fun c => c = "ValueError"%string /\ forall z, py_int v <> Ok z) (py_int v).
Proof.
  assert (E : (exists z, py_int v = Ok z) \/ py_int v = Exc (ExPy "ValueError")).
  { unfold py_int. match goal with |- context [match ?o with Some z => Ok z | None => _ end] => destruct o end; [left; eauto|right; reflexivity]. }
  destruct E as [[z ->]| ->]; [exact I|]. split; [reflexivity|discriminate].
Qed.
Lemma source_err e t a : okres (fun c => (c = "ValueError"%string /\ dget (lit "marker_delimiter") (na_named a) = Some []) \/ config_error (tidy_styles e) c) (source_block e t a).
Proof.
  unfold source_block. destruct (pop_arg a (lit "marker_delimiter")) as [delim a1] eqn:E1.
  assert (Ed : delim = dget (lit "marker_delimiter") (na_named a)) by (unfold pop_arg in E1; congruence). clear E1.
  destruct (pop_arg a1 _) as [prefix a2]. destruct (pop_arg a2 _) as [def a3]. apply okres_bind.
  - unfold style_aliases, config_error, tidy_styles. destruct (env_get e _) as [v|b|].
    + right. split; [left; reflexivity|auto].
    + pose proof (asdict_err b) as H. destruct (env_asdict b) as [d|[| |c|]]; try exact I. right. destruct H as [H1 H2]. split; [exact H1|]. intros [d Hd]. discriminate Hd.
    + exact I.
  - intros al _. destruct (pop_arg (args_set_names a3 _) _) as [lg a4]. apply okres_bind; [|intros; exact I]. apply okres_each. intros [n l].
    unfold source_line_of. destruct (negb _); [exact I|]. apply okres_bind.
    + unfold py_split. destruct (or_else delim (lit ":")) eqn:Eo; [|exact I]. left. split; [reflexivity|]. rewrite <- Ed. destruct delim as [s|]; [|discriminate Eo]. cbn in Eo. subst s. reflexivity.
    + intros sp _. destruct (_ <? _); [exact I|]. destruct (startswith _ _); [exact I|]. destruct (last sp []); exact I.
Qed.

Section Causes.
  Context (cf : config) (run : run_fn).

  Lemma item_err h t x rem : wp (fun c => text_error (dx_env x) c \/ (c = "IndexError"%string /\ no_nodes cf (dx_env x) t))
    (fun _ s => dx_env (snd s) = dx_env x /\ dx_args (snd s) = dx_args x) (dp_do_item cf h t) (rem, x).
  Proof.
    apply wp_bind, wp_text; [auto|]. cbn [snd]. intros nodes s' E1 E2 Hn. apply wp_bind, wp_first_last; [auto|]. intros p. apply wp_ret. auto.
  Qed.
  Lemma items_state items x its x1 : reads_items cf items x its x1 -> dx_env x1 = dx_env x /\ dx_args x1 = dx_args x.
  Proof.
    induction 1 as [x|h t r x n x1 its x2 H _ [IH1 IH2]]; [auto|]. destruct (item_err h t x []) as [_ K].
    rewrite (H []) in K. destruct (K n eq_refl) as [K1 K2]. cbn [snd fst] in K1, K2. rewrite IH1, IH2. auto.
  Qed.
  Lemma list_err h i r x rem : wp (fun c => c = "ValueError"%string /\ exists v, arg_of x (lit "start") = Some v /\ v <> lit "auto" /\ forall z, py_int v <> Ok z)
    top (dp_do_list h i r) (rem, x).
  Proof.
    unfold dp_do_list. cbv zeta. apply wp_bind, wp_pop. cbn [snd fst]. apply wp_bind, wp_get. cbn [snd fst]. rewrite arg_dget. apply wp_bind.
    apply (wp_weak _ top).
    - intros z s' _. apply wp_bind, wp_labels. apply wp_finish.
    - destruct (arg_of x (lit "start")) as [v|]; [|apply wp_bind, wp_mod, wp_ret; exact I]. destruct (str_eqb_spec v (lit "auto")) as [->|N]; [apply wp_bind, wp_mod, wp_ret; exact I|].
      apply wp_bind, wp_lift; [|intros z _; apply wp_bind, wp_mod, wp_ret; exact I]. eapply okres_weak; [|apply int_err]. intros c [-> H]. split; [reflexivity|]. exists v. auto.
  Qed.
  Lemma label_err p t x rem : wp (text_error (dx_env x)) top (dp_do_label cf p t) (rem, x).
  Proof. unfold dp_do_label. cbv zeta. apply wp_bind, wp_text; [auto|]. intros nodes s' _ _ _. apply wp_bind, wp_mod, wp_ret. exact I. Qed.
  Lemma header_err h t x rem : wp (fun c => text_error (dx_env x) c \/ (c = "IndexError"%string /\ no_nodes cf (dx_env x) t)) top (dp_do_header cf h t) (rem, x).
  Proof.
    unfold dp_do_header. apply wp_bind, wp_fresh. cbn [snd fst]. apply wp_bind, wp_text; [auto|]. cbn [snd]. intros nodes s' E1 E2 Hn. apply wp_bind, wp_pop.
    destruct (pop_arg _ _) as [internal a1]. destruct (pop_arg _ _) as [name a2]. apply wp_bind, wp_first_last; [auto|]. intros p. cbv zeta. apply wp_bind, wp_labels.
    apply wp_bind. eapply wp_weak; [|apply wp_admitted]. intros [|] s2 _; [|apply wp_ret; exact I]. apply wp_bind. apply (wp_weak _ top).
    - intros u s3 _. apply wp_bind, wp_mod, wp_bind, wp_mod, wp_ret. exact I.
    - destruct name as [[|c n]|]; try (apply wp_ret; exact I). apply wp_bind, wp_get, wp_bind, wp_lift; [unfold hm_add_header; destruct (dmem _ _); exact I|]. intros m _. apply wp_mod. exact I.
  Qed.
  Lemma lines_err ls : forall x rem, wp (text_error (dx_env x)) (fun l s => dx_env (snd s) = dx_env x /\ (ls <> [] -> l <> [])) (dp_line_nodes cf ls) (rem, x).
  Proof.
    induction ls as [|t ls IH]; intros x rem; [apply wp_ret; auto|]. cbn [dp_line_nodes]. apply wp_bind, wp_text; [auto|]. cbn [snd]. intros nodes [rem' x'] E1 _ _. cbn [snd] in *.
    apply wp_bind. rewrite <- E1. eapply wp_weak; [|apply IH]. intros l s [E3 _]. apply wp_ret. cbn [snd] in *. split; [exact E3|discriminate].
  Qed.
  Lemma paragraph_err ls x rem : ls <> [] -> wp (text_error (dx_env x)) top (dp_do_paragraph cf ls) (rem, x).
  Proof.
    intros Hne. apply wp_bind. eapply wp_weak; [|apply lines_err]. intros l s [_ Hl]. apply wp_bind, wp_pop, wp_bind, wp_first_last; [intros E; destruct (Hl Hne E)|].
    intros p. cbv zeta. apply wp_bind, wp_labels, wp_finish.
  Qed.
  Lemma block_err o content c x rem : wp (may_raise cf run (EBlock o content c) x) top (dp_do_block run o content c) (rem, x).
  Proof.
    unfold dp_do_block. cbv zeta. apply wp_bind, wp_pop. cbn [snd fst]. pose proof (arg_dget x) as Ha.
    set (a0 := match dx_args x with Some a => a | None => empty_args end) in *.
    destruct (pop_arg a0 (lit "classes")) as [classes a1] eqn:E1. assert (H1 : a1 = snd (pop_arg a0 (lit "classes"))) by (rewrite E1; reflexivity).
    destruct (pop_arg a1 (lit "engine")) as [engine a2] eqn:E2. assert (H2 : a2 = snd (pop_arg a1 (lit "engine"))) by (rewrite E2; reflexivity).
    assert (H3 : engine = arg_of x (lit "engine")). { rewrite <- Ha. replace engine with (fst (pop_arg a1 (lit "engine"))) by (rewrite E2; reflexivity). rewrite H1. apply pop_other. discriminate. }
    assert (H4 : dget (lit "marker_delimiter") (na_named a2) = arg_of x (lit "marker_delimiter")). { rewrite <- Ha, H2, pop_other by discriminate. rewrite H1. apply pop_other. discriminate. }
    clearbody a0. apply wp_bind. apply (wp_weak _ top).
    - intros [[node a3] nctx] s _. apply wp_bind, wp_labels. destruct (nonempty _).
      + apply wp_bind, wp_get, wp_bind, wp_lift; [unfold fm_add_body; destruct (dmem _ _); exact I|]. intros m _. apply wp_bind, wp_mod, wp_ret. exact I.
      + destruct (nonempty _); [|apply wp_finish]. destruct (nonempty _); [|apply wp_finish].
        apply wp_bind, wp_get, wp_bind, wp_lift; [unfold gm_add_block; destruct (dmem _ _); exact I|]. intros m _. apply wp_bind, wp_mod, wp_ret. exact I.
    - unfold dp_engine. destruct (str_eqb _ _).
      + apply wp_bind. apply (wp_weak _ top); [intros nodes s _; apply wp_ret; exact I|]. unfold dp_default_engine. destruct content as [t|]; [|apply wp_ret; exact I].
        destruct (token_truthy t); [|apply wp_ret; exact I]. apply wp_bind, wp_get, wp_bind. cbn [snd fst]. apply wp_lift.
        * match goal with |- okres _ ?r => destruct r as [y|[| |k|]] eqn:E end; try exact I. split; [discriminate|]. right. do 6 eexists. exact E.
        * intros y _. apply wp_bind, wp_mod, wp_bind. apply (wp_weak _ top); [intros u s _; apply wp_ret; exact I|]. destruct (str_eqb _ _); [apply wp_mod|apply wp_ret]; exact I.
      + destruct (str_eqb _ _); [apply wp_ret; exact I|]. destruct (str_eqb_spec (or_else engine (lit "default")) (lit "source")) as [Es|]; [|apply wp_mau].
        destruct content as [t|]; [|apply wp_ret; exact I]. destruct (token_truthy t); [|apply wp_ret; exact I]. apply wp_bind, wp_get, wp_bind. cbn [snd fst]. apply wp_lift.
        * eapply okres_weak; [|apply source_err]. intros k Hk. split; [discriminate|]. left. rewrite H4 in Hk. split; [|exact Hk]. rewrite <- H3. destruct engine as [s|]; [|discriminate Es]. cbn in Es. rewrite Es. reflexivity.
        * intros [[lg lines] a3] _. apply wp_ret. exact I.
  Qed.

  Lemma do_include_err o ty args ctx a x s : dx_env (snd s) = dx_env x -> wp (may_raise cf run (EInclude o ty args) x) top (dp_do_include cf run (t_value ty) ctx a) s.
  Proof.
    intros He. unfold dp_do_include. apply wp_bind. apply (wp_weak _ top); [intros r s' _; apply wp_bind, wp_labels, wp_finish|].
    assert (U : forall u s, wp (may_raise cf run (EInclude o ty args) x) (fun _ s' => s' = s) (need_uri u ctx) s).
    { intros u s0. unfold need_uri. destruct (nonempty u); [apply wp_ret; reflexivity|apply wp_mau]. }
    destruct (str_eqb _ _).
    { unfold dp_image. destruct (pop_arg _ _) as [uri a1]. apply wp_bind. eapply wp_weak; [|apply U]. intros u s' _. destruct (pop_arg _ _) as [alt a2]. destruct (pop_arg _ _) as [cl a3]. apply wp_ret. exact I. }
    destruct (str_eqb_spec (t_value ty) (lit "mau")) as [Ht|].
    { unfold dp_mau. destruct (pop_arg _ _) as [uri a1]. destruct (pop_arg _ _) as [pass a2]. apply wp_bind. eapply wp_weak; [|apply U]. intros u s' ->.
      apply wp_bind, wp_mod, wp_bind, wp_get. cbn [snd fst]. destruct (source_in _ _); [apply wp_mau|]. cbv zeta. apply wp_bind, wp_mod, wp_bind. cbn [snd fst].
      unfold dp_read. destruct (cf_files cf u) as [text| |cls] eqn:Ef; [|apply wp_mau|].
      2:{ apply wp_py. cbn [may_raise]. right; right; left. split; [left; exact Ht|]. exists u. exact Ef. }
      apply wp_ret, wp_bind, wp_get. cbn [snd fst]. apply wp_bind. apply (wp_weak _ (fun _ s' => dx_env (snd s') = dx_env x)).
      - intros e s' _. apply wp_bind. apply wp_lift.
        + match goal with |- okres _ ?r => destruct r as [y|[| |k|]] eqn:E end; try exact I. cbn [may_raise]. right; right; right. split; [exact Ht|]. right. do 6 eexists. exact E.
        + intros y _. apply wp_bind, wp_mod, wp_ret. exact I.
      - destruct (str_eqb _ _); [|apply wp_ret; exact He]. apply wp_lift; [|intros; exact He]. unfold env_from_environment.
        change (dx_env (set_forbidden (set_forbidden (snd s) (add_source (c_source ctx) (dx_forbidden (snd s)))) _)) with (dx_env (snd s)).
        match goal with |- context [env_asdict ?w] => change w with (dx_env (snd s)) end. rewrite He.
        apply okres_bind; [|intros; exact I]. eapply okres_weak; [|apply asdict_err]. intros k [Hk1 Hk]. cbn [may_raise]. right; right; right. split; [exact Ht|]. left. split; [exact Hk1|]. intros [d Hd]. exact (Hk d Hd). }
    destruct (str_eqb_spec (t_value ty) (lit "raw")) as [Ht|].
    { unfold dp_include_raw. destruct (pop_arg _ _) as [uri a1]. apply wp_bind. eapply wp_weak; [|apply U]. intros u s' ->. apply wp_bind.
      unfold dp_read. destruct (cf_files cf u) as [text| |cls] eqn:Ef; [|apply wp_mau|].
      2:{ apply wp_py. cbn [may_raise]. right; right; left. split; [right; exact Ht|]. exists u. exact Ef. }
      apply wp_ret, wp_ret. exact I. }
    destruct (str_eqb _ _). { apply wp_bind, wp_bind, wp_fresh, wp_bind, wp_mod, wp_ret, wp_ret. exact I. }
    destruct (str_eqb _ _). { apply wp_bind, wp_bind, wp_fresh, wp_bind, wp_mod, wp_ret, wp_ret. exact I. }
    destruct (str_eqb_spec (t_value ty) (lit "blockgroup")) as [Ht|]; [|apply wp_ret; exact I].
    unfold dp_blockgroup. destruct (pop_arg _ _) as [g a1]. destruct g as [g|]; [|apply wp_py; cbn [may_raise]; right; left; auto].
    apply wp_bind, wp_fresh, wp_bind, wp_mod, wp_ret. exact I.
  Qed.

  Lemma element_err el x rem : shaped el -> (forall items, el <> EItems items) -> wp (may_raise cf run el x) top (do_element cf run el) (rem, x).
  Proof.
    intros Hs Hl. destruct el as [t|t|o n c v|r t|o op c|o t c|h t|o t c|o ty [[c t]|]|items|ls]; cbn [do_element].
    - apply wp_ret. exact I.
    - apply wp_bind, wp_pop, wp_bind, wp_labels, wp_finish.
    - unfold dp_do_variable. cbv zeta. destruct (match v with Some v => _ | None => _ end) as [value ctx]. apply wp_bind, wp_get, wp_bind. apply (wp_weak _ top).
      + intros [n' v'] s _. cbn [snd fst]. destruct v'; [apply wp_mau|]. apply wp_bind, wp_mod, wp_ret. exact I.
      + destruct (startswith _ _); [apply wp_ret; exact I|]. destruct (startswith _ _); [apply wp_ret; exact I|]. destruct value; [apply wp_ret; exact I|].
        apply wp_bind, wp_lift; [|intros; apply wp_ret; exact I]. apply (okres_weak none); [intros k []|apply preprocess_err].
    - apply label_err.
    - unfold dp_do_control. apply wp_bind, wp_get, wp_bind, wp_lift; [apply make_control_err|]. intros ct _. apply wp_bind, wp_mod, wp_ret. exact I.
    - unfold dp_do_arguments. apply wp_bind, wp_get, wp_bind, wp_lift; [apply process_arguments_with_variables_err|]. intros p _. apply wp_bind, wp_mod, wp_ret. exact I.
    - apply header_err.
    - apply block_err.
    - apply wp_bind, wp_pop_opt. cbn [snd fst]. destruct (dx_args x); [apply wp_mau|]. apply wp_bind. unfold dp_inline_args. apply wp_bind, wp_get, wp_bind. cbn [snd fst]. apply wp_lift.
      + eapply okres_weak; [|apply process_arguments_with_variables_err]. intros k Hk. left. split; [discriminate|exact Hk].
      + intros p _. apply wp_ret. apply do_include_err. reflexivity.
    - apply wp_bind, wp_pop. apply do_include_err. reflexivity.
    - destruct (Hl items eq_refl).
    - apply paragraph_err. destruct Hs as [Hs _]. exact Hs.
  Qed.

  Lemma raises_err el x c : shaped el -> element_fails cf run el x (ExPy c) -> may_raise cf run el x c.
  Proof.
    intros Hs H. destruct el as [t|t|o n k v|r t|o op k|o t k|h t|o t k|o ty args|items|ls].
    10:{ cbn [element_fails may_raise] in *. destruct H as [(before & h & t & after & its & x1 & -> & Hr & Hf)|(i & its & nodes & x1 & Hr & _ & Hf)].
      - destruct (items_state _ _ _ _ Hr) as [E1 E2]. apply (wp_fails _ _ _ _ _ (item_err h t x1)) in Hf. rewrite E1 in Hf. destruct Hf as [Hf|[Hf Hn]]; [left; exact Hf|].
        right; left. split; [exact Hf|]. exists h, t. split; [apply in_elt|exact Hn].
      - destruct (items_state _ _ _ _ Hr) as [E1 E2]. apply (wp_fails _ _ _ _ _ (list_err _ _ _ x1)) in Hf. right; right. unfold arg_of in *. rewrite E2 in Hf. exact Hf. }
    all: refine (wp_fails _ top _ _ _ _ H); intros rem; apply element_err; [exact Hs|discriminate].
  Qed.
End Causes.
