(* PlaceFacts.v -- where the errors of a text are *)
From Verif Require Import SimFacts LexerThms InlineInst ParseFacts RunFacts TermFacts TermText.
From Verif Require Export SpecPlaces.

(* ---------------------------------------------------------- the lexers *)
Definition near (src : option str) (lo hi : nat) (c : context) : Prop :=
  c_source c = src /\ lo <= c_start_line c <= S hi /\ lo <= c_end_line c <= S hi.
Definition tidy (src : option str) (lo hi : nat) (t : token) : Prop :=
  one_line (t_value t) /\ near src lo hi (t_ctx t) /\ (t_type t <> T_EOF -> within src lo hi (t_ctx t)).
(* the tokens of a text: those before the end are in it *)
Definition inner (src : option str) (lo hi : nat) (t : token) : Prop := t_type t <> T_EOF /\ one_line (t_value t) /\ within src lo hi (t_ctx t).
Definition fair (src : option str) (lo hi : nat) (rem : list token) : Prop :=
  exists body c, rem = body ++ [mkToken T_EOF [] c] /\ Forall (inner src lo hi) body /\ near src lo hi c.

Section LexPlaces.
  Context (fns : list lexfn) (Inv : tbuf -> Prop) (text : str) (sl sc : nat) (src : option str).
  Notation wf0 := (LexerFacts.wf (text_lines text) sl sc src).
  Context (Hgood : good (text_lines text) sl sc src Inv fns) (Hinit : Inv (tb_init text sl sc src)).
  Definition here (tb : tbuf) (t : token) : Prop :=
    one_line (t_value t) /\ c_source (t_ctx t) = tb_source tb /\ c_start_line (t_ctx t) = tb_line tb + tb_start_line tb /\ c_end_line (t_ctx t) = tb_line tb + tb_start_line tb.
  Context (Hhere : forall tb toks tb', Inv tb -> wf0 tb -> tb_eof tb = false -> run_functions (all_functions fns) tb = Ok (toks, tb') -> Forall (here tb) toks).

  Lemma here_tidy tb t : wf0 tb -> tb_eof tb = false -> here tb t -> tidy src sl (last_line text sl) t.
  Proof.
    intros Hwf He (H1 & H2 & H3 & H4). pose proof (not_eof_line _ _ _ _ _ Hwf He) as Hl. destruct Hwf as (_ & Hs & Hc & _). unfold tidy, near, within, last_line. rewrite Hs in *. rewrite H3, H4, H2, Hc.
    repeat split; auto; lia.
  Qed.
  Lemma steps_tidy tb ts tb' : Inv tb -> wf0 tb -> steps fns tb ts tb' -> Forall (tidy src sl (last_line text sl)) ts.
  Proof.
    intros HI Hwf Hs. induction Hs as [tb|tb ts tb' ts' tb'' He Hr Hs IH]; [constructor|].
    destruct (Hgood _ _ _ HI Hwf He Hr) as [(H1 & _) HI']. apply Forall_app. split; [|exact (IH HI' H1)].
    eapply Forall_impl; [|exact (Hhere _ _ _ HI Hwf He Hr)]. intros t. apply here_tidy; assumption.
  Qed.
  Lemma eof_tidy u : wf0 u -> tidy src sl (last_line text sl) (eof_token u).
  Proof.
    intros Hwf. unfold eof_token. split; [intros []|]. split; [|intros K; destruct (K eq_refl)].
    destruct Hwf as (_ & Hs & Hc & _ & Hl & _). destruct u as [ul un uc us usc usr]. cbn [tb_start_line tb_source tb_line] in Hs, Hc, Hl. unfold near, last_line. cbn [fst create_token t_ctx c_source c_start_line c_end_line tb_position skip tb_line tb_start_line length]. unfold skip. cbn [tb_line tb_start_line tb_source]. rewrite Hs, Hc. repeat split; lia.
  Qed.
  Lemma lex_fair toks : lex fns (tb_init text sl sc src) = Ok toks -> fair src sl (last_line text sl) toks.
  Proof.
    intros H. pose proof (tb_init_wf text sl sc src) as Hwf. change (tb_lines (tb_init text sl sc src)) with (text_lines text) in Hwf.
    destruct (steps_total _ _ _ _ _ _ Hgood _ Hinit Hwf) as [(ts & u & Hs & He)|(ts & u & e & Hs & He & Hr)].
    - unfold lex in H. rewrite (lex_loop_eof _ _ _ _ _ _ Hgood _ ts u _ Hinit Hwf Hs He) in H by apply lex_fuel_ok. cbn [rbind lx_tokens] in H. apply Ok_inv in H. subst toks.
      destruct (steps_inv _ _ _ _ _ _ Hgood _ _ _ Hinit Hwf Hs) as (_ & Hwf' & _ & Hn).
      exists ts, (t_ctx (eof_token u)). split; [reflexivity|]. split; [|apply eof_tidy, Hwf']. pose proof (steps_tidy _ _ _ Hinit Hwf Hs) as H1.
      apply Forall_forall. intros t Ht. rewrite Forall_forall in H1. destruct (H1 t Ht) as (A & _ & B). unfold no_eof in Hn. rewrite Forall_forall in Hn. split; [exact (Hn t Ht)|]. split; [exact A|exact (B (Hn t Ht))].
    - pose proof (lex_fuel_ok text sl sc src) as Hf. change (tb_lines (tb_init text sl sc src)) with (text_lines text) in Hf.
      unfold lex in H. rewrite (lex_loop_exc _ _ _ _ _ _ Hgood _ ts u e _ Hinit Hwf Hs He Hr) in H by lia. discriminate.
  Qed.
  Lemma lex_error e : lex fns (tb_init text sl sc src) = Exc e -> exists u, Inv u /\ wf0 u /\ tb_eof u = false /\ run_functions (all_functions fns) u = Exc e.
  Proof.
    clear Hhere. intros H. pose proof (tb_init_wf text sl sc src) as Hwf. change (tb_lines (tb_init text sl sc src)) with (text_lines text) in Hwf.
    destruct (steps_total _ _ _ _ _ _ Hgood _ Hinit Hwf) as [(ts & u & Hs & He)|(ts & u & e' & Hs & He & Hr)].
    - unfold lex in H. rewrite (lex_loop_eof _ _ _ _ _ _ Hgood _ ts u _ Hinit Hwf Hs He) in H by apply lex_fuel_ok. discriminate.
    - pose proof (lex_fuel_ok text sl sc src) as Hf. change (tb_lines (tb_init text sl sc src)) with (text_lines text) in Hf.
      unfold lex in H. rewrite (lex_loop_exc _ _ _ _ _ _ Hgood _ ts u e' _ Hinit Hwf Hs He Hr) in H by lia. destruct (steps_inv _ _ _ _ _ _ Hgood _ _ _ Hinit Hwf Hs) as (HI' & Hwf' & _).
      exists u. split; [exact HI'|]. split; [exact Hwf'|]. split; [exact He|]. cbn [rbind] in H. assert (e' = e) as <- by congruence. exact Hr.
  Qed.
End LexPlaces.

Lemma wf_line_calm text sl sc src tb : LexerFacts.wf (text_lines text) sl sc src tb -> one_line (current_line tb).
Proof.
  intros (H & _). unfold current_line. rewrite H. unfold text_lines. destruct text as [|c text]; [destruct (tb_line tb); intros []|].
  pose proof (split_on_parts NL (c :: text)) as K. destruct (Nat.lt_ge_cases (tb_line tb) (length (split_on NL (c :: text)))) as [L|L].
  - rewrite Forall_forall in K. apply K, nth_In, L.
  - rewrite nth_overflow by exact L. intros [].
Qed.
Lemma one_line_app a b : one_line (a ++ b) <-> one_line a /\ one_line b.
Proof. unfold one_line. rewrite in_app_iff. tauto. Qed.
Lemma one_line_tail tb : one_line (current_line tb) -> one_line (Token.tail tb).
Proof. unfold Token.tail. intros H. rewrite <- (firstn_skipn (tb_column tb) (current_line tb)) in H. apply one_line_app in H. tauto. Qed.
Lemma create_here tb ty v : one_line v -> here tb (fst (create_token tb ty v)).
Proof. intros H. unfold here. cbn. repeat split; auto. Qed.

Section InlineHere.
  Context (next : str -> token_type * str) (fns : list lexfn)
    (H1 : forall s, all_sp s = false -> snd (next s) <> [] /\ (exists r, s = snd (next s) ++ r))
    (H2 : forall s, all_sp s = false -> fst (next s) <> T_EOF)
    (H3 : forall tb, all_sp (Token.tail tb) = false ->
      run_functions (fns ++ [process_error]) tb =
      Ok ([fst (create_token tb (fst (next (Token.tail tb))) (snd (next (Token.tail tb))))],
          snd (create_token tb (fst (next (Token.tail tb))) (snd (next (Token.tail tb)))))).
  Lemma inline_fair text o toks : lex fns (buffer text o) = Ok toks -> fair (o_source o) (o_line o) (last_line text (o_line o)) toks.
  Proof.
    unfold buffer. apply (lex_fair fns inline_inv); [apply (inline_good next fns); assumption|left; reflexivity|].
    intros tb ts tb' _ Hwf He Hr. pose proof (wf_line_calm _ _ _ _ _ Hwf) as Hc. rewrite (run_base _ _ He) in Hr. destruct (all_sp (current_line tb)).
    { injection Hr as <- _. constructor; [apply create_here, Hc|constructor]. }
    destruct (all_sp (Token.tail tb)) eqn:E; [injection Hr as <- _; constructor|]. rewrite (H3 _ E) in Hr. injection Hr as <- _. constructor; [|constructor].
    apply create_here. destruct (H1 _ E) as [_ [r Er]]. pose proof (one_line_tail _ Hc) as K. rewrite Er in K. apply one_line_app in K. tauto.
  Qed.
End InlineHere.
Definition text_fair := inline_fair text_next text_lexer_fns text_next_prefix text_next_type text_fns_next.
Definition args_fair := inline_fair args_next args_lexer_fns args_next_prefix args_next_type args_fns_next.
Definition pre_fair := inline_fair pre_next pre_lexer_fns pre_next_prefix pre_next_type pre_fns_next.

Lemma caps_calm cs : one_line (caps_text cs) -> forall n, one_line (group cs n).
Proof.
  intros H n. unfold caps_text in H. revert n. induction cs as [|c cs IH]; intros n.
  - unfold group. destruct n; intros [].
  - cbn [map concat_str] in H. apply one_line_app in H as [Hc H]. destruct n as [|n]; [exact Hc|exact (IH H n)].
Qed.
Lemma emit_here script tb : Forall (fun p => one_line (snd p)) script -> forall u, tb_line u = tb_line tb -> tb_start_line u = tb_start_line tb -> tb_source u = tb_source tb -> Forall (here tb) (fst (emit script u)).
Proof.
  induction 1 as [|[[ty|] v] s Hv _ IH]; intros u U1 U2 U3; [constructor| |].
  - cbn [emit]. pose proof (create_here u ty v Hv) as K. destruct (create_token u ty v) as [t u'] eqn:E. assert (u' = skip u (length v)) by (unfold create_token in E; congruence). subst u'.
    specialize (IH (skip u (length v)) U1 U2 U3). destruct (emit s (skip u (length v))) as [ts u2]. cbn [fst] in *. constructor; [|exact IH]. unfold here in *. rewrite U1, U2, U3 in K. exact K.
  - cbn [emit]. apply IH; assumption.
Qed.
Lemma cond_fair text o toks : lex_condition (buffer text o) = Ok toks -> fair (o_source o) (o_line o) (last_line text (o_line o)) toks.
Proof.
  unfold buffer. apply (lex_fair cond_lexer_fns cond_inv); [apply cond_good|left; reflexivity|].
  intros tb ts tb' _ Hwf He Hr. pose proof (wf_line_calm _ _ _ _ _ Hwf) as Hc. rewrite (run_base _ _ He) in Hr. destruct (all_sp (current_line tb)).
  { injection Hr as <- _. constructor; [apply create_here, Hc|constructor]. }
  destruct (all_sp (Token.tail tb)) eqn:E; [injection Hr as <- _; constructor|].
  cbn [app cond_lexer_fns run_functions] in Hr. rewrite condition_emit in Hr.
  destruct (rmatch condition_re (current_line tb)) as [cs|] eqn:Em; cbn [rbind] in Hr; [|discriminate].
  apply Ok_inv in Hr.
  assert (Hcaps : current_line tb = caps_text cs)
      by (apply (rmatch_end [RRep is_name_chr 1; RRep (N.eqb SP) 0; RAlt (lit "==") (lit "!=");
             RRep (N.eqb SP) 0; RRep any_chr 0] _ _ Em)).
  rewrite Hcaps in Hc. pose proof (caps_calm cs Hc) as Hg.
  match type of Hr with emit ?s tb = _ => assert (K : Forall (here tb) (fst (emit s tb))) by (apply emit_here; auto; repeat constructor; apply Hg) end. rewrite Hr in K. exact K.
Qed.
Lemma cond_lex_error text o m : lex_condition (buffer text o) = Exc (ExMau m) -> placed (o_source o) (o_line o) (last_line text (o_line o)) m.
Proof.
  unfold buffer. intros H. destruct (lex_error cond_lexer_fns cond_inv text _ _ _ (cond_good _ _ _ _) (or_introl eq_refl) _ H) as (u & _ & Hwf & He & Hr).
  rewrite (run_base _ _ He) in Hr. destruct (all_sp _); [discriminate|]. destruct (all_sp _); [discriminate|].
  cbn [app cond_lexer_fns run_functions] in Hr. rewrite condition_emit in Hr.
  destruct (rmatch condition_re (current_line u)) as [cs|]; cbn [rbind] in Hr; [discriminate|]. unfold process_error, lexer_error in Hr. cbn [rbind] in Hr.
  assert (m = MsgLexer "Cannot process token." (tb_source u) (tb_position u)) as -> by congruence.
  pose proof (not_eof_line _ _ _ _ _ Hwf He) as Hl. destruct Hwf as (_ & Hs & Hc & _). split; [exact Hc|]. unfold tb_position, last_line. cbn [fst]. rewrite Hs. lia.
Qed.


(* ---------------------------------------------------- the environments *)
Lemma calm_dict d : calm_val (EDict d) <-> calm_env d.
Proof.
  unfold calm_env. induction d as [|kv d IH]; [split; [constructor|exact (fun _ => I)]|]. cbn [calm_val] in *. split.
  - intros [H1 H2]. constructor; [exact H1|apply IH, H2].
  - intros H. inversion H; subst. split; [assumption|apply IH; assumption].
Qed.
Lemma all_dset {A} (R : A -> Prop) k v d : R v -> Forall (fun kv : str * A => R (snd kv)) d -> Forall (fun kv => R (snd kv)) (dset k v d).
Proof.
  intros Hv. induction 1 as [|[k' w] d H Hd IH]; [constructor; [exact Hv|constructor]|]. cbn [dset]. destruct (str_eqb k k'); constructor; auto.
Qed.
Lemma all_dupd {A} (R : A -> Prop) e d : Forall (fun kv : str * A => R (snd kv)) d -> Forall (fun kv => R (snd kv)) e -> Forall (fun kv => R (snd kv)) (dupd d e).
Proof.
  unfold dupd. revert d. induction e as [|kv e IH]; intros d Hd He; [exact Hd|]. inversion He; subst. cbn [fold_left]. apply IH; [apply all_dset; assumption|assumption].
Qed.
Lemma all_ddel {A} (R : A -> Prop) k d : Forall (fun kv : str * A => R (snd kv)) d -> Forall (fun kv => R (snd kv)) (ddel k d).
Proof. induction 1 as [|[k' w] d H Hd IH]; [constructor|]. cbn [ddel]. destruct (str_eqb k k'); [exact Hd|constructor; auto]. Qed.
Lemma all_dget {A} (R : A -> Prop) k v d : Forall (fun kv : str * A => R (snd kv)) d -> dget k d = Some v -> R v.
Proof. intros H E. apply dget_in in E. rewrite Forall_forall in H. exact (H _ E). Qed.
Lemma all_filter {A} (R : A -> Prop) f l : Forall R l -> Forall R (filter f l).
Proof. intros H. apply Forall_forall. intros a Ha. apply filter_In in Ha as [Ha _]. rewrite Forall_forall in H. auto. Qed.
Lemma all_skipn {A} (R : A -> Prop) n l : Forall R l -> Forall R (skipn n l).
Proof. intros H. rewrite <- (firstn_skipn n l) in H. apply Forall_app in H. tauto. Qed.

Lemma calm_flat v : forall k, calm_val v -> calm_env (flat_value k v).
Proof.
  induction v as [s|l|s|d IH] using env_val_ind'; intros k H; try (constructor; [exact H|constructor]).
  destruct d as [|kv0 d0]; [constructor; [exact H|constructor]|]. apply calm_dict in H. cbn [flat_value].
  assert (G : forall l acc, Forall (fun kv => forall k, calm_val (snd kv) -> calm_env (flat_value k (snd kv))) l -> calm_env l -> calm_env acc ->
    calm_env (fold_left (fun flat kv => dupd flat (flat_value (child_key k (fst kv)) (snd kv))) l acc)).
  { clear. induction l as [|kv l IHl]; intros acc H1 H2 H3; [exact H3|]. inversion H1; subst. inversion H2; subst. cbn [fold_left]. apply IHl; auto. apply all_dupd; auto. apply H4. assumption. }
  apply G; [exact IH|exact H|constructor].
Qed.
Lemma calm_flatten p d : calm_env d -> calm_env (flatten_nested_dict p d).
Proof.
  unfold flatten_nested_dict. assert (G : forall l acc, calm_env l -> calm_env acc -> calm_env (fold_left (fun flat kv => dupd flat (flat_value (child_key p (fst kv)) (snd kv))) l acc)).
  { induction l as [|kv l IHl]; intros acc H2 H3; [exact H3|]. inversion H2; subst. cbn [fold_left]. apply IHl; auto. apply all_dupd; auto. apply calm_flat. assumption. }
  intros H. apply G; [exact H|constructor].
Qed.
Lemma calm_dupdate e d ns : calm_env e -> calm_env d -> calm_env (env_dupdate e d ns).
Proof.
  intros He Hd. unfold env_dupdate. apply all_dupd; [exact He|]. apply calm_flatten. destruct ns as [[|a ns]|]; try exact Hd. constructor; [apply calm_dict, Hd|constructor].
Qed.
Lemma calm_from d ns : calm_env d -> calm_env (env_from_dict d ns).
Proof. intros H. apply calm_dupdate; [constructor|exact H]. Qed.
Lemma calm_update e d ns b : calm_env e -> calm_env d -> calm_env (env_update e d ns b).
Proof. intros He Hd. unfold env_update. pose proof (calm_from d ns Hd). destruct b; apply (all_dupd calm_val); assumption. Qed.
Lemma calm_set e k v : calm_env e -> calm_val v -> calm_env (env_set e k v).
Proof. intros He Hv. apply calm_dupdate; [exact He|]. constructor; [exact Hv|constructor]. Qed.
Lemma calm_split parts : forall v d d', calm_val v -> calm_env d -> split_into parts v d = Ok d' -> calm_env d'.
Proof.
  induction parts as [|k rest IH]; intros v d d' Hv Hd H; [apply Ok_inv in H; subst; exact Hd|]. cbn [split_into] in H. destruct rest as [|k2 rest].
  - apply Ok_inv in H. subst d'. apply all_dset; assumption.
  - destruct (dget k d) as [[s|l|s|d0]|] eqn:E; try discriminate H; apply rbind_ok in H as (d1 & H1 & H2); apply Ok_inv in H2; subst d'; apply all_dset; try exact Hd; apply calm_dict.
    + apply (IH v d0 d1 Hv); [|exact H1]. apply calm_dict. exact (all_dget calm_val _ _ _ Hd E).
    + apply (IH v [] d1 Hv); [constructor|exact H1].
Qed.
Lemma calm_asdict e d : calm_env e -> env_asdict e = Ok d -> calm_env d.
Proof.
  unfold env_asdict, nest_flattened_dict. assert (G : forall e acc, calm_env e -> calm_env acc -> forall d, nest_items e acc = Ok d -> calm_env d).
  { clear. induction e as [|[k v] e IH]; intros acc He Ha d H; [apply Ok_inv in H; subst; exact Ha|]. inversion He; subst. cbn [nest_items] in H. apply rbind_ok in H as (r & H4 & H5).
    eapply IH; [eassumption| |exact H5]. eapply calm_split; [|exact Ha|exact H4]. assumption. }
  intros He. apply G; [exact He|constructor].
Qed.
Lemma calm_from_environment e ns d : calm_env e -> env_from_environment e ns = Ok d -> calm_env d.
Proof. unfold env_from_environment. intros He H. apply rbind_ok in H as (d0 & H1 & H2). apply Ok_inv in H2. subst d. apply calm_from. exact (calm_asdict _ _ He H1). Qed.
Lemma calm_get e k : calm_env e -> match env_get e k with FVal v => calm_val v | FEnv a => calm_env a | FDefault => True end.
Proof.
  intros H. unfold env_get. destruct (dget k e) eqn:E; [exact (all_dget calm_val _ _ _ H E)|]. cbv zeta.
  pose proof (all_filter _ (fun kv : str * env_val => startswith (k ++ [DOT]) (fst kv)) e H) as Hf. remember (filter _ e) as f. clear Heqf. destruct f as [|kv f]; [exact I|].
  apply calm_from. assert (G : forall l acc, calm_env l -> calm_env acc -> calm_env (fold_left (fun d kv => dset (removeprefix (k ++ [DOT]) (fst kv)) (snd kv) d) l acc)).
  { induction l as [|a l IHl]; intros acc H2 H3; [exact H3|]. inversion H2; subst. cbn [fold_left]. apply IHl; auto. apply all_dset; auto. }
  apply G; [exact Hf|constructor].
Qed.
Lemma one_line_join sep l : one_line sep -> Forall one_line l -> one_line (join sep l).
Proof.
  intros Hs. induction 1 as [|a l Ha Hl IH]; [intros []|]. cbn [join]. destruct l; [exact Ha|]. apply one_line_app. split; [exact Ha|]. apply one_line_app. split; [exact Hs|exact IH].
Qed.
Lemma lit_line s : existsb (N.eqb NL) (lit s) = false -> one_line (lit s).
Proof. intros H K. assert (E : existsb (N.eqb NL) (lit s) = true) by (apply existsb_exists; exists NL; split; [exact K|reflexivity]). congruence. Qed.
Lemma calm_str v : calm_val v -> one_line (py_str v).
Proof.
  destruct v as [s|l|s|d]; cbn [py_str]; intros H; [exact H| |exact H|apply lit_line; reflexivity].
  apply one_line_app. split; [apply lit_line; reflexivity|]. apply one_line_app. split; [|apply lit_line; reflexivity].
  apply one_line_join; [apply lit_line; reflexivity|]. cbn [calm_val] in H. induction H as [|a l Ha _ IH]; constructor; [|exact IH].
  apply one_line_app. split; [apply lit_line; reflexivity|]. apply one_line_app. split; [exact Ha|apply lit_line; reflexivity].
Qed.
Lemma calm_base : calm_env base_env.
Proof.
  assert (D : forall v, (fix chk (v : env_val) : bool := match v with EStr s | EOther s => negb (existsb (N.eqb NL) s) | EList l => forallb (fun s => negb (existsb (N.eqb NL) s)) l | EDict d => forallb (fun kv : str * env_val => chk (snd kv)) d end) v = true -> calm_val v).
  { assert (E : forall s, negb (existsb (N.eqb NL) s) = true -> one_line s).
    { intros s H K. apply negb_true_iff in H. assert (X : existsb (N.eqb NL) s = true) by (apply existsb_exists; exists NL; split; [exact K|reflexivity]). congruence. }
    induction v as [s|l|s|d IH] using env_val_ind'; intros H; [exact (E _ H)| |exact (E _ H)|].
    - cbn [calm_val]. apply Forall_forall. intros s Hs. apply E. rewrite forallb_forall in H. exact (H s Hs).
    - apply calm_dict. apply Forall_forall. intros kv Hk. rewrite Forall_forall in IH. apply (IH kv Hk). rewrite forallb_forall in H. exact (H kv Hk). }
  apply calm_dict. apply D. vm_compute. reflexivity.
Qed.
