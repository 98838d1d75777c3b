(* PlaceInline.v -- the errors of the variables, the arguments, the conditions and the texts *)
From Verif Require Import SimFacts LexerThms InlineInst ParseFacts RunFacts TermFacts TermText.
From Verif Require Export PlaceText.

(* what a message can be, for the result of a text *)
Definition at_text {A} (src : option str) (lo hi : nat) (P : A -> Prop) (r : res A) : Prop :=
  match r with Ok a => P a | Exc (ExMau m) => placed src lo hi m | Exc _ => True end.
Lemma within_le src lo hi hi' c : hi <= hi' -> within src lo hi c -> within src lo hi' c.
Proof. unfold within. intros H (H1 & H2 & H3). repeat split; auto; lia. Qed.
Lemma placed_le src lo hi hi' m : hi <= hi' -> placed src lo hi m -> placed src lo hi' m.
Proof. intros H. destruct m as [msg s p|msg [c|]|]; cbn [placed]; auto; [intros (H1 & H2); repeat split; auto; lia|apply within_le, H]. Qed.
Lemma one_line_last text n : one_line text -> last_line text n = n.
Proof.
  intros H. unfold last_line, text_lines. destruct text as [|a t]; [cbn; lia|]. replace (split_on NL (a :: t)) with [a :: t]; [cbn; lia|]. symmetry.
  apply split_on_none. exact H.
Qed.
Lemma one_line_strip s : one_line s -> one_line (strip s).
Proof.
  unfold strip. intros H. destruct (lstrip_suffix s) as (p & E & _). rewrite E in H. apply one_line_app in H as [_ H]. destruct (rstrip_prefix (lstrip s)) as (q & E' & _). rewrite E' in H. apply one_line_app in H. tauto.
Qed.
Lemma one_line_remove p s : one_line s -> one_line (removeprefix p s).
Proof. unfold removeprefix. intros H. destruct (startswith p s); [|exact H]. rewrite <- (firstn_skipn (length p) s) in H. apply one_line_app in H. tauto. Qed.

(* ------------------------------------------------------- the variables *)
Section Pre.
  Context (src : option str) (lo hi : nat) (e : env) (He : calm_env e).
  Notation S := (placed src lo hi).
  Definition lines_of_pp (x : list token) : Prop := Forall (fun t => one_line (t_value t)) x.
  Notation does := (does src lo hi lines_of_pp S).

  Lemma pp_save_places v c : one_line v -> does (fun _ => True) (pp_save v c).
  Proof. intros H. apply d_mod. intros x Hx. apply Forall_app. split; [exact Hx|constructor; [exact H|constructor]]. Qed.
  Lemma save_true v c : one_line v -> does (fun b => b = true) (pp_save v c ;;; pret true).
  Proof. intros H. eapply d_bind; [apply pp_save_places, H|]. intros _ _. apply d_ret. reflexivity. Qed.
  Lemma any_line t : inner src lo hi t \/ ending src lo hi t -> one_line (t_value t).
  Proof. intros [(_ & H & _)|(_ & -> & _)]; [exact H|intros []]. Qed.
  Lemma mark_line (c : N) : (c =? NL)%N = false -> one_line [c].
  Proof. intros H [K|[]]. subst c. discriminate. Qed.
  Lemma pp_fns_places : Forall (does (fun b => b = true)) (pp_fns e).
  Proof.
    repeat constructor.
    - unfold pp_escaped. eapply d_bind; [apply d_get_token; discriminate|]. intros b Hb. eapply d_bind; [apply d_get_tok|]. intros c Hc. apply save_true. apply any_line in Hc.
      destruct (mem_str _ _); [exact Hc|]. apply one_line_app. split; [apply mark_line; reflexivity|exact Hc].
    - unfold pp_verbatim. eapply d_bind; [apply d_get_token; discriminate|]. intros o Ho. eapply d_bind; [apply d_collect|]. intros t Ht. eapply d_bind; [apply d_get_token; discriminate|]. intros c Hc.
      apply save_true. apply one_line_app. split; [apply mark_line; reflexivity|]. apply one_line_app. split; [eapply value_line, Ht|apply mark_line; reflexivity].
    - unfold pp_curly. eapply d_bind; [apply d_get_token; discriminate|]. intros o Ho. eapply d_bind; [apply d_collect|]. intros name Ht. eapply d_bind; [apply d_get_token; discriminate|]. intros c Hc.
      destruct (startswith LB (t_value name)) eqn:Es.
      + eapply d_bind; [apply d_is|]. intros [|] _.
        * eapply d_bind; [apply d_get_token; discriminate|]. intros ac _. apply save_true, one_line_app. split; [eapply value_line, Ht|apply mark_line; reflexivity].
        * apply d_raise. destruct Ht as [[_ Ht]|[Ht _]]; [exact Ht|rewrite Ht in Es; discriminate].
      + destruct (dget (t_value name) e) as [v|] eqn:Ed.
        * apply save_true, calm_str. exact (all_dget calm_val _ _ _ He Ed).
        * apply d_raise. apply (merge_l src lo hi); [apply Ho|apply inn_near, Hc].
    - unfold pp_pass. eapply d_bind; [apply d_get_tok|]. intros t Ht. apply save_true, any_line, Ht.
  Qed.
End Pre.
Lemma preprocess_places e text o : calm_env e -> at_text (o_source o) (o_line o) (last_line text (o_line o)) (fun t => one_line (t_value t)) (preprocess e text o).
Proof.
  intros He. unfold preprocess. destruct (lex_pre_ok text (o_line o) (o_column o) (o_source o)) as (toks & El & _). change (lex_pre (buffer text o) = Ok toks) in El. rewrite El.
  pose proof (run_places _ _ _ lines_of_pp (placed (o_source o) (o_line o) (last_line text (o_line o))) (fun _ _ H => H) (pp_fns e) toks [] (pp_fns_places _ _ _ _ He) (pre_fair _ _ _ El) (Forall_nil _)) as K.
  destruct (prun (Ok toks) [] (pp_fns e)) as [nodes|ex]; cbn [rbind at_text]; [|destruct ex; exact K]. destruct nodes as [|t nodes]; [intros []|]. cbn [from_token_list t_value].
  apply one_line_join; [intros []|]. clear - K. unfold lines_of_pp in K. induction K as [|x l Hx _ IH]; constructor; auto.
Qed.

(* ------------------------------------------------------- the arguments *)
Lemma asdict_quiet e m : env_asdict e <> Exc (ExMau m).
Proof.
  unfold env_asdict, nest_flattened_dict. generalize (@nil (str * env_val)).
  assert (S : forall parts v d, split_into parts v d <> Exc (ExMau m)).
  { induction parts as [|k rest IH]; intros v d; [discriminate|]. cbn [split_into]. destruct rest as [|k2 rest]; [discriminate|].
    destruct (dget k d) as [[s|l|s|d0]|]; try discriminate; [specialize (IH v d0)|specialize (IH v [])]; destruct (split_into _ _ _) as [d1|ex]; cbn [rbind]; congruence. }
  induction e as [|[k v] e IH]; intros acc; [discriminate|]. cbn [nest_items]. specialize (S (split_on DOT k) v acc). destruct (split_into _ _ _) as [d1|ex]; cbn [rbind]; [apply IH|congruence].
Qed.
Definition calm_args (a : node_args) : Prop :=
  Forall one_line (na_unnamed a) /\ Forall (fun kv => one_line (snd kv)) (na_named a).
Section Args.
  Context (src : option str) (lo hi : nat) (e : env) (He : calm_env e).
  Notation S := (placed src lo hi).
  Notation val := (value src lo hi).
  Definition args_state (x : ap_state) : Prop := Forall val (ap_unnamed x) /\ Forall (fun kv => val (snd kv)) (ap_named x).
  Definition args_placed (p : parsed_args) : Prop := Forall val (pa_unnamed p) /\ Forall (fun kv => val (snd kv)) (pa_named p).
  Notation does := (does src lo hi args_state S).

  Lemma ap_value_places : does val ap_value.
  Proof.
    unfold ap_value. eapply d_bind; [apply d_is|]. intros quoted _. eapply (d_bind _ _ _ _ _ val).
    - apply d_if; [|apply d_collect]. eapply d_bind; [apply d_get_token; discriminate|]. intros _ _. eapply d_bind; [apply d_collect|]. intros t Ht.
      eapply d_bind; [apply d_get_token; discriminate|]. intros _ _. apply d_ret, Ht.
    - intros t Ht. eapply d_bind; [apply d_with, d_get_token; discriminate|]. intros _ _. eapply d_bind; [apply d_with, d_get_token; discriminate|]. intros _ _. apply d_ret, Ht.
  Qed.
  Lemma val_vnode v t : val t -> one_line v -> (t_value t = [] -> v = []) -> val (vnode v (t_ctx t)).
  Proof.
    intros [[H1 H2]|[H1 H2]] Hv H0; [left; split; [exact Hv|exact H2]|]. right. split; [exact (H0 H1)|exact H2].
  Qed.
  Lemma ap_fns_places ctx : (forall c, ctx = Some c -> within src lo hi c) -> ctx <> None -> Forall (does (fun b => b = true)) (ap_fns ctx).
  Proof.
    intros Hc Hn. repeat constructor.
    - unfold ap_named_argument. eapply d_bind; [apply d_get_token; discriminate|]. intros key _. eapply d_bind; [apply d_get_token; discriminate|]. intros _ _.
      eapply d_bind; [apply ap_value_places|]. intros t Ht. eapply d_bind; [|intros _ _; apply d_ret; reflexivity]. apply d_mod. intros x [H1 H2]. split; [exact H1|]. apply all_dset; [|exact H2].
      apply val_vnode; [exact Ht|apply one_line_strip; eapply value_line, Ht|intros ->; reflexivity].
    - unfold ap_unnamed_argument. eapply d_bind; [apply d_get|]. intros x _. destruct (ap_on x).
      + apply d_raise. destruct ctx as [c|]; [exact (Hc c eq_refl)|destruct (Hn eq_refl)].
      + eapply d_bind; [apply ap_value_places|]. intros t Ht. eapply d_bind; [|intros _ _; apply d_ret; reflexivity]. apply d_mod. intros y [H1 H2]. split; [|exact H2].
        apply Forall_app. split; [exact H1|]. constructor; [|constructor]. apply val_vnode; [exact Ht|eapply value_line, Ht|auto].
  Qed.

  Lemma take_places p t b u : val t -> take_prefix p t = (b, u) -> val u /\ (b = true -> p <> [] -> solid src lo hi u).
  Proof.
    intros Ht. unfold take_prefix. destruct (startswith p (t_value t)) eqn:Es; intros E; apply pair_equal_spec in E as [<- <-].
    - assert (K : solid src lo hi t \/ (t_value t = [] /\ p = [])).
      { destruct Ht as [Ht|[Ht _]]; [left; exact Ht|]. right. rewrite Ht in Es. destruct p; [auto|discriminate]. }
      split; [|intros _ Hp; destruct K as [[K1 K2]|[_ K]]; [|contradiction]; split; [apply one_line_remove, K1|exact K2]].
      apply val_vnode; [exact Ht|apply one_line_remove; eapply value_line, Ht|intros ->; unfold removeprefix; destruct p; reflexivity].
    - split; [exact Ht|discriminate].
  Qed.
  Lemma mark_places t : val t -> val (mk_node (mark t)) /\ (mk_alias (mark t) = true -> solid src lo hi (mk_node (mark t))).
  Proof.
    intros Ht. unfold mark. destruct (take_prefix (lit "#") t) as [a1 t1] eqn:E1. destruct (take_prefix (lit "*") t1) as [a2 t2] eqn:E2. destruct (take_prefix (lit "@") t2) as [a3 t3] eqn:E3.
    destruct (take_places _ _ _ _ Ht E1) as [H1 _]. destruct (take_places _ _ _ _ H1 E2) as [H2 _]. destruct (take_places _ _ _ _ H2 E3) as [H3 H4]. cbn [mk_node mk_alias]. split; [exact H3|].
    intros ->. apply H4; [reflexivity|discriminate].
  Qed.
  Lemma select_places f l : Forall val l -> Forall val (select f (map mark l)).
  Proof.
    unfold select. induction 1 as [|t l Ht _ IH]; [constructor|]. cbn [map filter]. destruct (f (mark t)); [cbn [map]; constructor; [apply mark_places, Ht|exact IH]|exact IH].
  Qed.
  Lemma names_places (u : list token) n names : Forall val u -> Forall (fun kv => val (snd kv)) n ->
    Forall val (fst (set_names u n names)) /\ Forall (fun kv => val (snd kv)) (snd (set_names u n names)).
  Proof.
    intros Hu Hn. unfold set_names. cbn [fst snd]. split; [apply all_skipn, Hu|]. apply (all_dupd val); [exact Hn|]. apply (all_dupd val); [constructor|].
    generalize (filter (fun n0 => negb (dmem n0 n)) names). clear names. intros names. revert u Hu. induction names as [|k names IH]; intros u Hu; [constructor|]. destruct Hu as [|t u Ht Hu]; [constructor|].
    cbn [combine]. constructor; [exact Ht|apply IH, Hu].
  Qed.
  Lemma set_names_places p names : args_placed p -> args_placed (pa_set_names p names).
  Proof. intros [H1 H2]. unfold pa_set_names. pose proof (names_places _ _ names H1 H2) as K. destruct (set_names _ _ names) as [u n]. exact K. Qed.
  Lemma named_places p name t : args_placed p -> named_arg p name = Some t -> val t.
  Proof. intros [_ H] E. exact (all_dget val _ _ _ H E). Qed.

  Lemma alias_places c alias u n s : within src lo hi c -> solid src lo hi alias -> Forall val u -> Forall (fun kv => val (snd kv)) n ->
    at_text src lo hi (fun r => Forall val (fst (fst r)) /\ Forall (fun kv => val (snd kv)) (snd (fst r))) (expand_alias e (Some c) alias u n s).
  Proof.
    intros Hc Ha Hu Hn. unfold expand_alias.
    set (rep := match env_get e (lit "mau.parser.aliases") with FVal _ => Exc (ExPy "AttributeError") | FEnv a => env_asdict a | FDefault => Ok [] end).
    assert (Hr : match rep with Ok d => calm_env d | Exc (ExMau _) => False | Exc _ => True end).
    { subst rep. pose proof (calm_get e (lit "mau.parser.aliases") He) as K. destruct (env_get e _) as [v|a|]; [exact I| |constructor].
      destruct (env_asdict a) as [d|ex] eqn:Ed; [exact (calm_asdict _ _ K Ed)|]. destruct ex; try exact I. exact (asdict_quiet _ _ Ed). }
    destruct rep as [d|ex]; cbn [rbind]; [|destruct ex; try exact I; destruct Hr].
    destruct (dget (t_value alias) d) as [[v|v|v|r]|] eqn:Ed; try exact I; [|exact Hc].
    assert (Hrep : calm_env r) by (apply calm_dict; exact (all_dget calm_val _ _ _ Hr Ed)).
    assert (G : forall args : list (str * env_val), calm_env args -> at_text src lo hi (fun r => Forall val (fst (fst r)) /\ Forall (fun kv => val (snd kv)) (snd (fst r)))
      (let missing := filter (fun kv : str * env_val => negb (dmem (fst kv) n)) args in
      let named' := fold_left (fun n (kv : str * env_val) => dset (fst kv) (vnode (py_str (snd kv)) (t_ctx alias)) n) missing n in
      let? names := names_of (dget (lit "names") r) in
      let '(unnamed'', named'') := set_names u named' names in
      let subtype' := match s, dget (lit "subtype") r with
                      | None, Some v => match py_str v with
                                        | [] => None
                                        | s => Some (vnode s (t_ctx alias))
                                        end
                      | _, _ => s
                      end in
      Ok (unnamed'', named'', subtype'))).
    { intros args Hargs. cbv zeta. pose proof (all_filter _ (fun kv : str * env_val => negb (dmem (fst kv) n)) args Hargs) as Hm.
      remember (filter _ args) as missing eqn:Em. clear Em. assert (Hn' : Forall (fun kv => val (snd kv)) (fold_left (fun n (kv : str * env_val) => dset (fst kv) (vnode (py_str (snd kv)) (t_ctx alias)) n) missing n)).
      { clear Hc. revert n Hn. induction Hm as [|kv l Hk _ IH]; intros n Hn; [exact Hn|]. cbn [fold_left]. apply IH. apply all_dset; [|exact Hn]. left. split; [apply calm_str, Hk|apply Ha]. }
      destruct (names_of _) as [names|ex] eqn:En; cbn [rbind]; [|unfold names_of in En; destruct (dget (lit "names") r) as [[]|]; try discriminate En; injection En as <-; exact I].
      pose proof (names_places _ _ names Hu Hn') as K. destruct (set_names u _ names) as [u' n']. exact K. }
    destruct (dget (lit "args") r) as [[v|v|v|a]|] eqn:Ea; cbn [rbind]; try exact I; apply G; [|constructor].
    apply calm_dict. exact (all_dget calm_val _ _ _ Hrep Ea).
  Qed.
  Lemma isolate_places c x : within src lo hi c -> args_state x -> at_text src lo hi args_placed (isolate e (Some c) x).
  Proof.
    intros Hc [Hu Hn]. unfold isolate. cbv zeta. destruct (1 <? _); [exact Hc|]. destruct (1 <? _); [exact Hc|].
    destruct (hd_error (select mk_alias (map mark (ap_unnamed x)))) as [alias|] eqn:Ea; [|split; [apply select_places, Hu|exact Hn]].
    assert (Hal : solid src lo hi alias).
    { clear - Ea Hu. unfold select in Ea. induction Hu as [|t l Ht _ IH]; [discriminate|]. cbn [map filter] in Ea. destruct (mk_alias (mark t)) eqn:Em; [|exact (IH Ea)].
      cbn [map hd_error] in Ea. injection Ea as <-. apply mark_places; assumption. }
    pose proof (alias_places c alias _ _ (hd_error (select mk_subtype (map mark (ap_unnamed x)))) Hc Hal (select_places (fun m => negb (mk_tag m || mk_subtype m || mk_alias m)) _ Hu) Hn) as K.
    destruct (expand_alias _ _ _ _ _ _) as [[[u n] s]|ex]; cbn [rbind]; [exact K|exact K].
  Qed.
  Lemma calm_arguments p : args_placed p -> calm_args (arguments_of p).
  Proof.
    intros [H1 H2]. split; cbn [arguments_of na_unnamed na_named].
    - induction H1 as [|t l Ht _ IH]; constructor; [eapply value_line, Ht|exact IH].
    - induction H2 as [|t l Ht _ IH]; constructor; [eapply value_line, Ht|exact IH].
  Qed.
End Args.
Lemma lex_args_tokens text o : exists toks, lex_args (buffer text o) = Ok toks.
Proof. destruct (lex_args_ok text (o_line o) (o_column o) (o_source o)) as (toks & H & _). exists toks. exact H. Qed.
Lemma run_ended {X} (x0 : X) fns t r : t_type t = T_EOF -> prun (Ok (t :: r)) x0 fns = Ok x0.
Proof.
  intros H. unfold prun, pparse. cbn [rbind fst]. cbn [ploop]. unfold pbind at 1, is_ty, peek_is. cbn [fst peek_tok]. unfold check_token. rewrite H. reflexivity.
Qed.
Lemma parse_arguments_places e text o : calm_env e ->
  at_text (o_source o) (o_line o) (last_line text (o_line o)) (args_placed (o_source o) (o_line o) (last_line text (o_line o))) (parse_arguments e text o).
Proof.
  intros He. unfold parse_arguments. destruct (lex_args_tokens text o) as (toks & El). rewrite El. cbn [rbind]. pose proof (args_fair _ _ _ El) as Hf.
  destruct (fair_head _ _ _ _ Hf) as (t & r & -> & HC). cbn [hd_error option_map]. destruct HC as [(Ht & _)|((Ht & _) & _)].
  - pose proof (run_places _ _ _ (args_state (o_source o) (o_line o) (last_line text (o_line o))) (placed (o_source o) (o_line o) (last_line text (o_line o))) (fun _ _ H => H) (ap_fns (Some (t_ctx t))) (t :: r) ap_init) as K.
    assert (Hc : forall c, Some (t_ctx t) = Some c -> within (o_source o) (o_line o) (last_line text (o_line o)) c) by (intros c [= <-]; apply Ht).
    assert (Hn : Some (t_ctx t) <> None) by discriminate.
    specialize (K (ap_fns_places _ _ _ _ Hc Hn) Hf (conj (Forall_nil _) (Forall_nil _))).
    destruct (prun _ _ _) as [x|ex]; cbn [rbind]; [|destruct ex; exact K]. apply isolate_places; [exact He|apply Ht|exact K].
  - rewrite (run_ended _ _ _ _ Ht). cbn. split; constructor.
Qed.
Lemma parse_arguments_nil e o : parse_arguments e [] o = Ok (mkParsed [] [] [] None None).
Proof. unfold parse_arguments. reflexivity. Qed.
Lemma with_variables_places e t : calm_env e ->
  at_text (c_source (t_ctx t)) (c_start_line (t_ctx t)) (last_line (t_value t) (c_start_line (t_ctx t))) (fun p => calm_args (arguments_of p)) (process_arguments_with_variables e t).
Proof.
  intros He. unfold process_arguments_with_variables. pose proof (preprocess_places e (t_value t) (origin_of t) He) as K. cbn [origin_of o_source o_line] in K.
  destruct (preprocess _ _ _) as [u|ex]; cbn [rbind]; [|destruct ex; exact K]. cbn [at_text] in K. pose proof (parse_arguments_places e (t_value u) (origin_of t) He) as K2. cbn [origin_of o_source o_line] in K2. rewrite (one_line_last _ _ K) in K2.
  fold (origin_of t) in K2. destruct (parse_arguments _ _ _) as [p|ex]; [|destruct ex; try exact K2; eapply placed_le, K2; unfold last_line; lia]. eapply calm_arguments, K2.
Qed.

(* ------------------------------------------------------ the conditions *)
Lemma parse_condition_places text o : at_text (o_source o) (o_line o) (last_line text (o_line o)) (fun n => match n with Some n => one_line (cn_value n) | None => True end) (parse_condition text o).
Proof.
  unfold parse_condition. destruct (lex_condition (buffer text o)) as [toks|ex] eqn:El; [|destruct ex; try exact I; apply cond_lex_error, El].
  pose proof (run_places _ _ _ (fun n : option condition => match n with Some n => one_line (cn_value n) | None => True end) (placed (o_source o) (o_line o) (last_line text (o_line o))) (fun _ _ H => H) [cp_condition] toks None) as K.
  assert (Hf : Forall (does (o_source o) (o_line o) (last_line text (o_line o)) (fun n : option condition => match n with Some n => one_line (cn_value n) | None => True end) (placed (o_source o) (o_line o) (last_line text (o_line o))) (fun b => b = true)) [cp_condition]).
  { constructor; [|constructor]. unfold cp_condition. eapply d_bind; [apply d_get_token; discriminate|]. intros v _. eapply d_bind; [apply d_get_token; discriminate|]. intros c _. eapply d_bind; [apply d_get_token; discriminate|]. intros w Hw.
    eapply d_bind; [|intros _ _; apply d_ret; reflexivity]. apply d_mod. intros _ _. apply Hw. }
  specialize (K Hf (cond_fair _ _ _ El) I). destruct (prun _ _ _) as [n|ex]; [exact K|destruct ex; exact K].
Qed.
Lemma process_condition_places e t : calm_env e ->
  at_text (c_source (t_ctx t)) (c_start_line (t_ctx t)) (last_line (t_value t) (c_start_line (t_ctx t))) (fun _ => True) (process_condition e t).
Proof.
  intros He. unfold process_condition. pose proof (preprocess_places e (t_value t) (origin_of t) He) as K. cbn [origin_of o_source o_line] in K.
  destruct (preprocess _ _ _) as [u|ex]; cbn [rbind]; [|destruct ex; exact K]. cbn [at_text] in K. pose proof (parse_condition_places (t_value u) (origin_of t)) as K2. cbn [origin_of o_source o_line] in K2. rewrite (one_line_last _ _ K) in K2.
  fold (origin_of t) in K2. destruct (parse_condition _ _) as [p|ex]; [exact I|destruct ex; try exact K2; eapply placed_le, K2; unfold last_line; lia].
Qed.

(* ----------------------------------------------------------- the texts *)
(* a text that is empty: the text of a link to nothing, which has no place *)
Definition no_text (n : inode) : Prop := exists c, n = NText [] c.
(* the nodes in a node, at any depth *)
Fixpoint deep (P : context -> Prop) (n : inode) : Prop :=
  match n with
  | NStyle _ l _ | NClass _ l _ | NLink _ l _ | NHeaderLink _ _ l _ =>
      (fix all (l : list inode) : Prop := match l with [] => True | x :: r => ((P (inode_ctx x) \/ no_text x) /\ deep P x) /\ all r end) l
  | _ => True
  end.
Definition loose_in (P : context -> Prop) (l : list inode) : Prop := Forall (fun n => (P (inode_ctx n) \/ no_text n) /\ deep P n) l.
Lemma deep_list P l : loose_in P l <-> (fix all (l : list inode) : Prop := match l with [] => True | x :: r => ((P (inode_ctx x) \/ no_text x) /\ deep P x) /\ all r end) l.
Proof. unfold loose_in. induction l as [|n l IH]; split; intros H; [exact I|constructor|inversion H; subst; split; [assumption|apply IH; assumption]|destruct H as [H1 H2]; constructor; [exact H1|apply IH, H2]]. Qed.
Definition nodes_in (src : option str) (lo hi : nat) (l : list inode) : Prop := Forall (fun n => within src lo hi (inode_ctx n) /\ deep (within src lo hi) n) l.
Lemma nodes_loose src lo hi l : nodes_in src lo hi l -> loose_in (within src lo hi) l.
Proof. intros H. eapply Forall_impl; [|exact H]. cbn beta. intros n [A B]. auto. Qed.
Lemma deep_impl (P R : context -> Prop) : (forall c, P c -> R c) -> forall n, deep P n -> deep R n.
Proof.
  intros HPR. fix IH 1. assert (IHl : forall l, (fix all (l : list inode) : Prop := match l with [] => True | x :: r => ((P (inode_ctx x) \/ no_text x) /\ deep P x) /\ all r end) l ->
    (fix all (l : list inode) : Prop := match l with [] => True | x :: r => ((R (inode_ctx x) \/ no_text x) /\ deep R x) /\ all r end) l).
  { fix IHl 1. intros [|x r] H; [exact I|]. destruct H as [[H1 H2] H3]. split; [split; [destruct H1; auto|exact (IH x H2)]|exact (IHl r H3)]. }
  intros [v c|v c|v c|s l c|name a c|cl l c|t l c|u alt w hh c|id t l c|id name c|v c|v c] H; try exact I; exact (IHl l H).
Qed.
Lemma loose_impl (P R : context -> Prop) : (forall c, P c -> R c) -> forall l, loose_in P l -> loose_in R l.
Proof. intros HPR l H. eapply Forall_impl; [|exact H]. cbn beta. intros n [[A|A] B]; (split; [auto|exact (deep_impl _ _ HPR _ B)]). Qed.
Definition text_state (src : option str) (lo hi : nat) (x : tx) : Prop :=
  nodes_in src lo hi (tx_nodes x) /\ nodes_in src lo hi (tx_foot x) /\ nodes_in src lo hi (tx_links x).
Section Text.
  Context (src : option str) (L : nat) (e : env) (He : calm_env e) (H0 : dget [] e = None).
  Notation Qc := (within src L L).
  Notation val := (value src L L).
  Notation J := (text_state src L L).
  Notation S := (placed src L L).
  Notation does := (does src L L J S).
  Notation wpx := (wpx J S).
  Notation nin := (nodes_in src L L).
  Context (nest : nest_fn) (Hnest : forall text o, one_line text -> text = [] \/ (o_line o = L /\ o_source o = src) -> does nin (nest text o)).

  Lemma nest_value t : val t -> does nin (nest (t_value t) (origin_of t)).
  Proof.
    intros H. apply Hnest; [eapply value_line, H|]. destruct H as [[_ (H1 & H2 & _)]|[H _]]; [right|left; exact H]. unfold origin_of. cbn [o_line o_source]. split; [lia|exact H1].
  Qed.
  Lemma val_solid t : val t -> t_value t <> [] -> solid src L L t.
  Proof. intros [H|[H _]] K; [exact H|contradiction]. Qed.
  Lemma needed_places p name msg c : args_placed src L L p -> Qc c -> does val (needed p name msg c).
  Proof.
    intros Hp Hc. unfold needed. destruct (named_arg p name) as [t|] eqn:E; [apply d_ret; exact (named_places _ _ _ _ _ _ Hp E)|]. apply d_raise. exact Hc.
  Qed.
  Lemma one_node n : Qc (inode_ctx n) -> deep Qc n -> does nin (pret [n]).
  Proof. intros H K. apply d_ret. constructor; [split; [exact H|exact K]|constructor]. Qed.
  Lemma content_places target p name : val target -> args_placed src L L p -> does (loose_in Qc) (tp_link_content nest target (named_arg p name)).
  Proof.
    intros Ht Hp. unfold tp_link_content. destruct (named_arg p name) as [t|] eqn:E.
    - eapply d_weak; [|apply nest_value, (named_places _ _ _ _ _ _ Hp E)]. apply nodes_loose.
    - apply d_ret. constructor; [|constructor]. split; [|exact I]. destruct Ht as [[_ Ht]|[Ht _]]; [left; exact Ht|right]. exists (t_ctx target). rewrite Ht. reflexivity.
  Qed.
  Notation names := (set_names_places src L L).
  Lemma tp_link_places p c : args_placed src L L p -> Qc c -> does nin (tp_link nest p c).
  Proof.
    intros Hp Hc. unfold tp_link. cbv zeta. eapply d_bind; [apply needed_places; [apply names, Hp|exact Hc]|]. intros t Ht. eapply d_bind; [apply content_places; [exact Ht|apply names, Hp]|]. intros l Hl. apply one_node; [exact Hc|apply deep_list, Hl].
  Qed.
  Lemma tp_mailto_places p c : args_placed src L L p -> Qc c -> does nin (tp_mailto nest p c).
  Proof.
    intros Hp Hc. unfold tp_mailto. cbv zeta. eapply d_bind; [apply needed_places; [apply names, Hp|exact Hc]|]. intros t Ht. eapply d_bind; [apply content_places; [exact Ht|apply names, Hp]|]. intros l Hl. apply one_node; [exact Hc|apply deep_list, Hl].
  Qed.
  Lemma tp_header_link_places p c : args_placed src L L p -> Qc c -> does nin (tp_header_link nest p c).
  Proof.
    intros Hp Hc. unfold tp_header_link. cbv zeta. eapply d_bind; [apply needed_places; [apply names, Hp|exact Hc]|]. intros t _.
    eapply (d_bind _ _ _ _ _ (loose_in Qc)).
    - destruct (named_arg _ _) as [u|] eqn:E; [|apply d_ret; constructor]. eapply d_weak; [|apply nest_value; eapply named_places; [|exact E]; apply names, Hp]. apply nodes_loose.
    - intros l Hl. eapply d_bind; [apply d_get|]. intros x _. eapply d_bind; [|intros _ _; apply one_node; [exact Hc|apply deep_list, Hl]]. apply d_mod. intros y (A & B & C). split; [exact A|]. split; [exact B|]. apply Forall_app. split; [exact C|constructor; [split; [exact Hc|apply deep_list, Hl]|constructor]].
  Qed.
  Lemma tp_class_places p c : args_placed src L L p -> Qc c -> does nin (tp_class nest p c).
  Proof.
    intros Hp Hc. unfold tp_class. cbv zeta. eapply d_bind; [apply needed_places; [apply names, Hp|exact Hc]|]. intros t Ht. eapply d_bind; [apply nest_value, Ht|]. intros l Hl. apply one_node; [exact Hc|apply deep_list, nodes_loose, Hl].
  Qed.
  Lemma tp_simple_places p c : args_placed src L L p -> Qc c -> does nin (tp_unicode p c) /\ does nin (tp_raw p c) /\ does nin (tp_image p c) /\ does nin (tp_footnote p c).
  Proof.
    intros Hp Hc. repeat split.
    - eapply d_bind; [apply needed_places; [apply names, Hp|exact Hc]|]. intros t _. apply one_node; [exact Hc|exact I].
    - eapply d_bind; [apply needed_places; [apply names, Hp|exact Hc]|]. intros t _. apply one_node; [exact Hc|exact I].
    - unfold tp_image. cbv zeta. eapply d_bind; [apply needed_places; [apply names, Hp|exact Hc]|]. intros t _. apply one_node; [exact Hc|exact I].
    - eapply d_bind; [apply needed_places; [apply names, Hp|exact Hc]|]. intros t _. eapply d_bind; [apply d_get|]. intros x _. eapply d_bind; [|intros _ _; apply one_node; [exact Hc|exact I]]. apply d_mod. intros y (A & B & C). split; [exact A|]. split; [|exact C]. apply Forall_app. split; [exact B|constructor; [split; [exact Hc|exact I]|constructor]].
  Qed.
  Lemma tp_control_places name p c : Qc (t_ctx name) -> args_placed src L L p -> Qc c -> does nin (tp_control e nest name p c).
  Proof.
    intros Hn Hp Hc. unfold tp_control. destruct (split_on (chr ":") (t_value name)) as [|op [|cond [|? ?]]]; try (apply d_raise; exact Hc).
    destruct (negb _); [apply d_raise; exact Hc|]. cbv zeta. eapply (d_bind _ _ _ _ _ (fun _ => True)).
    { destruct (parse_condition cond _) as [[n|]|ex]; [apply d_ret; exact I|apply d_raise; exact I|]. destruct ex; apply d_raise; try exact I. exact Hn. }
    intros node _. eapply (d_bind _ _ _ _ _ (fun ct => ct_ctx ct = t_ctx name)).
    { apply d_lift.
      - intros a. unfold new_control. destruct (str_eqb _ _); [|discriminate]. destruct (str_eqb _ _); [intros [= <-]; reflexivity|]. destruct (str_eqb _ _); [intros [= <-]; reflexivity|discriminate].
      - intros m. unfold new_control. change (str_eqb (lit "if") (lit "if")) with true. cbv iota. destruct (str_eqb _ _); [discriminate|]. destruct (str_eqb _ _); discriminate. }
    intros ct Ect. eapply d_bind; [apply needed_places; [apply names, Hp|exact Hc]|]. intros tc Htc. eapply (d_bind _ _ _ _ _ (fun _ => True)).
    { apply d_lift; [auto|]. intros m. unfold run_control. destruct (dget (ct_variable ct) e); [discriminate|]. intros E0. assert (m = MsgParser "Variable has not been defined." (Some (ct_ctx ct))) as -> by (unfold parser_error in E0; congruence). cbn [placed]. rewrite Ect. exact Hn. }
    intros test _. assert (Hres : forall t, (if test then Some tc else named_arg (pa_set_names p [lit "true_case"; lit "false_case"]) "false_case") = Some t -> val t).
    { intros t. destruct test; [intros [= <-]; exact Htc|]. intros E. eapply named_places; [|exact E]. apply names, Hp. }
    destruct (if test then _ else _) as [t|].
    - specialize (Hres t eq_refl). destruct (str_eqb op (lit "ifeval")).
      + eapply (d_bind _ _ _ _ _ (fun o => match o with Some t => val t | None => True end)).
        * eapply (d_bind _ _ _ _ _ (fun v => one_line v /\ solid src L L t)); [|intros v [Hv Ht]; apply d_ret; left; split; [exact Hv|apply Ht]].
          apply d_lift.
          -- intros v Hv. unfold ifeval_text in Hv. pose proof (calm_get e (t_value t) He) as K. destruct (t_value t) as [|ch tv] eqn:Etv.
             { exfalso. unfold env_get in Hv. rewrite H0 in Hv. cbv zeta in Hv. destruct (filter _ _); discriminate. }
             assert (Hs : solid src L L t) by (apply val_solid; [exact Hres|rewrite Etv; discriminate]). split; [|exact Hs].
             destruct (env_get e (ch :: tv)) as [[s|[|]|s|d]|a|]; try discriminate Hv; apply Ok_inv in Hv; subst v; [exact K|intros []].
          -- intros m. unfold ifeval_text. destruct (env_get e (t_value t)) as [[s|[|]|s|d]|a|]; try discriminate. intros E0. assert (m = MsgParser "Variable has not been defined." (Some c)) as -> by (unfold parser_error in E0; congruence). exact Hc.
        * intros [u|] Hu; [apply nest_value, Hu|apply d_ret; constructor].
      + eapply (d_bind _ _ _ _ _ (fun o => o = Some t)); [apply d_ret; reflexivity|]. intros o ->. apply nest_value, Hres.
    - destruct (str_eqb op (lit "ifeval")).
      + eapply (d_bind _ _ _ _ _ (fun o : option token => False)); [apply d_raise; exact Hc|intros o []].
      + eapply (d_bind _ _ _ _ _ (fun o : option token => o = None)); [apply d_ret; reflexivity|]. intros o ->. apply d_ret. constructor.
  Qed.

  (* the arguments of a macro *)
  Lemma check_tv u ty v : check_token u (Some ty) (Some v) None = if token_eqb u (generate ty v) then Ok u else Exc ExTokenError.
  Proof. unfold check_token, token_eqb, generate. cbn [t_type t_value]. destruct (tt_eqb _ _), (str_eqb _ _); reflexivity. Qed.
  Lemma check_ty u ty : check_token u (Some ty) None None = if tt_eqb (t_type u) ty then Ok u else Exc ExTokenError.
  Proof. unfold check_token. destruct (tt_eqb _ _); reflexivity. Qed.
  Lemma is_tv_is {X} u r (x : X) ty v : is_tv ty v (u :: r, x) = ((u :: r, x), Ok (token_eqb u (generate ty v))).
  Proof. unfold is_tv, peek_is. cbn [fst peek_tok]. rewrite check_tv. destruct (token_eqb _ _); reflexivity. Qed.
  Lemma is_ty_is {X} u r (x : X) ty : is_ty ty (u :: r, x) = ((u :: r, x), Ok (tt_eqb (t_type u) ty)).
  Proof. unfold is_ty, peek_is. cbn [fst peek_tok]. rewrite check_ty. destruct (tt_eqb _ _); reflexivity. Qed.
  Lemma bind_is {X A B} (m : P X A) (f : A -> P X B) s s' a : m s = (s', Ok a) -> pbind m f s = f a s'.
  Proof. intros H. unfold pbind. rewrite H. reflexivity. Qed.
  Lemma comma_stuck n : forall u r x, token_in u (macro_stops ++ [EOF_tok]) = true -> token_eqb u rpar_tok = false -> token_eqb u quote_tok = false -> tt_eqb (t_type u) T_EOF = false ->
    exists s', tp_args_loop n (u :: r, x) = (s', Exc ExFuel) /\ snd s' = x.
  Proof.
    induction n as [|n IH]; intros u r x Hst H1 H2 H3; [eexists; split; reflexivity|]. cbn [tp_args_loop].
    rewrite (bind_is _ _ _ _ _ (is_tv_is u r x _ _)), (bind_is _ _ _ _ _ (is_ty_is u r x _)). change (generate T_LITERAL (lit ")")) with rpar_tok. rewrite H1, H3. cbn [orb].
    rewrite (bind_is _ _ _ _ _ (is_tv_is u r x _ _)). change (generate T_LITERAL Q) with quote_tok. rewrite H2.
    assert (E : pcollect_join macro_stops [] false (u :: r, x) = ((u :: r, x), Ok (join_tokens [] []))).
    { unfold pcollect_join, pbind, pcollect. cbn [fst collect_list]. rewrite Hst. reflexivity. }
    rewrite (bind_is _ _ _ _ _ E). destruct (IH u r x Hst H1 H2 H3) as (s' & K & Kx). unfold pbind at 1. rewrite K. exists s'. auto.
  Qed.
  Notation sol := (solid src L L).
  Notation good := (good src L L J).
  Lemma args_loop_places n : forall s, good s -> wpx (fun ts s' => good s' /\ (ended (fst s) -> ended (fst s')) /\ (Forall sol ts \/ ended (fst s'))) (tp_args_loop n) s.
  Proof.
    induction n as [|n IH]; intros [rem x] Hs; [split; [apply Hs|exact I]|]. destruct (fair_head _ _ _ _ (proj1 Hs)) as (u & r & E0 & HC). cbn [fst] in E0. subst rem.
    destruct (token_in u (macro_stops ++ [EOF_tok]) && negb (token_eqb u rpar_tok) && negb (token_eqb u quote_tok) && negb (tt_eqb (t_type u) T_EOF)) eqn:Estuck.
    { repeat (apply andb_true_iff in Estuck as [Estuck ?]). destruct (comma_stuck (Datatypes.S n) u r x) as (s' & K & Kx); try (apply negb_true_iff; assumption); [exact Estuck|].
      unfold PlaceText.wpx. rewrite K. split; [rewrite Kx; apply Hs|exact I]. }
    cbn [tp_args_loop]. unfold PlaceText.wpx. rewrite (bind_is _ _ _ _ _ (is_tv_is u r x _ _)), (bind_is _ _ _ _ _ (is_ty_is u r x _)). change (generate T_LITERAL (lit ")")) with rpar_tok.
    destruct (token_eqb u rpar_tok) eqn:E1; cbn [orb]; [split; [exact Hs|split; [auto|left; constructor]]|]. destruct (tt_eqb (t_type u) T_EOF) eqn:E2; [split; [exact Hs|split; [auto|left; constructor]]|].
    rewrite (bind_is _ _ _ _ _ (is_tv_is u r x _ _)). change (generate T_LITERAL Q) with quote_tok. cbn [negb] in Estuck. rewrite !andb_true_r in Estuck.
    match goal with |- match ?m ?s with _ => _ end => change (wpx (fun ts s' => good s' /\ (ended (u :: r) -> ended (fst s')) /\ (Forall sol ts \/ ended (fst s'))) m s) end.
    assert (Hne : ~ ended (u :: r)) by (intros (t & r' & E & Et); injection E as -> _; rewrite Et in E2; discriminate).
    apply x_bind. eapply (x_weak _ _ (fun t s' => good s' /\ (sol t \/ (loose src L L t /\ ended (fst s'))))).
    - intros t s' [Hs' Ht]. apply x_bind. eapply x_weak; [|exact (IH s' Hs')]. cbn beta. intros ts s2 (Hs2 & Hend & Hts). apply x_ret. split; [exact Hs2|]. split; [intros K; destruct (Hne K)|].
      destruct Ht as [Ht|[_ Ht]]; [destruct Hts as [Hts|Hts]; [left; constructor; assumption|right; exact Hts]|].
      right. exact (Hend Ht).
    - destruct (token_eqb u quote_tok) eqn:E3.
      + eapply x_weak; [|refine (d_bind _ _ _ _ _ _ sol _ _ (d_get_token _ _ _ _ _ _ _ _ _) _ _ Hs)]; [|discriminate|].
        * cbn beta. intros a s' [H1 H2]. auto.
        * intros o Ho. eapply d_bind; [apply d_collect|]. intros t Ht. eapply d_bind; [apply d_get_token; discriminate|]. intros c Hc. apply d_ret. split.
          -- cbn [t_value]. apply one_line_app. split; [apply mark_line; reflexivity|]. apply one_line_app. split; [eapply value_line, Ht|apply mark_line; reflexivity].
          -- apply merge_l; [apply Ho|apply inn_near, Hc].
      + eapply x_weak; [|exact (x_collect src L L J S macro_stops false _ Hs)]. cbn beta. intros t s' (H1 & _ & H3). split; [exact H1|]. apply (H3 u r eq_refl). cbn [negb] in Estuck. rewrite !andb_true_r in Estuck. exact Estuck.
  Qed.
  Lemma solid_list ts : ts <> [] -> Forall sol ts -> sol (from_token_list ts []).
  Proof.
    intros Hn H. destruct ts as [|t ts]; [destruct (Hn eq_refl)|]. inversion H; subst. split.
    - cbn [from_token_list t_value]. apply one_line_join; [intros []|]. clear - H. induction H as [|x l Hx _ IH]; constructor; [apply Hx|exact IH].
    - cbn [from_token_list t_ctx]. apply merge_l; [apply H3|]. apply within_near. apply (last_in (fun t => Qc (t_ctx t))); [apply H3|]. eapply Forall_impl; [|exact H4]. intros y Hy. apply Hy.
  Qed.
  Lemma macro_args_places s : good s -> wpx (fun t s' => good s' /\ (t_value t = [] \/ sol t \/ ended (fst s'))) tp_macro_args s.
  Proof.
    intros Hs. unfold PlaceText.wpx, tp_macro_args. match goal with |- match ?m s with _ => _ end => change (wpx (fun t s' => good s' /\ (t_value t = [] \/ sol t \/ ended (fst s'))) m s) end.
    apply x_bind. eapply x_weak; [|exact (args_loop_places _ s Hs)]. cbn beta. intros ts s' (H1 & _ & H2). apply x_ret. split; [exact H1|]. destruct H2 as [H2|H2]; [|auto].
    destruct ts as [|t ts]; [left; reflexivity|right; left; apply solid_list; [discriminate|exact H2]].
  Qed.
  Lemma process_places t : t_value t = [] \/ sol t -> at_text src L L (args_placed src L L) (process_arguments e t).
  Proof.
    unfold process_arguments. intros [->|[H1 H2]]; [rewrite parse_arguments_nil; split; constructor|]. pose proof (parse_arguments_places e (t_value t) (origin_of t) He) as K.
    assert (E1 : o_line (origin_of t) = L) by (destruct H2 as (_ & H2 & _); cbn; lia). assert (E2 : o_source (origin_of t) = src) by apply H2. rewrite (one_line_last _ _ H1), E1, E2 in K. exact K.
  Qed.
  Lemma tp_macro_places : does nin (tp_macro e nest).
  Proof.
    unfold tp_macro. eapply d_bind; [apply d_get_token; discriminate|]. intros o Ho. eapply d_bind; [apply d_get_token; discriminate|]. intros name Hname.
    eapply d_bind; [apply d_get_token; discriminate|]. intros _ _. eapply d_bind; [apply d_get_token; discriminate|]. intros _ _.
    intros s Hs. apply x_bind. eapply x_weak; [|exact (macro_args_places s Hs)]. cbn beta. intros argt s' [Hs' Ha]. apply x_bind.
    assert (G : (t_value argt = [] \/ sol argt) -> wpx (fun a s'' => (good s'' /\ inner src L L a) /\ True) (get_tv T_LITERAL (lit ")")) s').
    { intros _. eapply x_weak; [|apply (d_get_token src L L J S T_LITERAL _ _ ltac:(discriminate) s' Hs')]. auto. }
    destruct Ha as [Ha|[Ha|Ha]].
    1,2: eapply x_weak; [|apply G; auto]; cbn beta; intros cl s2 [[Hs2 Hcl] _]; revert s2 Hs2; match goal with |- forall s2, _ -> wpx _ ?m s2 => change (does nin m) end;
      assert (Hc : Qc (merge_contexts (t_ctx o) (t_ctx cl))) by (apply merge_l; [apply Ho|apply inn_near, Hcl]);
      (eapply (d_bind _ _ _ _ _ (args_placed src L L)); [pose proof (process_places argt) as K; apply d_lift; [intros a E; rewrite E in K; apply K; auto|intros m E; rewrite E in K; apply K; auto]|]);
      intros p Hp; cbv zeta; destruct (tp_simple_places p _ Hp Hc) as (K1 & K2 & K3 & K4);
      (repeat (apply d_if; [first [apply tp_control_places; [apply Hname|exact Hp|exact Hc]|apply tp_link_places; assumption|apply tp_header_link_places; assumption|apply tp_mailto_places; assumption|assumption|apply tp_class_places; assumption]|]));
      apply one_node; [exact Hc|exact I].
    destruct s' as [rem' x']. destruct Ha as (t & r & E & Et). cbn [fst] in E. subst rem'. unfold PlaceText.wpx at 1, get_tv, pget_token. cbn [fst peek_tok]. unfold check_token. rewrite Et. cbn. split; [apply Hs'|exact I].
  Qed.
  Lemma tp_backslash_places : does nin tp_backslash.
  Proof.
    unfold tp_backslash. eapply d_bind; [apply d_get_token; discriminate|]. intros b Hb. eapply d_bind; [apply d_get_tok|]. intros t Ht. apply one_node; [|exact I]. apply merge_l; [apply Hb|].
    destruct Ht as [Ht|Ht]; [apply inn_near, Ht|apply Ht].
  Qed.
  Lemma tp_verbatim_places : does nin tp_verbatim.
  Proof.
    unfold tp_verbatim. eapply d_bind; [apply d_get_token; discriminate|]. intros o Ho. eapply d_bind; [apply d_collect|]. intros t _. eapply d_bind; [apply d_get_token; discriminate|]. intros c Hc.
    apply one_node; [apply merge_l; [apply Ho|apply inn_near, Hc]|exact I].
  Qed.
  Lemma tp_escaped_places : does nin tp_escaped.
  Proof.
    unfold tp_escaped. eapply d_bind; [apply d_get_token; discriminate|]. intros o Ho. eapply d_bind; [apply d_collect|]. intros t _. eapply d_bind; [apply d_get_token; discriminate|]. intros c Hc.
    apply one_node; [apply merge_l; [apply Ho|apply inn_near, Hc]|exact I].
  Qed.
  Lemma group_places nodes : nin nodes -> forall group, nin group -> nin (group_words group nodes).
  Proof.
    assert (G : forall group, nin group -> nin (word_group group)).
    { intros group H. destruct group as [|w g]; [constructor|]. inversion H as [|? ? [Hw _] Hg]; subst. constructor; [|constructor]. split; [|exact I]. cbn [inode_ctx]. apply merge_l; [assumption|]. apply within_near. apply (last_in (fun n => Qc (inode_ctx n))); [assumption|]. eapply Forall_impl; [|exact Hg]. cbn beta. tauto. }
    induction 1 as [|n nodes Hn _ IH]; intros group Hg; [apply G, Hg|]. cbn [group_words]. destruct (is_word n).
    - apply IH. apply Forall_app. split; [exact Hg|constructor; [exact Hn|constructor]].
    - apply Forall_app. split; [apply G, Hg|]. constructor; [exact Hn|apply IH; constructor].
  Qed.
  Lemma tp_style_places words : (forall st, token_in EOF_tok st = true -> does nin (words st)) -> does nin (tp_style words).
  Proof.
    intros Hw. unfold tp_style. eapply d_bind; [apply d_get_token; discriminate|]. intros o Ho. eapply d_bind; [apply Hw|].
    { unfold token_in, style_stops. cbn [existsb]. rewrite (proj2 (token_eqb_spec EOF_tok EOF_tok) (conj eq_refl eq_refl)). cbn [orb]. apply orb_true_r. }
    intros content Hin. eapply d_bind; [apply d_get_token; discriminate|]. intros c Hc. cbv zeta. apply one_node; [apply merge_l; [apply Ho|apply inn_near, Hc]|apply deep_list, nodes_loose, group_places; [exact Hin|constructor]].
  Qed.
  Lemma tp_first_places fs last s : Forall (does nin) fs -> good s -> (forall x, J x -> wpx (fun a s' => good s' /\ nin a) last (fst s, x)) -> wpx (fun a s' => good s' /\ nin a) (tp_first fs last) s.
  Proof.
    intros Hf. revert s. induction Hf as [|f fs Hf _ IH]; intros s Hs Hl; [cbn [tp_first]; specialize (Hl (snd s) (proj2 Hs)); destruct s; exact Hl|]. cbn [tp_first]. apply x_bind, x_with.
    - eapply x_weak; [|exact (Hf s Hs)]. cbn beta. intros a s' K. apply x_ret, K.
    - intros x Hx. apply IH; [split; [apply Hs|exact Hx]|]. exact Hl.
  Qed.
  Lemma tp_words_places n : forall st, token_in EOF_tok st = true -> does nin (tp_words e nest n st).
  Proof.
    induction n as [|n IH]; intros st Hst; [apply d_raise; exact I|]. intros [rem x] Hs. destruct (fair_head _ _ _ _ (proj1 Hs)) as (u & r & E0 & HC). cbn [fst] in E0. subst rem.
    cbn [tp_words]. apply x_bind. unfold PlaceText.wpx at 1, ppeek. cbn [fst peek_tok check_token].
    destruct (token_in u st) eqn:Eu; [apply x_ret; split; [exact Hs|constructor]|].
    assert (Hu : inner src L L u).
    { destruct HC as [[HC _]|[(K1 & K2 & _) _]]; [exact HC|]. assert (K : token_in u st = true); [|congruence].
      revert Hst. unfold token_in. rewrite !existsb_exists. intros (w & W1 & W2). exists w. split; [exact W1|]. apply token_eqb_spec in W2. apply token_eqb_spec. rewrite K1, K2. exact W2. }
    apply x_bind. unfold tp_item. eapply x_weak; [|apply tp_first_places; [|exact Hs|]].
    - cbn beta. intros nodes s' [H1 H2]. destruct nodes as [|nd nodes]; [apply x_ret; split; [exact H1|constructor]|]. apply x_bind. eapply x_weak; [|exact (IH st Hst s' H1)]. cbn beta. intros rest s2 [H3 H4]. apply x_ret.
      split; [exact H3|]. apply (proj2 (Forall_app _ (nd :: nodes) rest)). split; assumption.
    - repeat constructor; [apply tp_backslash_places|apply tp_macro_places|apply tp_verbatim_places|apply tp_escaped_places|apply tp_style_places, IH].
    - intros y Hy. cbn [fst]. unfold tp_word. apply x_bind. unfold PlaceText.wpx at 1, get_tok, pget_token. cbn [fst snd peek_tok check_token]. apply x_ret. split.
      + split; [apply fair_next, (proj1 Hs)|exact Hy].
      + constructor; [split; [apply Hu|exact I]|constructor].
  Qed.
  Lemma tp_sentence_places : does (fun b => b = true) (tp_sentence e nest).
  Proof.
    intros s Hs. unfold tp_sentence, PlaceText.wpx. match goal with |- match ?m s with _ => _ end => change (wpx (fun b s' => good s' /\ b = true) m s) end. revert s Hs. 
    match goal with |- forall s, _ -> wpx _ _ s => idtac end. intros s Hs. refine (d_bind src L L J S nin (fun b => b = true) _ _ (tp_words_places _ text_stops eq_refl) _ s Hs).
    intros nodes Hn. eapply d_bind; [|intros _ _; apply d_ret; reflexivity]. apply d_mod. intros x (A & B & C). split; [|split; [exact B|exact C]]. apply Forall_app. split; [exact A|]. apply group_places; [exact Hn|constructor].
  Qed.
End Text.
Theorem tp_run_places depth : forall e text o next, calm_env e -> dget [] e = None -> one_line text ->
  at_text (o_source o) (o_line o) (o_line o) (text_state (o_source o) (o_line o) (o_line o)) (tp_run depth e text o next) /\ (text = [] -> depth <> 0 -> tp_run depth e text o next = Ok (tx_init next)).
Proof.
  induction depth as [|d IH]; intros e text o next He H0 Ht; [split; [exact I|intros _ K; destruct (K eq_refl)]|]. cbn [tp_run]. cbv zeta. split.
  - destruct (lex_text_ok text (o_line o) (o_column o) (o_source o)) as (toks & El & _). change (lex_text (buffer text o) = Ok toks) in El. rewrite El. pose proof (text_fair _ _ _ El) as Hf. rewrite (one_line_last _ _ Ht) in Hf.
    match goal with |- at_text _ _ _ _ (prun _ _ [tp_sentence e ?n]) => set (nest := n) end.
    assert (Hnest : forall text' o', one_line text' -> text' = [] \/ (o_line o' = o_line o /\ o_source o' = o_source o) ->
      does (o_source o) (o_line o) (o_line o) (text_state (o_source o) (o_line o) (o_line o)) (placed (o_source o) (o_line o) (o_line o)) (nodes_in (o_source o) (o_line o) (o_line o)) (nest text' o')).
    { intros text' o' H1 H2 s Hs. unfold wpx, nest. destruct (IH e text' o' (tx_next (snd s)) He H0 H1) as [K1 K2]. destruct (tp_run d e text' o' (tx_next (snd s))) as [y|ex] eqn:Er.
      - split; [split; [apply Hs|split; apply (proj2 Hs)]|]. destruct H2 as [->|[H2 H3]]; [|rewrite H2, H3 in K1; apply K1].
        destruct d as [|d]; [discriminate Er|]. specialize (K2 eq_refl ltac:(discriminate)). apply Ok_inv in K2. rewrite K2. constructor.
      - split; [apply Hs|]. destruct ex as [|m| |]; try exact I. destruct H2 as [->|[H2 H3]]; [|rewrite H2, H3 in K1; exact K1].
        destruct d as [|d]; [discriminate Er|]. specialize (K2 eq_refl ltac:(discriminate)). discriminate K2. }
    pose proof (run_places _ _ _ (text_state (o_source o) (o_line o) (o_line o)) (placed (o_source o) (o_line o) (o_line o)) (fun _ _ H => H) [tp_sentence e nest] toks (tx_init next)) as K.
    assert (Hfn : Forall (does (o_source o) (o_line o) (o_line o) (text_state (o_source o) (o_line o) (o_line o)) (placed (o_source o) (o_line o) (o_line o)) (fun b => b = true)) [tp_sentence e nest]).
    { constructor; [|constructor]. apply tp_sentence_places; assumption. }
    specialize (K Hfn Hf ltac:(repeat split; constructor)). destruct (prun _ _ _) as [y|ex]; [exact K|destruct ex; exact K].
  - intros -> _. destruct (lex_text_ok [] (o_line o) (o_column o) (o_source o)) as (toks & El & Em & _). change (lex_text (buffer [] o) = Ok toks) in El. rewrite El.
    assert (Hk : exists c, lex_text (buffer [] o) = Ok [mkToken T_EOF [] c]) by (eexists; reflexivity). destruct Hk as [c Hk]. assert (toks = [mkToken T_EOF [] c]) as -> by congruence. apply run_ended. reflexivity.
Qed.
