(* PlaceDoc.v -- the errors of the elements of a document *)
From Verif Require Import SimFacts LexerThms InlineInst ParseFacts RunFacts TermFacts TermText DocFacts MonoFacts ErrDoc DocLexerProps.
From Verif Require Export PlaceNodes.
#[local] Notation length := List.length.

(* ------------------------------------------------ the tokens of a page *)
(* the token is in the lines from lo to hi, with its text *)
Definition tok_on (src : option str) (lo hi : nat) (t : token) : Prop :=
  c_source (t_ctx t) = src /\ lo <= c_start_line (t_ctx t) <= hi /\ lo <= c_end_line (t_ctx t) <= hi /\
  last_line (t_value t) (c_start_line (t_ctx t)) <= hi.

Definition before (u : tbuf) (t : token) : Prop := c_end_line (t_ctx t) < tb_line u + tb_start_line u.

Lemma next_line tb : tb_line tb <= length (tb_lines tb) -> tb_line (nextline tb) = S (tb_line tb).
Proof. intros H. unfold nextline. cbn [tb_line]. apply Nat.leb_le in H. rewrite H. lia. Qed.
Lemma emit_before script tb : tb_line tb <= length (tb_lines tb) -> forall u, tb_line u = tb_line tb -> tb_start_line u = tb_start_line tb -> Forall (before (nextline tb)) (fst (emit script u)).
Proof.
  intros Hl. induction script as [|[[ty|] v] s IH]; intros u U1 U2; [constructor| |].
  - cbn [emit]. destruct (create_token u ty v) as [t u'] eqn:E. unfold create_token in E. apply pair_equal_spec in E as [<- <-].
    specialize (IH (skip u (length v)) U1 U2). destruct (emit s (skip u (length v))) as [ts u2]. cbn [fst] in *. constructor; [|exact IH].
    unfold before. rewrite (next_line _ Hl). change (tb_start_line (nextline tb)) with (tb_start_line tb). cbn [t_ctx c_end_line tb_position fst skip tb_line tb_start_line]. unfold skip. cbn [tb_line tb_start_line]. lia.
  - cbn [emit]. apply IH; assumption.
Qed.
Lemma rule_before re script keep tb toks u : (forall cs l (P : token -> Prop), Forall P l -> Forall P (keep cs l)) -> tb_line tb <= length (tb_lines tb) ->
  line_rule re script keep tb = Ok (Some (toks, u)) -> Forall (before u) toks.
Proof.
  intros Hk Hl. unfold line_rule. destruct (rmatch re _) as [cs|]; [|discriminate]. intros H. apply Ok_inv in H. assert (E : (keep cs (fst (emit (script cs) tb)), nextline tb) = (toks, u)) by congruence.
  apply pair_equal_spec in E as [<- <-]. apply Hk. apply emit_before; auto.
Qed.
Lemma all_kept_all cs l (P : token -> Prop) : Forall P l -> Forall P (all_kept cs l).
Proof. auto. Qed.
Lemma keep_34_all i j cs l (P : token -> Prop) : Forall P l -> Forall P (keep_34 i j cs l).
Proof.
  intros H. unfold keep_34. destruct l as [|a [|b [|c [|d [|]]]]]; try exact H. inversion H as [|? ? H1 K1]; subst. inversion K1 as [|? ? H2 K2]; subst. inversion K2 as [|? ? H3 K3]; subst. inversion K3 as [|? ? H4 _]; subst.
  repeat (apply Forall_app; split); [repeat constructor; assumption| |]; unfold keep_if; destruct (group _ _); repeat constructor; assumption.
Qed.
Lemma step_before tb toks u : bol tb -> tb_eof tb = false -> run_functions (all_functions doc_lexer_fns) tb = Ok (toks, u) -> Forall (before u) toks.
Proof.
  intros Hb He. assert (Hc : col0 tb) by apply Hb. assert (Hl : tb_line tb <= length (tb_lines tb)) by apply Hb. destruct (not_eof_rest _ Hb He) as (r0 & R1 & R2 & R3).
  rewrite (run_base _ _ He). destruct (all_sp (current_line tb)).
  { intros H. apply Ok_inv, pair_equal_spec in H as [<- <-]. constructor; [|constructor].
    assert (G : tb_line tb + tb_start_line tb < tb_line (nextline tb) + tb_start_line tb) by (rewrite (next_line _ Hl); lia). exact G. }
  destruct (all_sp (Token.tail tb)). { intros H. apply Ok_inv, pair_equal_spec in H as [<- _]. constructor. }
  unfold doc_lexer_fns. cbn [app run_functions]. rewrite (multiline_eq _ Hb He). destruct (str_eqb _ _).
  { destruct (find_line _ _); cbn [rbind]; [|discriminate]. intros H. apply Ok_inv, pair_equal_spec in H as [<- _]. constructor. }
  cbn [rbind]. rewrite dl_comment_rule, dl_hr_rule.
  assert (R : forall re script keep (k : res (list token * tbuf)), (forall cs l (P : token -> Prop), Forall P l -> Forall P (keep cs l)) -> (k = Ok (toks, u) -> Forall (before u) toks) ->
    (let? r := line_rule re script keep tb in match r with Some r => Ok r | None => k end) = Ok (toks, u) -> Forall (before u) toks).
  { intros re script keep k Hk K H. destruct (line_rule re script keep tb) as [[[ts v]|]|e] eqn:E; cbn [rbind] in H; [|exact (K H)|discriminate].
    apply Ok_inv, pair_equal_spec in H as [<- <-]. exact (rule_before _ _ _ _ _ _ Hk Hl E). }
  apply R; [apply all_kept_all|]. apply R; [apply all_kept_all|]. rewrite (block_eq _ Hb He). destruct (is_fence _).
  { destruct (find_line (current_line tb) (rest (nextline tb))) as [m|] eqn:Ef; cbn [rbind]; [|discriminate]. intros H. apply Ok_inv, pair_equal_spec in H as [<- <-].
    assert (L1 : tb_line (nextline tb) = S (tb_line tb)) by (apply next_line, Hl).
    assert (L3 : tb_line (nextline (move (nextline tb) m)) = S (S (tb_line tb) + m)).
    { assert (K : tb_line (move (nextline tb) m) = S (tb_line tb) + m) by (rewrite move_line, L1; reflexivity). unfold nextline at 1. cbn [tb_line]. rewrite K, move_lines. change (tb_lines (nextline tb)) with (tb_lines tb).
      assert (m < length (rest (nextline tb))) by (eapply find_line_le, Ef). unfold rest in H. rewrite skipn_length, L1 in H. change (tb_lines (nextline tb)) with (tb_lines tb) in H.
      destruct (Nat.leb_spec (S (tb_line tb) + m) (length (tb_lines tb))); lia. }
    assert (Hs : tb_start_line (nextline (move (nextline tb) m)) = tb_start_line tb) by (destruct m; reflexivity).
    assert (L2 : tb_line (move (nextline tb) m) = S (tb_line tb) + m) by (rewrite move_line, L1; reflexivity).
    unfold block_tokens. apply Forall_cons; [|apply Forall_app; split].
    - unfold before. rewrite L3, Hs. unfold create_token, skip, tb_position. cbn [fst t_ctx c_end_line tb_line tb_start_line]. lia.
    - destruct (firstn m _) as [|c0 cs] eqn:Ec; [constructor|]. constructor; [|constructor]. unfold before. rewrite L3, Hs. cbn [t_ctx c_end_line].
      assert (Hm : length (c0 :: cs) <= m) by (rewrite <- Ec; apply firstn_le_length). change (tb_start_line (nextline tb)) with (tb_start_line tb).
      unfold tb_position. cbn [fst]. rewrite L1. change (tb_start_line (nextline tb)) with (tb_start_line tb). lia.
    - constructor; [|constructor]. unfold before. rewrite L3, Hs. unfold create_token, skip, tb_position. cbn [fst t_ctx c_end_line tb_line tb_start_line]. rewrite L2. replace (tb_start_line (move (nextline tb) m)) with (tb_start_line tb) by (destruct m; reflexivity). lia. }
  cbn [rbind]. rewrite dl_control_rule, dl_include_rule, dl_variable_rule, dl_arguments_rule, dl_label_rule, dl_list_rule, dl_header_rule, (dl_text_rule tb Hc).
  repeat (apply R; [first [apply all_kept_all|apply keep_34_all]|]). discriminate.
Qed.

Lemma steps_before lines sl sc src : forall tb ts u, bol tb -> LexerFacts.wf lines sl sc src tb -> steps doc_lexer_fns tb ts u ->
  Forall (fun t => c_end_line (t_ctx t) < length lines + sl) ts.
Proof.
  intros tb ts u Hb Hwf Hs. induction Hs as [tb|tb ts tb' ts' tb'' He Hr Hs IH]; [constructor|].
  destruct (doc_good lines sl sc src _ _ _ (proj1 Hb) Hwf He Hr) as [(H1 & _) HI']. apply Forall_app. split.
  - eapply Forall_impl; [|exact (step_before _ _ _ Hb He Hr)]. unfold before. intros t Ht. destruct H1 as (_ & H2 & _ & _ & H3 & _). rewrite H2 in Ht. lia.
  - apply IH; [|exact H1]. eapply wf_bol; [exact H1|exact HI'].
Qed.
Lemma lines_count lines p q : Forall one_line lines -> fst p <= fst q -> length (text_lines (slice lines p q)) - 1 <= fst q - fst p.
Proof.
  intros Hl Hp. assert (G : forall ls : list str, Forall one_line ls -> length (text_lines (join [NL] ls)) <= length ls \/ length (text_lines (join [NL] ls)) = 0).
  { intros ls Hls. unfold text_lines. destruct ls as [|l ls]; [right; reflexivity|]. left. rewrite (split_join NL (l :: ls)); [|discriminate|exact Hls]. destruct (join [NL] (l :: ls)); [cbn; lia|lia]. }
  assert (Hn : forall i, one_line (nth i lines [])).
  { intros i. destruct (Nat.lt_ge_cases i (length lines)) as [L|L]; [rewrite Forall_forall in Hl; apply Hl, nth_In, L|rewrite nth_overflow by exact L; intros []]. }
  assert (Hf : forall n s, one_line s -> one_line (firstn n s)) by (intros n s H; rewrite <- (firstn_skipn n s) in H; apply one_line_app in H; tauto).
  assert (Hk : forall n s, one_line s -> one_line (skipn n s)) by (intros n s H; rewrite <- (firstn_skipn n s) in H; apply one_line_app in H; tauto).
  unfold slice. destruct (Nat.eqb_spec (fst p) (fst q)) as [E|E].
  - specialize (G [firstn (snd q - snd p) (skipn (snd p) (nth (fst p) lines []))] ltac:(repeat constructor; auto)). cbn [join length] in G. lia.
  - match goal with |- context [join [NL] ?l] => specialize (G l); assert (Hll : length l <= S (fst q - fst p)) end.
    { rewrite !app_length, firstn_length, skipn_length. cbn [length]. lia. }
    match type of G with ?A -> _ => assert (HA : A) end.
    { apply Forall_app. split; [repeat constructor; auto|]. apply Forall_app. split; [|repeat constructor; auto].
      assert (K : Forall one_line (skipn (S (fst p)) lines)) by (apply all_skipn, Hl). rewrite <- (firstn_skipn (fst q - fst p - 1) (skipn (S (fst p)) lines)) in K. apply Forall_app in K. tauto. }
    specialize (G HA). unfold str in *. lia.
Qed.
Lemma page_tokens text o toks : lex_document (buffer text o) = Ok toks ->
  exists body eof, toks = body ++ [eof] /\ Forall (tok_on (o_source o) (o_line o) (last_line text (o_line o))) body /\ Forall (fun t => t_type t <> T_EOF) body /\
    near (o_source o) (o_line o) (last_line text (o_line o)) (t_ctx eof) /\ t_type eof = T_EOF /\ t_value eof = [].
Proof.
  unfold buffer. intros H. rewrite lex_document_init in H. set (lines := text_lines text) in *.
  destruct (lex_lines_total lines (o_line o) (o_column o) (o_source o)) as [(ts & u & Hs & He & E)|(ts & u & e & _ & _ & _ & E)]; [|congruence].
  assert (toks = ts ++ [eof_token u]) as -> by (rewrite E in H; congruence). clear E H.
  destruct (steps_facts _ _ _ _ _ _ Hs) as (Hc & Hwf & Hin & Hne).
  assert (Hb : bol (start_tb lines (o_line o) (o_column o) (o_source o))) by (eapply wf_bol; [apply start_wf|reflexivity]).
  pose proof (steps_before _ _ _ _ _ _ _ Hb (start_wf lines _ _ _) Hs) as Hlt.
  assert (Hlines : Forall one_line lines).
  { unfold lines, text_lines. destruct text as [|c text]; [constructor|]. apply split_on_parts. }
  exists ts, (eof_token u). split; [reflexivity|]. split; [|split; [exact Hne|split; [|split; reflexivity]]].
  - clear - Hin Hlt Hlines. revert Hin. generalize (0, 0) as p, (raw u) as q. induction Hlt as [|t ts Ht Hlt IH]; intros p q Hin; [constructor|].
    destruct Hin as (a & b & _ & (V1 & V2 & V3 & V4 & V5 & V6 & V7) & Hin). constructor; [|exact (IH _ _ Hin)].
    unfold shifted in V5, V6. apply pair_equal_spec in V5 as [V5 _]. apply pair_equal_spec in V6 as [V6 _].
    assert (L : fst a <= fst b) by (unfold pos_le in V3; lia). pose proof (lines_count lines a b Hlines L) as K. rewrite <- V4 in K. unfold tok_on, last_line. fold lines. split; [exact V7|]. lia.
  - pose proof (eof_tidy text (o_line o) (o_column o) (o_source o) u Hwf) as (_ & K & _). exact K.
Qed.

(* -------------------------------------------- the state of a parser *)
(* what the errors that are reported later will say is in the page *)
Definition sound (W : context -> Prop) (src : option str) (lo hi : nat) (x : dx) : Prop :=
  calm_env (dx_env x) /\ (forall a, dx_args x = Some a -> calm_args a) /\
  (forall c, dx_control x = Some c -> within src lo hi (ct_ctx c)) /\
  Forall (fun m => within src lo hi (mn_ctx m)) (fm_macros (dx_foot x)) /\
  Forall (fun m => within src lo hi (mn_ctx (fst m))) (hm_macros (dx_links x)) /\
  Forall (fun m => within src lo hi (mn_ctx m)) (gm_groups (dx_groups x)) /\
  stored W (within src lo hi) x.
Lemma within_wider src lo hi lo' hi' c : lo' <= lo -> hi <= hi' -> within src lo hi c -> within src lo' hi' c.
Proof. unfold within. intros H1 H2 (H3 & H4 & H5). repeat split; auto; lia. Qed.
Lemma placed_wider src lo hi lo' hi' m : lo' <= lo -> hi <= hi' -> placed src lo hi m -> placed src lo' hi' m.
Proof. intros H1 H2. destruct m as [msg s p|msg [c|]|]; cbn [placed]; auto; [intros (H3 & H4); repeat split; auto; lia|apply within_wider; assumption]. Qed.
Lemma near_wider src lo hi lo' hi' c : lo' <= lo -> hi <= hi' -> near src lo hi c -> near src lo' hi' c.
Proof. unfold near. intros H1 H2 (H3 & H4 & H5). repeat split; auto; lia. Qed.
Lemma sound_wider W0 src lo hi lo' hi' x : lo' <= lo -> hi <= hi' -> sound W0 src lo hi x -> sound W0 src lo' hi' x.
Proof.
  intros H1 H2 (A & B & C & D & E & F & G). pose proof (fun c => within_wider src lo hi lo' hi' c H1 H2) as W.
  split; [exact A|]. split; [exact B|]. split; [intros c Hc; exact (W _ (C c Hc))|]. split; [|split; [|split; [|eapply stored_wider; [exact W|exact G]]]]; (eapply Forall_impl; [|eassumption]); intros m Hm; apply W, Hm.
Qed.
Lemma calm_pop a k : calm_args a -> calm_args (snd (pop_arg a k)) /\ (forall v, fst (pop_arg a k) = Some v -> one_line v).
Proof.
  intros [H1 H2]. unfold pop_arg. cbn [fst snd]. split; [split; [exact H1|apply (all_ddel one_line), H2]|]. intros v Hv. exact (all_dget one_line _ _ _ H2 Hv).
Qed.
Lemma calm_names a names : calm_args a -> calm_args (args_set_names a names).
Proof.
  intros [Hu Hn]. unfold args_set_names, set_names. split; cbn [na_unnamed na_named]; [apply all_skipn, Hu|].
  apply (all_dupd one_line); [exact Hn|]. apply (all_dupd one_line); [constructor|].
  generalize (filter (fun n0 => negb (dmem n0 (na_named a))) names). clear names. intros names. revert Hu. generalize (na_unnamed a) as u. intros u Hu. revert u Hu. induction names as [|k names IH]; intros u Hu; [constructor|]. destruct Hu as [|t u Ht Hu]; [constructor|].
  cbn [combine]. constructor; [exact Ht|apply IH, Hu].
Qed.
Lemma calm_empty : calm_args empty_args.
Proof. split; constructor. Qed.

(* the lines of a block are in the page *)
Lemma text_lines_split s : s <> [] -> text_lines s = split_on NL s.
Proof. destruct s; [congruence|reflexivity]. Qed.
Lemma line_ctx_on src lo hi t k l : tok_on src lo hi t -> t_value t <> [] -> In (k, l) (enumerate_from 0 (split_on NL (t_value t))) -> within src lo hi (line_ctx (t_ctx t) k l).
Proof.
  intros (T1 & T2 & T3 & T4) Hv Hin. unfold last_line in T4. rewrite (text_lines_split _ Hv) in T4.
  assert (G : forall (ls : list str) n, In (k, l) (enumerate_from n ls) -> n <= k < n + length ls).
  { clear. induction ls as [|a ls IH]; intros n H; [destruct H|]. destruct H as [H|H]; [apply pair_equal_spec in H as [<- _]; cbn [length]; lia|]. apply IH in H. cbn [length]. lia. }
  apply G in Hin. unfold within, line_ctx. cbn [c_source c_start_line c_end_line]. split; [exact T1|]. unfold str in *. lia.
Qed.

Section Walk.
  Context (W : context -> Prop) (cf : config) (src : option str) (plo phi lo hi : nat) (Hlo : plo <= lo) (Hhi : hi <= phi) (c0 : option control) (old : list dnode).
  Context (HW : forall c, within src plo phi c -> W c).
  Notation Qc := (within src lo hi).
  Notation on := (tok_on src lo hi).
  (* the errors of an element itself *)
  Definition own (m : message) : Prop := placed src lo hi m \/ (exists c, c0 = Some c /\ m = no_variable c) \/ m = twice.
  (* the nodes that are new are in the lines of the element *)
  Definition news (x : dx) : Prop := exists l, dx_nodes x = old ++ l /\ Forall (fun n => Qc (dnode_ctx n)) l.
  Definition J (x : dx) : Prop := sound W src plo phi x /\ (forall c, dx_control x = Some c -> c0 = Some c) /\ news x.
  Lemma news_node x n : Qc (dnode_ctx n) -> news x -> news (set_nodes x (dx_nodes x ++ [n])).
  Proof. intros Hn (l & E & Hl). exists (l ++ [n]). cbn [set_nodes dx_nodes]. rewrite E, app_assoc. split; [reflexivity|]. apply Forall_app. auto. Qed.
  Definition wq {A} (Q : A -> list token * dx -> Prop) (m : D A) (s : list token * dx) : Prop :=
    match m s with (s', Ok a) => Q a s' | (_, Exc (ExMau m)) => own m | (_, Exc _) => True end.
  Lemma q_ret {A} (Q : A -> _ -> Prop) a s : Q a s -> wq Q (pret a) s.
  Proof. intros H. exact H. Qed.
  Lemma q_raise {A} (Q : A -> _ -> Prop) m s : own m -> wq Q (praise (ExMau m)) s.
  Proof. intros H. exact H. Qed.
  Lemma q_py {A} (Q : A -> _ -> Prop) c s : wq Q (praise (ExPy c)) s.
  Proof. exact I. Qed.
  Lemma q_lift {A} (Q : A -> _ -> Prop) r s : (forall m, r = Exc (ExMau m) -> own m) -> (forall a, r = Ok a -> Q a s) -> wq Q (plift r) s.
  Proof. intros H K. unfold wq, plift. destruct r as [a|[]]; auto. Qed.
  Lemma q_get (Q : dx -> _ -> Prop) s : Q (snd s) s -> wq Q pget s.
  Proof. intros H. exact H. Qed.
  Lemma q_mod (Q : unit -> _ -> Prop) g s : Q tt (fst s, g (snd s)) -> wq Q (pmod g) s.
  Proof. intros H. exact H. Qed.
  Lemma q_bind {A B} (Q : B -> _ -> Prop) (m : D A) (f : A -> D B) s : wq (fun a s' => wq Q (f a) s') m s -> wq Q (pbind m f) s.
  Proof. unfold wq, pbind. destruct (m s) as [s' [a|[]]]; auto. Qed.
  Lemma q_weak {A} (Q Q' : A -> _ -> Prop) m s : (forall a s', Q a s' -> Q' a s') -> wq Q m s -> wq Q' m s.
  Proof. intros H. unfold wq. destruct (m s) as [s' [a|[]]]; auto. Qed.

  Lemma on_within t : on t -> Qc (t_ctx t).
  Proof. unfold tok_on, within. intros (H1 & H2 & H3 & H4). repeat split; auto; lia. Qed.
  Lemma on_merge t u : on t -> on u -> Qc (merge_contexts (t_ctx t) (t_ctx u)).
  Proof. intros H1 H2. apply merge_l; [apply on_within, H1|apply within_near, on_within, H2]. Qed.
  Lemma page c : Qc c -> within src plo phi c.
  Proof. apply within_wider; assumption. Qed.
  Lemma kept c : Qc c -> W c.
  Proof. intros H. apply HW, page, H. Qed.
  Lemma kept_nodes l : nodes_in src lo hi l -> loose_in W l.
  Proof. intros H. eapply loose_impl; [|apply nodes_loose, H]. apply kept. Qed.
  Lemma q_pop_opt (Q : option node_args -> _ -> Prop) s : J (snd s) ->
    (forall a x, (forall b, a = Some b -> calm_args b) -> J x -> dx_env x = dx_env (snd s) -> Q a (fst s, x)) -> wq Q dp_pop_args_opt s.
  Proof.
    intros [Hs Hc] HQ. apply q_bind, q_get, q_bind, q_mod, q_ret. apply HQ; [apply Hs| |reflexivity]. destruct Hs as (A & B & C & D & E & F). split; [|exact Hc].
    split; [exact A|]. split; [discriminate|]. split; [exact C|]. auto.
  Qed.
  Lemma q_pop (Q : node_args -> _ -> Prop) s : J (snd s) -> (forall a x, calm_args a -> J x -> dx_env x = dx_env (snd s) -> Q a (fst s, x)) -> wq Q dp_pop_args s.
  Proof.
    intros H HQ. apply q_bind, q_pop_opt; [exact H|]. intros a x Ha Hx He. apply q_ret, HQ; [|exact Hx|exact He]. destruct a as [a|]; [apply Ha; reflexivity|apply calm_empty].
  Qed.
  Lemma q_labels (Q : labels -> _ -> Prop) s : J (snd s) -> (forall l x, labels_ok W l -> J x -> dx_env x = dx_env (snd s) -> Q l (fst s, x)) -> wq Q dp_pop_labels s.
  Proof.
    intros [Hs Hc] HQ. apply q_bind, q_get, q_bind, q_mod, q_ret. destruct Hs as (A & B & C & D & E & F & G). apply stored_no_labels in G as [G1 G2]. apply HQ; [exact G2| |reflexivity].
    split; [|exact Hc]. do 6 (split; [assumption|]). exact G1.
  Qed.
  Lemma q_fresh (Q : nat -> _ -> Prop) s : J (snd s) -> (forall n x, J x -> dx_env x = dx_env (snd s) -> Q n (fst s, x)) -> wq Q dp_fresh s.
  Proof. intros H HQ. apply q_bind, q_get, q_bind, q_mod, q_ret, HQ; [exact H|reflexivity]. Qed.
  Lemma q_admitted (Q : bool -> _ -> Prop) s : J (snd s) -> (forall b x, J x -> Q b (fst s, x)) -> wq Q dp_admitted s.
  Proof.
    intros [Hs Hc] HQ. apply q_bind, q_get, q_bind, q_mod.
    assert (J' : J (set_control (snd s) None)) by (split; [|split; [discriminate|apply Hc]]; destruct Hs as (A & B & C & D); split; [exact A|]; split; [exact B|]; split; [discriminate|exact D]).
    destruct (dx_control (snd s)) as [c|] eqn:Ec; [|apply q_ret, HQ, J']. apply q_lift; [|intros a _; apply HQ, J'].
    intros m. unfold run_control. destruct (dget (ct_variable c) _); [discriminate|]. intros E. right; left. exists c. split; [apply (proj1 Hc); first [exact Ec|reflexivity]|]. unfold no_variable, parser_error in *. congruence.
  Qed.
  Lemma J_nodes x n : Qc (dnode_ctx n) -> inner W n -> J x -> J (set_nodes x (dx_nodes x ++ [n])).
  Proof. intros Hn Hi [(A & B & C & D & E & F & G) [Hc Hw]]. split; [|split; [exact Hc|apply news_node; assumption]]. do 6 (split; [assumption|]). apply stored_nodes; [exact G|apply page, Hn|split; [apply kept, Hn|exact Hi]]. Qed.
  Lemma q_finish (Q : bool -> _ -> Prop) n s : Qc (dnode_ctx n) -> inner W n -> J (snd s) -> (forall x, J x -> Q true (fst s, x)) -> wq Q (dp_finish n) s.
  Proof.
    intros Hn Hi H HQ. apply q_bind, q_admitted; [exact H|]. intros [|] x Hx; [|apply q_ret, HQ, Hx]. apply q_bind, q_mod, q_ret. apply HQ. apply J_nodes; assumption.
  Qed.
  Lemma q_text (Q : list inode -> _ -> Prop) t s : on t -> J (snd s) -> dget [] (dx_env (snd s)) = None ->
    (forall nodes x, nodes_in src lo hi nodes -> J x -> dx_env x = dx_env (snd s) -> Q nodes (fst s, x)) -> wq Q (dp_text cf (t_value t) (origin_of t)) s.
  Proof.
    intros (T1 & T2 & T3 & T4) [Hs Hc] H0 HQ. apply q_bind, q_get, q_bind. assert (He : calm_env (dx_env (snd s))) by apply Hs.
    pose proof (preprocess_places (dx_env (snd s)) (t_value t) (origin_of t) He) as K. cbn [origin_of o_source o_line] in K. rewrite T1 in K.
    apply q_lift; [intros m E; rewrite E in K; left; eapply placed_wider; [| |exact K]; lia|]. intros p Ep. rewrite Ep in K. cbn [at_text] in K. apply q_bind.
    destruct (tp_run_places (cf_depth cf) (dx_env (snd s)) (t_value p) (origin_of t) (dx_next (snd s)) He H0 K) as [K2 _]. cbn [origin_of o_source o_line] in K2. rewrite T1 in K2. fold (origin_of t) in K2. rewrite <- T1 in K2 at 1. fold (origin_of t) in K2.
    match type of K2 with at_text ?a ?b ?c ?P ?r => assert (K3 : at_text src (c_start_line (t_ctx t)) (c_start_line (t_ctx t)) (text_state src (c_start_line (t_ctx t)) (c_start_line (t_ctx t))) (tp_run (cf_depth cf) (dx_env (snd s)) (t_value p) (origin_of t) (dx_next (snd s)))) end.
    { revert K2. unfold origin_of. rewrite T1. auto. }
    apply q_lift; [intros m E; rewrite E in K3; left; eapply placed_wider; [| |exact K3]; lia|]. intros y Ey. rewrite Ey in K3. destruct K3 as (N1 & N2 & N3).
    apply q_bind, q_mod, q_ret. apply HQ; [| |reflexivity].
    - assert (V : forall c, within src (c_start_line (t_ctx t)) (c_start_line (t_ctx t)) c -> Qc c) by (intros c; apply within_wider; lia).
      eapply Forall_impl; [|exact N1]. cbn beta. intros n [V1 V2]. split; [apply V, V1|exact (deep_impl _ _ V _ V2)].
    - destruct Hs as (A & B & C & D & E & F & G). split; [|exact Hc]. split; [exact A|]. split; [exact B|]. split; [exact C|].
      assert (V : forall c, within src (c_start_line (t_ctx t)) (c_start_line (t_ctx t)) c -> within src plo phi c) by (intros c; apply within_wider; lia).
      split; [|split; [|split; [exact F|]]]; cbn [set_shared set_links set_foot dx_foot dx_links fm_add_macros hm_add_macros fm_macros hm_macros].
      + apply Forall_app. split; [exact D|]. clear - N2 V. induction N2 as [|n l Hn _ IH]; [constructor|]. cbn [flat_map]. apply Forall_app. split; [|exact IH]. destruct n; try constructor; [apply V, Hn|constructor].
      + apply Forall_app. split; [exact E|]. clear - N3 V. induction N3 as [|n l Hn _ IH]; [constructor|]. cbn [flat_map]. apply Forall_app. split; [|exact IH]. destruct n; try constructor; [apply V, Hn|constructor].
      + destruct G as (G1 & G2 & G3 & G4 & G5 & G6). do 4 (split; [assumption|]). split; [|exact G6]. cbn [set_shared set_links dx_links hm_macros]. apply Forall_app. split; [exact G5|].
        assert (VW : forall c, within src (c_start_line (t_ctx t)) (c_start_line (t_ctx t)) c -> W c) by (intros c Hcc; apply HW, V, Hcc).
        clear - N3 VW. induction N3 as [|n l Hn _ IH]; [constructor|]. cbn [flat_map]. apply Forall_app. split; [|exact IH]. destruct n; try constructor; [|constructor]. cbn [snd]. eapply loose_impl; [exact VW|]. apply deep_list, Hn.
  Qed.
  Lemma q_first {A} (Q : A * A -> _ -> Prop) l s : (forall a r, l = a :: r -> Q (a, last l a) s) -> wq Q (first_last l) s.
  Proof. intros H. destruct l as [|a r]; [exact I|]. apply q_ret, (H a r eq_refl). Qed.
  Lemma nodes_merge a r : nodes_in src lo hi (a :: r) -> near src lo hi (merge_contexts (inode_ctx a) (inode_ctx (last (a :: r) a))) /\ near src lo hi (inode_ctx (last (a :: r) a)).
  Proof.
    intros H. inversion H as [|? ? Ha Hr]; subst. assert (K : near src lo hi (inode_ctx (last (a :: r) a))).
    { apply within_near. apply (last_in (fun n => Qc (inode_ctx n) /\ deep Qc n)); assumption. }
    split; [|exact K]. apply merge_near; [apply within_near, Ha|exact K].
  Qed.

  (* the elements; [done] is the state afterwards *)
  Definition done {A} (a : A) (s : list token * dx) : Prop := sound W src plo phi (snd s) /\ news (snd s).
  Lemma J_sound {A} (a : A) rem x : J x -> done a (rem, x).
  Proof. intros [H [_ K]]. exact (conj H K). Qed.
  Lemma finish_done n s : Qc (dnode_ctx n) -> inner W n -> J (snd s) -> wq done (dp_finish n) s.
  Proof. intros Hn Hi H. apply q_finish; [exact Hn|exact Hi|exact H|]. intros x Hx. apply J_sound, Hx. Qed.

  Lemma rule_places t s : on t -> J (snd s) -> wq done (dp_do_rule t) s.
  Proof. intros Ht H. apply q_bind, q_pop; [exact H|]. intros a x _ Hx _. apply q_bind, q_labels; [exact Hx|]. intros l y Hl Hy _. apply finish_done; [apply on_within, Ht|exact Hl|exact Hy]. Qed.
  Lemma variable_places o n c v s : Forall on (o :: n :: c :: opt_list v) -> J (snd s) -> wq done (dp_do_variable o n c v) s.
  Proof.
    intros Ht [Hs Hc]. inversion Ht as [|? ? To Ht1]; subst. inversion Ht1 as [|? ? Tn Ht2]; subst. inversion Ht2 as [|? ? Tc Tv]; subst. clear Ht Ht1 Ht2.
    assert (He : calm_env (dx_env (snd s))) by apply Hs. unfold dp_do_variable. cbv zeta.
    assert (K : exists value ctx, match v with Some v => (t_value v, merge_contexts (merge_contexts (t_ctx o) (t_ctx c)) (t_ctx v)) | None => ([], merge_contexts (t_ctx o) (t_ctx c)) end = (value, ctx) /\ Qc ctx /\ (value <> [] -> last_line value (c_start_line ctx) <= hi)).
    { destruct v as [v|]; do 2 eexists; (split; [reflexivity|]).
      - inversion Tv as [|? ? V _]; subst. split; [apply merge_l; [apply on_merge; assumption|apply within_near, on_within, V]|]. intros _. unfold merge_contexts. cbn [c_start_line]. destruct V as (_ & _ & _ & V). unfold last_line in *. lia.
      - split; [apply on_merge; assumption|]. intros E. destruct (E eq_refl). }
    destruct K as (value & ctx & -> & Hctx & Hv). apply q_bind, q_get, q_bind. apply (q_weak (fun nv s' => s' = s /\ one_line (snd nv))).
    - intros [n' v'] s' [-> Hl]. cbn [fst snd] in *. destruct v' as [|ch v']; [apply q_raise; left; exact Hctx|]. apply q_bind, q_mod, q_ret. unfold done. cbn [snd].
      split; [|apply Hc]. destruct Hs as (A & B & C & D). split; [|split; [exact B|split; [exact C|exact D]]]. cbn [set_env dx_env]. apply calm_set; [exact A|exact Hl].
    - destruct (startswith (lit "+") _); [apply q_ret; split; [reflexivity|apply lit_line; reflexivity]|]. destruct (startswith (lit "-") _); [apply q_ret; split; [reflexivity|apply lit_line; reflexivity]|].
      destruct value as [|ch value]; [apply q_ret; split; [reflexivity|intros []]|]. specialize (Hv ltac:(discriminate)).
      apply q_bind. pose proof (preprocess_places (dx_env (snd s)) (ch :: value) (mkOrigin (c_start_line ctx) (c_start_column ctx) (c_source ctx)) He) as K. cbn [o_source o_line] in K. destruct Hctx as (X1 & X2 & X3). rewrite X1 in K.
      rewrite X1. apply q_lift; [intros m E; rewrite E in K; left; eapply placed_wider; [| |exact K]; lia|]. intros p Ep. rewrite Ep in K. apply q_ret. split; [reflexivity|exact K].
  Qed.
  Lemma label_places p t s : on t -> J (snd s) -> dget [] (dx_env (snd s)) = None -> wq done (dp_do_label cf p t) s.
  Proof.
    intros Ht Hs H0. unfold dp_do_label. cbv zeta. apply q_bind, q_text; [exact Ht|exact Hs|exact H0|]. intros nodes x Hn Hx _. apply q_bind, q_mod, q_ret. destruct Hx as [(A & B & C & D & E & F & G) [_ Hw]].
    unfold done. cbn [snd]. split; [|exact Hw]. do 6 (split; [assumption|]). apply stored_label; [exact G|apply kept_nodes, Hn].
  Qed.
  Lemma control_places o op c s : on o -> on c -> J (snd s) -> wq done (dp_do_control o op c) s.
  Proof.
    intros To Tc [Hs Hc]. assert (He : calm_env (dx_env (snd s))) by apply Hs. apply q_bind, q_get, q_bind. unfold make_control. pose proof (process_condition_places (dx_env (snd s)) c He) as K.
    pose proof (on_merge _ _ To Tc) as Hctx. destruct Tc as (T1 & T2 & T3 & T4). rewrite T1 in K. apply q_lift.
    - intros m. destruct (process_condition _ _) as [[n|]|ex]; cbn [rbind]; try discriminate.
      + unfold new_control. destruct (str_eqb _ _); [destruct (str_eqb _ _); [discriminate|]; destruct (str_eqb _ _); discriminate|]. intros E. left. assert (m = MsgParser "Control operator is not supported." (Some (merge_contexts (t_ctx o) (t_ctx c)))) as -> by (unfold parser_error in E; congruence). exact Hctx.
      + intros E. assert (ex = ExMau m) as -> by congruence. left. cbn [at_text] in K. eapply placed_wider; [| |exact K]; lia.
    - intros ct E. apply q_bind, q_mod, q_ret. unfold done. cbn [snd]. split; [|apply Hc]. destruct Hs as (A & B & C & D). split; [exact A|]. split; [exact B|]. split; [|exact D]. cbn [set_control dx_control]. intros c' [= <-].
      destruct (process_condition _ _) as [[n|]|ex]; cbn [rbind] in E; try discriminate E. unfold new_control in E. destruct (str_eqb _ _) in E; [|discriminate E].
      assert (ct_ctx ct = merge_contexts (t_ctx o) (t_ctx c)) as ->. { destruct (str_eqb _ _) in E; [apply Ok_inv in E; subst ct; reflexivity|]. destruct (str_eqb _ _) in E; [apply Ok_inv in E; subst ct; reflexivity|discriminate E]. }
      apply page, Hctx.
  Qed.
  Lemma with_vars (Q : node_args -> _ -> Prop) t s : on t -> J (snd s) -> (forall a, calm_args a -> Q a s) -> wq Q (dp_inline_args t) s.
  Proof.
    intros (T1 & T2 & T3 & T4) [Hs Hc] HQ. assert (He : calm_env (dx_env (snd s))) by apply Hs. apply q_bind, q_get, q_bind. pose proof (with_variables_places (dx_env (snd s)) t He) as K. rewrite T1 in K.
    apply q_lift; [intros m E; rewrite E in K; left; eapply placed_wider; [| |exact K]; lia|]. intros p Ep. rewrite Ep in K. apply q_ret, HQ, K.
  Qed.
  Lemma arguments_places t s : on t -> J (snd s) -> wq done (dp_do_arguments t) s.
  Proof.
    intros (T1 & T2 & T3 & T4) [Hs Hc]. assert (He : calm_env (dx_env (snd s))) by apply Hs. apply q_bind, q_get, q_bind. pose proof (with_variables_places (dx_env (snd s)) t He) as K. rewrite T1 in K.
    apply q_lift; [intros m E; rewrite E in K; left; eapply placed_wider; [| |exact K]; lia|]. intros p Ep. rewrite Ep in K. apply q_bind, q_mod, q_ret.
    unfold done. cbn [snd]. split; [|apply Hc]. destruct Hs as (A & B & C). split; [exact A|]. split; [|exact C]. cbn [set_args dx_args]. intros a [= <-]. exact K.
  Qed.
  Lemma header_places h t s : on h -> on t -> J (snd s) -> dget [] (dx_env (snd s)) = None -> wq done (dp_do_header cf h t) s.
  Proof.
    intros Th Tt Hs H0. unfold dp_do_header. apply q_bind, q_fresh; [exact Hs|]. intros id x Hx Ex. apply q_bind, q_text; [exact Tt|exact Hx|cbn [snd]; rewrite Ex; exact H0|]. intros nodes y Hn Hy _. cbn [fst].
    apply q_bind, q_pop; [exact Hy|]. intros a z Ha Hz _. destruct (pop_arg a _) as [internal a1]. destruct (pop_arg a1 _) as [name a2]. apply q_bind, q_first. intros n0 r ->. cbv zeta.
    destruct (nodes_merge _ _ Hn) as [Hm Hl]. assert (Hctx : Qc (merge_contexts (t_ctx h) (merge_contexts (inode_ctx n0) (inode_ctx (last (n0 :: r) n0))))) by (apply merge_l; [apply on_within, Th|exact Hm]).
    apply q_bind, q_labels; [exact Hz|]. intros l w Hlw Hw _. apply q_bind, q_admitted; [exact Hw|]. intros [|] v Hv; [|apply q_ret; apply (J_sound _ _ _ Hv)].
    match goal with |- context [DHeader ?h0] => set (hh := h0) end. assert (Hh : header_ok W hh) by (split; [apply kept, Hctx|split; [apply kept_nodes, Hn|exact Hlw]]). apply q_bind. apply (q_weak done).
    - intros u [rem' v'] Hv'. apply q_bind, q_mod, q_bind, q_mod, q_ret. unfold done in *. cbn [snd] in *. destruct Hv' as [(A & B & C & D & F & G & K) Hw']. split; [|apply (news_node (set_toc v' (tm_add_header (dx_toc v') hh))); [exact Hctx|exact Hw']]. do 6 (split; [assumption|]).
      apply (stored_nodes W _ (set_toc v' (tm_add_header (dx_toc v') hh))); [apply stored_header; assumption|apply page, Hctx|]. split; [apply Hh|exact Hh].
    - destruct name as [[|ch nm]|]; try (apply q_ret; apply (J_sound _ _ _ Hv)). apply q_bind, q_get, q_bind, q_lift.
      + intros m. unfold hm_add_header. destruct (dmem _ _); [|discriminate]. intros E. left.
        match type of E with Exc (parser_error ?msg ?c) = _ => assert (m = MsgParser msg c) as -> by (unfold parser_error in E; congruence) end. exact Hctx.
      + intros m E. apply q_mod. unfold done. cbn [snd]. destruct Hv as [(A & B & C & D & F & G & K) [_ Hw']]. split; [|exact Hw']. split; [exact A|]. split; [exact B|]. split; [exact C|]. split; [exact D|]. split; [|split; [exact G|eapply stored_name; eassumption]]. cbn [set_links dx_links].
        unfold hm_add_header in E. destruct (dmem _ _) in E; [discriminate E|]. apply Ok_inv in E. subst m. exact F.
  Qed.
  Lemma item_places h t s : on h -> on t -> J (snd s) -> dget [] (dx_env (snd s)) = None ->
    wq (fun n s' => J (snd s') /\ dx_env (snd s') = dx_env (snd s) /\ Qc (dnode_ctx n) /\ inner W n) (dp_do_item cf h t) s.
  Proof.
    intros Th Ht Hs H0. apply q_bind, q_text; [exact Ht|exact Hs|exact H0|]. intros nodes x Hn Hx Ex. apply q_bind, q_first. intros a r ->. apply q_ret. split; [exact Hx|]. split; [exact Ex|].
    split; [apply merge_l; [apply on_within, Th|apply (nodes_merge _ _ Hn)]|apply kept_nodes, Hn].
  Qed.
  Lemma list_places h i r s : Forall (fun n => Qc (dnode_ctx n) /\ inner W n) (i :: r) -> J (snd s) -> wq done (dp_do_list h i r) s.
  Proof.
    intros Hi Hs. unfold dp_do_list. cbv zeta. apply q_bind, q_pop; [exact Hs|]. intros a x _ Hx _. apply q_bind, q_get, q_bind. apply (q_weak (fun _ s' => J (snd s'))).
    - intros z s' Hs'. apply q_bind, q_labels; [exact Hs'|]. intros l y Hl Hy _. apply finish_done; [| |exact Hy].
      + cbn [dnode_ctx at_ctx]. inversion Hi as [|? ? Hi1 Hi2]; subst. apply merge_l; [apply Hi1|]. apply within_near. exact (proj1 (last_in (fun n => Qc (dnode_ctx n) /\ inner W n) i r Hi1 Hi2)).
      + split; [|exact Hl]. apply (proj1 (inner_list W (i :: r))). eapply Forall_impl; [|exact Hi]. cbn beta. intros n [H1 H2]. split; [apply kept, H1|exact H2].
    - destruct (dget _ _) as [v|]; [|apply q_bind, q_mod, q_ret; exact Hx]. destruct (str_eqb _ _); [apply q_bind, q_mod, q_ret; exact Hx|].
      apply q_bind, q_lift; [|intros z _; apply q_bind, q_mod, q_ret; exact Hx]. intros m. unfold py_int. match goal with |- context [match ?o with Some z => Ok z | None => _ end] => destruct o end; discriminate.
  Qed.
  Lemma lines_places ls : forall s, Forall on ls -> J (snd s) -> dget [] (dx_env (snd s)) = None -> wq (fun l s' => J (snd s') /\ Forall (fun n => Qc (snd n) /\ loose_in W (fst n)) l) (dp_line_nodes cf ls) s.
  Proof.
    induction ls as [|t ls IH]; intros s Ht Hs H0; [apply q_ret; split; [exact Hs|constructor]|]. inversion Ht as [|? ? Tt Tl]; subst. cbn [dp_line_nodes]. apply q_bind, q_text; [assumption|exact Hs|exact H0|]. intros nodes x Hn Hx Ex.
    apply q_bind. eapply q_weak; [|apply IH; [assumption|exact Hx|cbn [snd]; rewrite Ex; exact H0]]. intros l s' [Hs' Hl]. apply q_ret. split; [exact Hs'|]. constructor; [|exact Hl]. split; [apply on_within, Tt|apply kept_nodes, Hn].
  Qed.
  Lemma paragraph_places ls s : Forall on ls -> J (snd s) -> dget [] (dx_env (snd s)) = None -> wq done (dp_do_paragraph cf ls) s.
  Proof.
    intros Ht Hs H0. apply q_bind. eapply q_weak; [|apply lines_places; eassumption]. intros l s' [Hs' Hl]. apply q_bind, q_pop; [exact Hs'|]. intros a x _ Hx _. apply q_bind, q_first. intros f r ->. cbv zeta.
    apply q_bind, q_labels; [exact Hx|]. intros lb y Hlb Hy _. apply finish_done; [| |exact Hy].
    - cbn [dnode_ctx at_ctx fst snd]. inversion Hl as [|? ? Hi1 Hi2]; subst. apply merge_l; [apply Hi1|]. apply within_near. exact (proj1 (last_in (fun n => Qc (snd n) /\ loose_in W (fst n)) f r Hi1 Hi2)).
    - split; [|exact Hlb]. eapply Forall_impl; [|exact Hl]. cbn beta. intros n [H1 H2]. split; [apply kept, H1|exact H2].
  Qed.

  (* a parser inside that fails with a MauException is for later *)
  Context (run : run_fn) (Hrun : forall e n d f t o m, run e n d f t o <> Exc (ExMau m)).
  Lemma source_quiet e t a m : source_block e t a <> Exc (ExMau m).
  Proof.
    unfold source_block. destruct (pop_arg a _) as [delim a1]. destruct (pop_arg a1 _) as [prefix a2]. destruct (pop_arg a2 _) as [def a3].
    assert (S1 : style_aliases e <> Exc (ExMau m)). { unfold style_aliases. destruct (env_get e _) as [v|b|]; try discriminate. apply asdict_quiet. }
    destruct (style_aliases e) as [al|ex]; cbn [rbind]; [|congruence]. destruct (pop_arg (args_set_names a3 _) _) as [lg a4].
    match goal with |- context [for_each ?f ?l] => assert (S2 : for_each f l <> Exc (ExMau m)) end.
    { generalize (enumerate_from 0 (split_on NL (t_value t))). intros l. induction l as [|[k v] l IH]; [discriminate|]. cbn [for_each].
      assert (S3 : forall w, source_line_of w (or_else prefix (lit "@")) (or_else def (lit "default")) al (t_ctx t) k v <> Exc (ExMau m)).
      { intros w. unfold source_line_of. cbv zeta. destruct (negb _); [discriminate|]. unfold py_split. destruct w; cbn [rbind]; [discriminate|]. destruct (_ <? _); [discriminate|]. destruct (startswith _ _); [discriminate|]. destruct (last _ _); discriminate. }
      cbn [fst snd]. specialize (S3 (or_else delim (lit ":"))). destruct (source_line_of _ _ _ _ _ _ _); cbn [rbind]; [|congruence]. destruct (for_each _ l); cbn [rbind]; congruence. }
    destruct (for_each _ _); cbn [rbind]; congruence.
  Qed.
  Lemma source_lines_ok e t a lg lines a' : on t -> t_value t <> [] -> source_block e t a = Ok (lg, lines, a') -> Forall (source_ok W) lines.
  Proof.
    intros Ht Hv E. unfold source_block in E. destruct (pop_arg a _) as [delim a1]. destruct (pop_arg a1 _) as [prefix a2]. destruct (pop_arg a2 _) as [def a3]. destruct (style_aliases e) as [al|]; cbn [rbind] in E; [|discriminate E].
    destruct (pop_arg (args_set_names a3 _) _) as [lg0 a4]. destruct (for_each _ _) as [ls|] eqn:Ef; cbn [rbind] in E; [|discriminate E]. apply Ok_inv, pair_equal_spec in E as [E _]. apply pair_equal_spec in E as [_ <-].
    revert Ef. apply each_ok. intros [k l] b Hin Eb. cbn [fst snd] in Eb. pose proof (kept _ (line_ctx_on src lo hi t k l Ht Hv Hin)) as HL. pose proof (line_ctx_on src lo hi t k l Ht Hv Hin) as HQ. unfold source_line_of in Eb. cbv zeta in Eb.
    destruct (negb _); [apply Ok_inv in Eb; subst b; split; [exact HL|exact I]|]. destruct (py_split _ _) as [sp|]; cbn [rbind] in Eb; [|discriminate Eb].
    destruct (_ <? _); [apply Ok_inv in Eb; subst b; split; [exact HL|exact I]|]. destruct (startswith _ _); [apply Ok_inv in Eb; subst b; split; [exact HL|exact I]|].
    destruct (last sp []); apply Ok_inv in Eb; subst b; (split; [|try exact I]); [exact HL| |]; cbn [sl_ctx sl_marker snd]; apply kept; destruct HQ as (Q1 & Q2 & Q3); split; [exact Q1|split; [exact Q2|exact Q3]|exact Q1|split; [exact Q2|exact Q3]].
  Qed.
  Lemma raw_lines_ok t : on t -> t_value t <> [] -> raws_ok W (raw_lines t).
  Proof.
    intros Ht Hv. apply Forall_forall. intros l Hl. unfold raw_lines in Hl. apply in_map_iff in Hl as ([k v] & <- & Hin). cbn [fst snd]. apply kept. eapply line_ctx_on; eassumption.
  Qed.
  Lemma truthy t : token_truthy t = true -> t_value t <> [].
  Proof. unfold token_truthy. destruct (t_value t); [discriminate|discriminate]. Qed.
  Lemma block_places o content c s : (forall e n d f t o y, run e n d f t o = Ok y -> sound W src plo phi y) -> Forall on (o :: opt_list content ++ [c]) -> J (snd s) -> wq done (dp_do_block run o content c) s.
  Proof.
    intros Hy Ht Hs. inversion Ht as [|? ? To Ht1]; subst. apply Forall_app in Ht1 as [Tt Tc]. inversion Tc as [|? ? Tc' _]; subst. clear Ht Tc.
    pose proof (on_merge _ _ To Tc') as Hctx. unfold dp_do_block. cbv zeta. apply q_bind, q_pop; [exact Hs|]. intros a x Ha Hx _. destruct (pop_arg a _) as [classes a1]. destruct (pop_arg a1 _) as [engine a2].
    apply q_bind. apply (q_weak (fun r s' => J (snd s') /\ (snd r = empty_context \/ Qc (snd r)) /\ forall b, labels_ok W (at_labels b) -> inner W (fst (fst r) b) /\ dnode_ctx (fst (fst r) b) = at_ctx b)).
    - intros [[node a3] nctx] s' (Hs' & Hn & Hi). cbn [fst snd] in Hn, Hi. apply q_bind, q_labels; [exact Hs'|]. intros l y Hl Hy' _. destruct (nonempty (dget (lit "footnote") _)) as [name|].
      + apply q_bind, q_get, q_bind, q_lift.
        * intros m. unfold fm_add_body. destruct (dmem _ _); [|discriminate]. intros E. assert (m = MsgParser "Footnote has been already defined." (Some nctx)) as -> by (unfold parser_error in E; congruence). destruct Hn as [->|Hn]; [right; right; reflexivity|left; exact Hn].
        * intros m E. apply q_bind, q_mod, q_ret. unfold done. cbn [snd]. destruct Hy' as [(A & B & C & D & F & G & K) [_ Hw]]. split; [|exact Hw]. split; [exact A|]. split; [exact B|]. split; [exact C|]. assert (K' : stored W (within src plo phi) (set_foot y m)). { eapply stored_body; [exact K| |exact E]. destruct (Hi (mkAttrs empty_args l nctx) Hl) as [I1 I2]. split; [|exact I1]. rewrite I2. destruct Hn as [Hn|Hn]; [right; exact Hn|left; apply kept, Hn]. }
          split; [|split; [exact F|split; [exact G|exact K']]].
          unfold fm_add_body in E. destruct (dmem _ _) in E; [discriminate E|]. apply Ok_inv in E. subst m. exact D.
      + assert (Hok : node_ok W (node (mkAttrs a3 l (merge_contexts (t_ctx o) (t_ctx c)))) /\ Qc (dnode_ctx (node (mkAttrs a3 l (merge_contexts (t_ctx o) (t_ctx c)))))) by (destruct (Hi (mkAttrs a3 l (merge_contexts (t_ctx o) (t_ctx c))) Hl) as [I1 I2]; split; [split; [rewrite I2; apply kept, Hctx|exact I1]|rewrite I2; exact Hctx]).
        destruct (nonempty _) as [group|]; [|apply finish_done; [apply Hok|apply Hok|exact Hy']]. destruct (nonempty _) as [position|]; [|apply finish_done; [apply Hok|apply Hok|exact Hy']]. apply q_bind, q_get, q_bind, q_lift.
        * intros m. unfold gm_add_block. destruct (dmem _ _); [|discriminate]. intros E. left. match type of E with Exc (parser_error ?msg ?c) = _ => assert (m = MsgParser msg c) as -> by (unfold parser_error in E; congruence) end. exact Hctx.
        * intros m E. apply q_bind, q_mod, q_ret. unfold done. cbn [snd]. destruct Hy' as [(A & B & C & D & F & G & K) [_ Hw]]. split; [|exact Hw]. split; [exact A|]. split; [exact B|]. split; [exact C|]. split; [exact D|]. split; [exact F|]. split; [|eapply stored_block; [exact K|apply Hok|exact E]].
          unfold gm_add_block in E. destruct (dmem _ _) in E; [discriminate E|]. apply Ok_inv in E. subst m. exact G.
    - unfold dp_engine. destruct (str_eqb _ _).
      + apply q_bind. apply (q_weak (fun nodes s' => J (snd s') /\ Forall (node_ok W) nodes)).
        { intros nodes s' [Hs' Hn]. apply q_ret. cbn [fst snd]. split; [exact Hs'|]. split; [left; reflexivity|]. intros b Hb. split; [|reflexivity]. split; [apply inner_list, Hn|exact Hb]. }
        unfold dp_default_engine. destruct content as [t|]; [|apply q_ret; split; [exact Hx|constructor]].
        destruct (token_truthy t); [|apply q_ret; split; [exact Hx|constructor]]. apply q_bind, q_get, q_bind, q_lift; [intros m E; destruct (Hrun _ _ _ _ _ _ _ E)|]. intros y Ey. apply Hy in Ey. cbn [snd fst]. apply q_bind, q_mod. cbn [snd fst].
        destruct Hx as [(A & B & C & D & F & G & K) Hcx]. destruct Ey as (A' & B' & C' & D' & F' & G' & K'). destruct K as (K1 & K2 & K3 & K4 & K5 & K6 & K7 & K8). destruct K' as (L1 & L2 & L3 & L4 & L5 & L6 & L7 & L8).
        assert (J' : J (set_shared (set_env x (dx_env y)) (dx_next y) (dx_done y))) by (split; [|exact Hcx]; split; [exact A'|]; do 5 (split; [assumption|]); do 7 (split; [assumption|]); exact L8).
        apply q_bind. apply (q_weak (fun _ s' => J (snd s'))); [intros u s' Hs'; apply q_ret; split; [exact Hs'|eapply Forall_impl; [|exact L1]; cbn beta; intros n0 Hn0; apply Hn0]|]. destruct (str_eqb _ _); [|apply q_ret, J']. apply q_mod. cbn [snd].
        split; [|exact Hcx]. split; [exact A'|]. split; [exact B|]. split; [exact C|]. split; [cbn; apply Forall_app; auto|]. do 2 (split; [assumption|]). do 2 (split; [assumption|]).
        split; [cbn; apply (all_dupd (body_ok W)); assumption|]. split; [cbn; apply Forall_app; auto|]. do 3 (split; [assumption|]). exact L8.
      + destruct (str_eqb _ _).
        { apply q_ret. cbn [fst snd]. split; [exact Hx|]. split; [left; reflexivity|]. intros b Hb. split; [|reflexivity]. split; [|exact Hb]. destruct content as [t|]; [|constructor]. destruct (token_truthy t) eqn:Et; [|constructor].
          apply raw_lines_ok; [inversion Tt; assumption|apply truthy, Et]. }
        assert (E0 : forall cl, wq (fun r s' => J (snd s') /\ (snd r = empty_context \/ Qc (snd r)) /\ forall b, labels_ok W (at_labels b) -> inner W (fst (fst r) b) /\ dnode_ctx (fst (fst r) b) = at_ctx b) (pret (DSource cl None [], a2, empty_context)) (fst s, x)).
        { intros cl. apply q_ret. cbn [fst snd]. split; [exact Hx|]. split; [left; reflexivity|]. intros b Hb. split; [|reflexivity]. split; [constructor|exact Hb]. }
        destruct (str_eqb _ _); [|apply q_raise; left; exact Hctx].
        destruct content as [t|]; [|apply E0]. destruct (token_truthy t) eqn:Et; [|apply E0]. apply q_bind, q_get, q_bind, q_lift; [intros m E; destruct (source_quiet _ _ _ _ E)|].
        intros [[lg lines] a3] Es. apply q_ret. cbn [fst snd]. split; [exact Hx|]. assert (Ton : on t) by (inversion Tt; assumption). split; [right; apply on_within, Ton|]. intros b Hb. split; [|reflexivity]. split; [|exact Hb].
        eapply source_lines_ok; [exact Ton|apply truthy, Et|exact Es].
  Qed.
  Lemma include_places ty ctx a s : (forall e n d f t o y, run e n d f t o = Ok y -> exists T, stored W T y /\ forall c c', T c -> T c' -> W (merge_contexts c c')) -> Qc ctx -> J (snd s) -> wq done (dp_do_include cf run ty ctx a) s.
  Proof.
    intros Hrn Hctx Hs. unfold dp_do_include. apply q_bind. apply (q_weak (fun r s' => J (snd s') /\ forall b, labels_ok W (at_labels b) -> inner W (fst r b) /\ dnode_ctx (fst r b) = at_ctx b)).
    { intros r s' [Hs' Hr]. apply q_bind, q_labels; [exact Hs'|]. intros l x Hl Hx _. destruct (Hr (mkAttrs (snd r) l ctx) Hl) as [I1 I2]. apply finish_done; [rewrite I2; exact Hctx|exact I1|exact Hx]. }
    assert (Simple : forall (f : attrs -> dnode) (a0 : node_args) s0, J (snd s0) -> (forall b, labels_ok W (at_labels b) -> inner W (f b) /\ dnode_ctx (f b) = at_ctx b) ->
      wq (fun (r : (attrs -> dnode) * node_args) s' => J (snd s') /\ forall b, labels_ok W (at_labels b) -> inner W (fst r b) /\ dnode_ctx (fst r b) = at_ctx b) (pret (f, a0)) s0) by (intros f a0 s0 J0 Hf; apply q_ret; split; [exact J0|exact Hf]).
    assert (U : forall u s, J (snd s) -> wq (fun _ s' => s' = s) (need_uri u ctx) s).
    { intros u s0 Hs0. unfold need_uri. destruct (nonempty u); [apply q_ret; reflexivity|apply q_raise; left; exact Hctx]. }
    destruct (str_eqb _ _).
    { unfold dp_image. destruct (pop_arg _ _) as [uri a1]. apply q_bind. eapply q_weak; [|apply U, Hs]. intros u s' ->. destruct (pop_arg _ _) as [alt a2]. destruct (pop_arg _ _) as [cl a3]. apply Simple; [exact Hs|]. intros b Hb. split; [exact Hb|reflexivity]. }
    destruct (str_eqb ty (lit "mau")).
    { unfold dp_mau. destruct (pop_arg _ _) as [uri a1]. destruct (pop_arg _ _) as [pass a2]. apply q_bind. eapply q_weak; [|apply U, Hs]. intros u s' ->.
      apply q_bind, q_mod, q_bind, q_get. cbn [snd fst]. destruct (source_in _ _); [apply q_raise; left; exact Hctx|]. cbv zeta. apply q_bind, q_mod, q_bind. cbn [snd fst].
      unfold dp_read. destruct (cf_files cf u) as [text| |cls]; [|apply q_raise; left; exact Hctx|apply q_py].
      apply q_ret, q_bind, q_get. cbn [snd fst]. apply q_bind. apply (q_weak (fun _ s' => J (snd s'))).
      - intros e s' Hs'. apply q_bind, q_lift; [intros m E; destruct (Hrun _ _ _ _ _ _ _ E)|]. intros y Ey. apply Hrn in Ey as (T & (L1 & L2 & L3 & L4 & L5 & L6 & L7 & L8) & LT). apply q_bind, q_mod. apply Simple.
        + destruct Hs' as [(A & B & C & D & F & G & K) Hcx]. split; [|exact Hcx]. do 6 (split; [assumption|]). destruct K as (K1 & K2 & K3 & K4 & K5 & K6 & K7 & K8). do 7 (split; [assumption|]). exact L8.
        + intros b Hb. split; [|reflexivity]. split; [|exact Hb]. split; [apply inner_list; eapply Forall_impl; [|exact L1]; cbn beta; intros n0 Hn0; apply Hn0|].
          intros f0 r0 El. rewrite El in L1. inversion L1 as [|? ? M1 M2]; subst. rewrite El. apply LT; [apply M1|]. exact (proj1 (last_in (fun n1 => T (dnode_ctx n1) /\ node_ok W n1) f0 r0 M1 M2)).
      - destruct (str_eqb _ _); [|apply q_ret; exact Hs]. apply q_lift; [|intros; exact Hs]. intros m. unfold env_from_environment. match goal with |- context [env_asdict ?w] => pose proof (asdict_quiet w m) as K; destruct (env_asdict w) end; cbn [rbind]; [discriminate|congruence]. }
    destruct (str_eqb _ _).
    { unfold dp_include_raw. destruct (pop_arg _ _) as [uri a1]. apply q_bind. eapply q_weak; [|apply U, Hs]. intros u s' ->. apply q_bind.
      unfold dp_read. destruct (cf_files cf u) as [text| |cls]; [|apply q_raise; left; exact Hctx|apply q_py]. apply q_ret. apply Simple; [exact Hs|]. intros b Hb. split; [|reflexivity]. split; [|exact Hb]. apply Forall_forall. intros l Hl. apply in_map_iff in Hl as (v & <- & _). apply kept, Hctx. }
    destruct (str_eqb _ _). { apply q_bind, q_bind, q_fresh; [exact Hs|]. intros n x Hx _. apply q_bind, q_mod, q_ret. apply Simple; [exact Hx|]. intros b Hb. split; [exact Hb|reflexivity]. }
    destruct (str_eqb _ _). { apply q_bind, q_bind, q_fresh; [exact Hs|]. intros n x Hx _. apply q_bind, q_mod, q_ret. apply Simple; [exact Hx|]. intros b Hb. split; [exact Hb|reflexivity]. }
    destruct (str_eqb _ _); [|apply Simple; [exact Hs|intros b Hb; split; [exact Hb|reflexivity]]]. unfold dp_blockgroup. destruct (pop_arg _ _) as [g a1]. destruct g as [g|]; [|apply q_py].
    apply q_bind, q_fresh; [exact Hs|]. intros n x [(A & B & C & D & F & G & K) Hx] _. apply q_bind, q_mod. apply Simple; [|intros b Hb; split; [exact Hb|reflexivity]]. cbn [snd]. split; [|exact Hx]. split; [exact A|]. split; [exact B|]. split; [exact C|]. split; [exact D|]. split; [exact F|].
    split; [|exact K]. cbn. apply Forall_app. split; [exact G|]. constructor; [apply page, Hctx|constructor].
  Qed.
End Walk.
