(* DocLexerProps.v -- one step of the document lexer, its errors, and locality:
   a step depends only on the lines from the current one on *)
From Verif Require Export DocLexerFacts.

Definition is_exc {A} (r : res A) : bool := match r with Exc _ => true | _ => false end.

Lemma line_rule_no_exc re sc k tb e : line_rule re sc k tb <> Exc e.
Proof. unfold line_rule. destruct (rmatch _ _); discriminate. Qed.

Lemma Ok_pair_inj {A B} (a c : A) (b d : B) : Ok (a, b) = Ok (c, d) -> a = c /\ b = d.
Proof. intros H; injection H; auto. Qed.

(* ---- errors ---- *)
Lemma multiline_eq tb : bol tb -> tb_eof tb = false ->
  dl_multiline_comment tb =
  if str_eqb (current_line tb) four_slashes then
    match find_line four_slashes (rest (nextline tb)) with
    | Some m => Ok (Some ([], nextline (move (nextline tb) m)))
    | None => Exc (lexer_error "Unclosed multiline comment." tb (tb_position tb))
    end
  else Ok None.
Proof.
  intros Hb He. unfold dl_multiline_comment. destruct (str_eqb (current_line tb) four_slashes); [|reflexivity].
  cbn [negb]. destruct (not_eof_rest _ Hb He) as (r & H1 & H2 & H3).
  rewrite skip_to_slashes_spec; [|apply bol_nextline; exact H2|
    pose proof (rest_length (nextline tb)) as Hrl; change (tb_lines (nextline tb)) with (tb_lines tb) in Hrl; lia].
  destruct (find_line _ _); reflexivity.
Qed.

Definition block_tokens (tb : tbuf) (content : list str) (tb3 : tbuf) : list token :=
  let d := current_line tb in
  let ip := tb_position (nextline tb) in
  fst (create_token tb T_BLOCK d) ::
  (match content with
   | [] => []
   | _ => [mkToken T_TEXT (join [NL] content)
            (mkContext (fst ip) (snd ip) (fst ip + length content - 1)
                       (snd ip + length (last content [])) (tb_source tb))]
   end) ++ [fst (create_token tb3 T_BLOCK d)].

Lemma block_eq tb : bol tb -> tb_eof tb = false ->
  dl_block tb =
  if is_fence (current_line tb) then
    match find_line (current_line tb) (rest (nextline tb)) with
    | Some m => Ok (Some (block_tokens tb (firstn m (rest (nextline tb))) (move (nextline tb) m),
                          nextline (move (nextline tb) m)))
    | None => Exc (lexer_error "Unclosed block." tb (tb_position tb))
    end
  else Ok None.
Proof.
  intros Hb He. unfold dl_block. destruct (is_fence (current_line tb)) eqn:Hf; [|reflexivity]. cbn [negb].
  destruct (not_eof_rest _ Hb He) as (r & H1 & H2 & H3).
  assert (Hd : current_line tb <> []) by (intros E; rewrite E in Hf; discriminate).
  unfold create_token at 1. cbn [t_value t_ctx c_start_line c_start_column].
  change (nextline (skip tb (length (current_line tb)))) with (nextline tb).
  rewrite block_lines_spec; [|exact Hd|apply bol_nextline; exact H2|
    pose proof (rest_length (nextline tb)) as Hrl; change (tb_lines (nextline tb)) with (tb_lines tb) in Hrl; lia].
  assert (Hp : (fst (tb_position tb), snd (tb_position tb)) = tb_position tb) by (destruct (tb_position tb); reflexivity).
  rewrite Hp. destruct (find_line _ _) as [m|] eqn:Ef; [|reflexivity]. cbn [rbind fst snd].
  destruct (find_line_some _ _ _ Ef) as [_ [r' Hr']].
  assert (Hbn : bol (nextline tb)) by (apply bol_nextline; exact H2).
  rewrite <- (rest_move _ m Hbn) in Hr'. destruct (rest_cons _ _ _ Hr') as (C1 & C2 & C3).
  unfold block_tokens. rewrite C1. unfold create_token. cbn [fst snd].
  change (current_line (skip ?x ?n)) with (current_line x). rewrite C1. reflexivity.
Qed.

(* The lexer functions that come after the block rule never raise. *)
Lemma after_block_no_exc tb e : col0 tb ->
  run_functions [dl_control; dl_include; dl_variable; dl_arguments; dl_label; dl_list; dl_header;
                 process_text; process_error] tb <> Exc e.
Proof.
  intros Hc. cbn [run_functions].
  rewrite dl_control_rule, dl_include_rule, dl_variable_rule, dl_arguments_rule, dl_label_rule,
    dl_list_rule, dl_header_rule, (dl_text_rule tb Hc).
  repeat match goal with
  | |- context [line_rule ?re ?s ?k tb] =>
      let E := fresh "E" in
      destruct (line_rule re s k tb) as [[[? ?]|]|?] eqn:E;
      [cbn [rbind]; discriminate|cbn [rbind]|exfalso; exact (line_rule_no_exc _ _ _ _ _ E)]
  end.
  unfold line_rule in E6. cbn [rmatch] in E6. discriminate.
Qed.

(* Every error of a step, exactly. *)
Lemma doc_run_exc tb e : bol tb -> tb_eof tb = false ->
  run_functions (all_functions doc_lexer_fns) tb = Exc e ->
  (current_line tb = four_slashes /\ ~ In four_slashes (rest (nextline tb)) /\
   e = lexer_error "Unclosed multiline comment." tb (tb_position tb)) \/
  (is_fence (current_line tb) = true /\ current_line tb <> four_slashes /\
   ~ In (current_line tb) (rest (nextline tb)) /\
   e = lexer_error "Unclosed block." tb (tb_position tb)).
Proof.
  intros Hb He. assert (Hc : col0 tb) by apply Hb.
  rewrite (run_base _ _ He). destruct (all_sp (current_line tb)); [discriminate|].
  destruct (all_sp (tail tb)); [discriminate|].
  unfold doc_lexer_fns. cbn [app run_functions]. rewrite (multiline_eq _ Hb He).
  destruct (str_eqb_spec (current_line tb) four_slashes) as [Ef|Ef].
  - destruct (find_line four_slashes (rest (nextline tb))) eqn:Efl; [discriminate|].
    cbn [rbind]. intros H; injection H as <-. left. apply find_line_none in Efl. auto.
  - cbn [rbind]. rewrite dl_comment_rule, dl_hr_rule.
    destruct (line_rule _ _ _ tb) as [[[? ?]|]|?] eqn:E1 at 1;
      [discriminate|cbn [rbind]|exfalso; exact (line_rule_no_exc _ _ _ _ _ E1)].
    destruct (line_rule _ _ _ tb) as [[[? ?]|]|?] eqn:E2 at 1;
      [discriminate|cbn [rbind]|exfalso; exact (line_rule_no_exc _ _ _ _ _ E2)].
    rewrite (block_eq _ Hb He). destruct (is_fence (current_line tb)) eqn:Hf.
    + destruct (find_line (current_line tb) (rest (nextline tb))) eqn:Efl; [discriminate|].
      cbn [rbind]. intros H; injection H as <-. right. apply find_line_none in Efl. auto.
    + intros H. exfalso. exact (after_block_no_exc tb e Hc H).
Qed.

(* ---- locality ---- *)
(* The same lines ahead up to a point, then T1 in one buffer and T2 in the other,
   where T1 is nothing or the empty line after a final newline. *)
Definition ok_ends (T1 T2 : list str) : Prop := T1 = [] \/ (T1 = [[]] /\ T2 <> []).

Definition sim (T : list str * list str) (tb1 tb2 : tbuf) : Prop :=
  ok_ends (fst T) (snd T) /\ bol tb1 /\ bol tb2 /\
  exists p, rest tb1 = p ++ fst T /\ rest tb2 = p ++ snd T.

Lemma sim_cur T tb1 tb2 : sim T tb1 tb2 -> tb_eof tb1 = false ->
  current_line tb2 = current_line tb1 /\ sim T (nextline tb1) (nextline tb2) /\ tb_eof tb2 = false.
Proof.
  intros (Hok & H1 & H2 & p & P1 & P2) He. destruct (not_eof_rest _ H1 He) as (r & R1 & R2 & R3).
  rewrite (rest_eof _ H1), P1 in He.
  destruct p as [|l p].
  { exfalso. destruct Hok as [E|[E _]]; rewrite E in He; discriminate. }
  cbn [app] in *. destruct (rest_cons _ _ _ P2) as (A1 & A2 & A3).
  destruct (rest_cons _ _ _ P1) as (B1 & B2 & B3).
  split; [congruence|]. split.
  - split; [exact Hok|]. split; [apply bol_nextline; exact B2|]. split; [apply bol_nextline; exact A2|].
    exists p. auto.
  - rewrite (rest_eof _ H2), P2. destruct l as [|a l]; [|destruct (p ++ snd T); reflexivity].
    destruct p as [|x p]; [|reflexivity]. cbn [app] in *.
    destruct Hok as [E|[_ E]]; [rewrite E in He; discriminate|]. destruct (snd T); [congruence|reflexivity].
Qed.

Lemma sim_move T tb1 tb2 m p : sim T tb1 tb2 -> rest tb1 = p ++ fst T -> rest tb2 = p ++ snd T ->
  m <= length p -> sim T (move tb1 m) (move tb2 m).
Proof.
  intros (Hok & H1 & H2 & _) P1 P2 Hm.
  assert (L1 := f_equal (@length str) P1). assert (L2 := f_equal (@length str) P2). rewrite app_length in L1, L2.
  unfold rest in L1, L2. rewrite skipn_length in L1, L2.
  destruct H1 as [B1 B2], H2 as [B3 B4]. split; [exact Hok|]. split; [|split].
  - split; [apply col0_move; exact B1|rewrite move_lines, move_line; lia].
  - split; [apply col0_move; exact B3|rewrite move_lines, move_line; lia].
  - exists (skipn m p). rewrite !rest_move by (split; assumption). rewrite P1, P2, !skipn_app.
    replace (m - length p) with 0 by lia. auto.
Qed.

Lemma four_slashes_ne : four_slashes <> [].
Proof. discriminate. Qed.

Lemma find_line_ends d T1 T2 p m : d <> [] -> ok_ends T1 T2 -> find_line d (p ++ T1) = Some m ->
  find_line d (p ++ T2) = Some m /\ m < length p /\
  firstn m (p ++ T1) = firstn m (p ++ T2).
Proof.
  intros Hd Hok Hf.
  assert (Hp : find_line d p = Some m).
  { revert m Hf; induction p as [|l p IH]; intros m; cbn [app find_line].
    - destruct Hok as [->|[-> _]]; cbn [find_line]; [discriminate|].
      destruct (str_eqb_spec [] d) as [<-|_]; [congruence|discriminate].
    - destruct (str_eqb l d); [auto|]. destruct (find_line d (p ++ T1)) as [k|]; [|discriminate].
      intros H; injection H as <-. rewrite (IH k eq_refl). reflexivity. }
  pose proof (find_line_le _ _ _ Hp) as Hm. split; [apply find_line_ext; exact Hp|]. split; [exact Hm|].
  rewrite !firstn_app. replace (m - length p) with 0 by lia. reflexivity.
Qed.

(* Results of two related runs. *)
Definition fsim (T : list str * list str) (r1 r2 : res (option (list token * tbuf))) : Prop :=
  match r1 with
  | Ok None => r2 = Ok None
  | Ok (Some (ts1, u1)) => exists ts2 u2, r2 = Ok (Some (ts2, u2)) /\ map tv ts1 = map tv ts2 /\ sim T u1 u2
  | Exc _ => True
  end.

Lemma emit_tv script tb1 tb2 : map tv (fst (emit script tb1)) = map tv (fst (emit script tb2)).
Proof.
  revert tb1 tb2; induction script as [|[[ty|] v] s IH]; intros tb1 tb2; [reflexivity| |].
  - cbn [emit]. unfold create_token. specialize (IH (skip tb1 (length v)) (skip tb2 (length v))).
    destruct (emit s (skip tb1 _)), (emit s (skip tb2 _)). cbn [fst map] in *. rewrite IH. reflexivity.
  - cbn [emit]. apply IH.
Qed.

Definition keep_tv (keep : captures -> list token -> list token) : Prop :=
  forall cs ts us, map tv ts = map tv us -> map tv (keep cs ts) = map tv (keep cs us).

Lemma all_kept_tv : keep_tv all_kept.
Proof. intros cs ts us H; exact H. Qed.

Lemma keep_34_tv i j : keep_tv (keep_34 i j).
Proof.
  intros cs ts us H. unfold keep_34.
  destruct ts as [|t1 [|t2 [|t3 [|t4 [|]]]]], us as [|u1 [|u2 [|u3 [|u4 [|]]]]];
    try discriminate H; try exact H.
  cbn [map] in H. injection H as H1 H1' H2 H2' H3 H3' H4 H4'. rewrite !map_app. cbn [map].
  unfold tv. rewrite H1, H1', H2, H2'. f_equal. unfold keep_if.
  destruct (group cs i), (group cs j); cbn [map app]; unfold tv; rewrite ?H3, ?H3', ?H4, ?H4'; reflexivity.
Qed.

Lemma rule_sim T re script keep tb1 tb2 : keep_tv keep -> sim T tb1 tb2 -> tb_eof tb1 = false ->
  fsim T (line_rule re script keep tb1) (line_rule re script keep tb2).
Proof.
  intros Hk Hs He. destruct (sim_cur _ _ _ Hs He) as (H1 & H2 & H3). unfold line_rule. rewrite H1.
  destruct (rmatch re (current_line tb1)) as [cs|]; [|reflexivity].
  simpl. eexists; eexists; split; [reflexivity|]. split; [|exact H2]. apply Hk. apply emit_tv.
Qed.

Lemma rule_sim_line T re ty tb1 tb2 : sim T tb1 tb2 -> tb_eof tb1 = false ->
  fsim T (line_rule re (fun _ => [(Some ty, current_line tb1)]) all_kept tb1)
         (line_rule re (fun _ => [(Some ty, current_line tb2)]) all_kept tb2).
Proof.
  intros Hs He. destruct (sim_cur _ _ _ Hs He) as (H1 & H2 & H3). rewrite H1.
  apply rule_sim; [apply all_kept_tv|exact Hs|exact He].
Qed.

Lemma run_sim_cons T f fs tb1 tb2 ts u : fsim T (f tb1) (f tb2) ->
  (run_functions fs tb1 = Ok (ts, u) -> exists ts2 u2, run_functions fs tb2 = Ok (ts2, u2) /\
     map tv ts = map tv ts2 /\ sim T u u2) ->
  run_functions (f :: fs) tb1 = Ok (ts, u) -> exists ts2 u2, run_functions (f :: fs) tb2 = Ok (ts2, u2) /\
     map tv ts = map tv ts2 /\ sim T u u2.
Proof.
  intros Hf Hfs. cbn [run_functions]. unfold fsim in Hf.
  destruct (f tb1) as [[[t1 u1]|]|e]; cbn [rbind]; [|rewrite Hf; exact Hfs|discriminate].
  intros H; injection H as <- <-. destruct Hf as (t2 & u2 & -> & H2 & H3). cbn [rbind]. eauto.
Qed.

Lemma multiline_sim T tb1 tb2 : sim T tb1 tb2 -> tb_eof tb1 = false ->
  fsim T (dl_multiline_comment tb1) (dl_multiline_comment tb2).
Proof.
  intros Hs He. destruct (sim_cur _ _ _ Hs He) as (H1 & H2 & H3).
  rewrite (multiline_eq tb1), (multiline_eq tb2); try assumption; try apply Hs. rewrite H1.
  destruct (str_eqb (current_line tb1) four_slashes); [|reflexivity].
  destruct (find_line four_slashes (rest (nextline tb1))) as [m|] eqn:Ef; [|exact I].
  pose proof H2 as (Hok & B1 & B2 & p & P1 & P2). rewrite P1 in Ef. rewrite P2.
  destruct (find_line_ends _ _ (snd T) _ _ four_slashes_ne Hok Ef) as (F1 & F2 & _). rewrite F1.
  simpl. eexists; eexists; split; [reflexivity|]. split; [reflexivity|].
  assert (Hsm : sim T (move (nextline tb1) m) (move (nextline tb2) m)).
  { eapply sim_move; eauto. lia. }
  destruct (find_line_some _ _ _ Ef) as [_ [r Hr]].
  apply sim_cur; [exact Hsm|]. rewrite rest_eof by apply Hsm. rewrite rest_move by exact B1. rewrite P1, Hr.
  destruct r; reflexivity.
Qed.

Lemma fence_nonempty d : is_fence d = true -> d <> [].
Proof. intros H E; rewrite E in H; discriminate. Qed.

Lemma block_sim T tb1 tb2 : sim T tb1 tb2 -> tb_eof tb1 = false -> fsim T (dl_block tb1) (dl_block tb2).
Proof.
  intros Hs He. destruct (sim_cur _ _ _ Hs He) as (H1 & H2 & H3).
  rewrite (block_eq tb1), (block_eq tb2); try assumption; try apply Hs. rewrite H1.
  destruct (is_fence (current_line tb1)) eqn:Hf; [|reflexivity].
  destruct (find_line (current_line tb1) (rest (nextline tb1))) as [m|] eqn:Ef; [|exact I].
  pose proof H2 as (Hok & B1 & B2 & p & P1 & P2). rewrite P1 in Ef. rewrite P2.
  destruct (find_line_ends _ _ (snd T) _ _ (fence_nonempty _ Hf) Hok Ef) as (F1 & F2 & F3). rewrite F1.
  assert (Hsm : sim T (move (nextline tb1) m) (move (nextline tb2) m)).
  { eapply sim_move; eauto. lia. }
  destruct (find_line_some _ _ _ Ef) as [_ [r Hr]].
  unfold fsim. eexists; eexists; split; [reflexivity|]. split.
  - unfold block_tokens. rewrite H1, P1, F3. destruct (firstn m (p ++ snd T)); reflexivity.
  - apply sim_cur; [exact Hsm|]. rewrite rest_eof by apply Hsm. rewrite rest_move by exact B1. rewrite P1, Hr.
    apply fence_nonempty in Hf. destruct (current_line tb1); [congruence|]. destruct r; reflexivity.
Qed.

(* One step, in two buffers with the same lines ahead. *)
Lemma step_sim T tb1 tb2 ts u : sim T tb1 tb2 -> tb_eof tb1 = false ->
  run_functions (all_functions doc_lexer_fns) tb1 = Ok (ts, u) ->
  exists ts2 u2, run_functions (all_functions doc_lexer_fns) tb2 = Ok (ts2, u2) /\
    map tv ts = map tv ts2 /\ sim T u u2.
Proof.
  intros Hs He. destruct (sim_cur _ _ _ Hs He) as (H1 & H2 & H3).
  assert (C1 : col0 tb1) by apply Hs. assert (C2 : col0 tb2) by apply Hs.
  rewrite !run_base by assumption. rewrite H1, !tail_col0, H1 by assumption.
  destruct (all_sp (current_line tb1)) eqn:Esp.
  - intros H.
    apply Ok_pair_inj in H. destruct H as [<- <-].
    eexists; eexists; split; [reflexivity|]. split; [reflexivity|exact H2].
  - unfold doc_lexer_fns. cbn [app].
    apply run_sim_cons; [apply multiline_sim; assumption|].
    apply run_sim_cons; [rewrite !dl_comment_rule; apply rule_sim; auto using all_kept_tv|].
    apply run_sim_cons; [rewrite !dl_hr_rule; apply rule_sim_line; auto|].
    apply run_sim_cons; [apply block_sim; assumption|].
    apply run_sim_cons; [rewrite !dl_control_rule; apply rule_sim; auto using all_kept_tv|].
    apply run_sim_cons; [rewrite !dl_include_rule; apply rule_sim; auto using keep_34_tv|].
    apply run_sim_cons; [rewrite !dl_variable_rule; apply rule_sim; auto using keep_34_tv|].
    apply run_sim_cons; [rewrite !dl_arguments_rule; apply rule_sim; auto using all_kept_tv|].
    apply run_sim_cons; [rewrite !dl_label_rule; apply rule_sim; auto using all_kept_tv|].
    apply run_sim_cons; [rewrite !dl_list_rule; apply rule_sim; auto using all_kept_tv|].
    apply run_sim_cons; [rewrite !dl_header_rule; apply rule_sim; auto using all_kept_tv|].
    apply run_sim_cons; [rewrite !dl_text_rule by assumption; apply rule_sim_line; auto|].
    discriminate.
Qed.

(* The same error text when the lines ahead are exactly the same. *)
Lemma step_sim_exc tb1 tb2 e : sim ([], []) tb1 tb2 -> tb_eof tb1 = false ->
  run_functions (all_functions doc_lexer_fns) tb1 = Exc e ->
  exists e2, run_functions (all_functions doc_lexer_fns) tb2 = Exc e2 /\
    outcome (Exc e) = outcome (Exc e2).
Proof.
  intros Hs He Hr. destruct (sim_cur _ _ _ Hs He) as (H1 & H2 & H3).
  assert (Hs' : sim ([], []) tb2 tb1).
  { destruct Hs as (O & A & B & p & P1 & P2). split; [exact O|split; [exact B|split; [exact A|]]]. exists p; auto. }
  destruct (run_functions (all_functions doc_lexer_fns) tb2) as [[ts u]|e2] eqn:Hr2.
  - destruct (step_sim _ _ _ _ _ Hs' H3 Hr2) as (a & b & Hab & _). congruence.
  - exists e2; split; [reflexivity|].
    destruct (doc_run_exc tb1 e ltac:(apply Hs) He Hr) as [(A1 & A2 & ->)|(A1 & A2 & A3 & ->)];
    destruct (doc_run_exc tb2 e2 ltac:(apply Hs) H3 Hr2) as [(B1 & B2 & ->)|(B1 & B2 & B3 & ->)];
    try reflexivity; congruence.
Qed.

Notation dsteps := (steps doc_lexer_fns).

Lemma steps_app tb ts u us v : dsteps tb ts u -> dsteps u us v -> dsteps tb (ts ++ us) v.
Proof. induction 1; intros Hv; [exact Hv|]. rewrite <- app_assoc. econstructor; eauto. Qed.

Lemma steps_sim T tb1 ts u : dsteps tb1 ts u -> forall tb2, sim T tb1 tb2 ->
  exists ts2 u2, dsteps tb2 ts2 u2 /\ map tv ts = map tv ts2 /\ sim T u u2.
Proof.
  induction 1 as [tb|tb ts tb' ts' tb'' He Hr Hs IH]; intros tb2 Hsim.
  - exists [], tb2. split; [constructor|auto].
  - destruct (step_sim _ _ _ _ _ Hsim He Hr) as (ts2 & u2 & R2 & M2 & S2).
    destruct (IH _ S2) as (ts3 & u3 & R3 & M3 & S3).
    exists (ts2 ++ ts3), u3. split.
    + econstructor; [apply (sim_cur _ _ _ Hsim He)|exact R2|exact R3].
    + split; [rewrite !map_app, M2, M3; reflexivity|exact S3].
Qed.

(* ---- lexing as a function of the lines ---- *)
Definition start_tb (lines : list str) (sl sc : nat) (src : option str) : tbuf :=
  mkTbuf lines 0 0 sl sc src.

Lemma start_wf lines sl sc src : wf lines sl sc src (start_tb lines sl sc src).
Proof. unfold wf; simpl. repeat split; auto; lia. Qed.

Lemma start_fuel lines sl sc src :
  S (remaining lines (start_tb lines sl sc src)) < lex_fuel (start_tb lines sl sc src).
Proof. unfold remaining, lex_fuel. simpl. lia. Qed.

Definition lex_lines (lines : list str) (sl sc : nat) (src : option str) : res (list token) :=
  lex_document (start_tb lines sl sc src).

(* Completed runs *)
Lemma lex_lines_eof lines sl sc src ts u : dsteps (start_tb lines sl sc src) ts u -> tb_eof u = true ->
  lex_lines lines sl sc src = Ok (ts ++ [eof_token u]).
Proof.
  intros Hs He. unfold lex_lines, lex_document, lex.
  erewrite lex_loop_eof; [reflexivity|apply doc_good|reflexivity|apply start_wf|exact Hs|exact He|].
  apply start_fuel.
Qed.

Lemma lex_lines_exc lines sl sc src ts u e : dsteps (start_tb lines sl sc src) ts u -> tb_eof u = false ->
  run_functions (all_functions doc_lexer_fns) u = Exc e ->
  lex_lines lines sl sc src = Exc e.
Proof.
  intros Hs He Hr. unfold lex_lines, lex_document, lex.
  erewrite lex_loop_exc; [reflexivity|apply doc_good|reflexivity|apply start_wf|exact Hs|exact He|exact Hr|].
  pose proof (start_fuel lines sl sc src). lia.
Qed.

Lemma lex_lines_total lines sl sc src :
  (exists ts u, dsteps (start_tb lines sl sc src) ts u /\ tb_eof u = true /\
                lex_lines lines sl sc src = Ok (ts ++ [eof_token u])) \/
  (exists ts u e, dsteps (start_tb lines sl sc src) ts u /\ tb_eof u = false /\
                  run_functions (all_functions doc_lexer_fns) u = Exc e /\
                  lex_lines lines sl sc src = Exc e).
Proof.
  destruct (steps_total lines sl sc src col0 doc_lexer_fns (doc_good lines sl sc src)
              (start_tb lines sl sc src) eq_refl (start_wf lines sl sc src))
    as [(ts & u & Hs & He)|(ts & u & e & Hs & He & Hr)].
  - left; exists ts, u. repeat split; auto. apply lex_lines_eof; assumption.
  - right; exists ts, u, e. repeat split; auto. eapply lex_lines_exc; eassumption.
Qed.

Lemma lex_document_init text sl sc src :
  lex_document (tb_init text sl sc src) = lex_lines (text_lines text) sl sc src.
Proof. reflexivity. Qed.

Lemma steps_facts lines sl sc src ts u : dsteps (start_tb lines sl sc src) ts u ->
  col0 u /\ wf lines sl sc src u /\ tokens_in lines sl sc src ts (0, 0) (raw u) /\ no_eof ts.
Proof.
  intros Hs. eapply (steps_inv lines sl sc src col0 doc_lexer_fns (doc_good lines sl sc src)) in Hs;
    [exact Hs|reflexivity|apply start_wf].
Qed.

(* Lexing from a buffer state: outcome of everything ahead. *)
Definition from_here (u : tbuf) : (list (token_type * str)) + option string :=
  outcome (lex_lines (rest u) 0 0 None).

(* After a run that reached the buffer u without error, the result is what lexing the
   rest of the lines gives. *)
Lemma lex_resume lines sl sc src ts u : dsteps (start_tb lines sl sc src) ts u ->
  outcome (lex_lines lines sl sc src) = prepend (map tv ts) (from_here u).
Proof.
  intros Hs. destruct (steps_facts _ _ _ _ _ _ Hs) as (Hc & Hwf & _).
  assert (Hsim : sim ([], []) (start_tb (rest u) 0 0 None) u).
  { split; [left; reflexivity|]. split; [split; [reflexivity|simpl; lia]|]. split; [eapply wf_bol; eauto|].
    exists (rest u). cbn [fst snd]. rewrite app_nil_r. split; reflexivity. }
  unfold from_here.
  destruct (lex_lines_total (rest u) 0 0 None) as [(us & v & Hv & He & ->)|(us & v & e & Hv & He & Hr & ->)].
  - destruct (steps_sim _ _ _ _ Hv _ Hsim) as (us2 & v2 & Hv2 & Hm & Hsv).
    rewrite (lex_lines_eof _ _ _ _ (ts ++ us2) v2).
    + cbn [outcome prepend]. rewrite !map_app, Hm, <- app_assoc. reflexivity.
    + eapply steps_app; eassumption.
    + destruct Hsv as (_ & B1 & B2 & p & P1 & P2). rewrite (rest_eof _ B2), P2. cbn [fst snd] in *.
      rewrite <- P1, <- (rest_eof _ B1). exact He.
  - destruct (steps_sim _ _ _ _ Hv _ Hsim) as (us2 & v2 & Hv2 & Hm & Hsv).
    destruct (step_sim_exc _ _ _ Hsv He Hr) as (e2 & Hr2 & Ho).
    rewrite (lex_lines_exc _ _ _ _ (ts ++ us2) v2 e2).
    + rewrite <- Ho. destruct (doc_run_exc _ _ (proj1 (proj2 Hsv)) He Hr) as [(_ & _ & ->)|(_ & _ & _ & ->)]; reflexivity.
    + eapply steps_app; eassumption.
    + apply (sim_cur _ _ _ Hsv He).
    + exact Hr2.
Qed.

(* A complete prefix: a text ending with a newline. *)
Lemma lex_prefix pre sl sc src toks C : C <> [] ->
  lex_lines (pre ++ [[]]) sl sc src = Ok toks ->
  exists ts ts2 u2 eof, toks = ts ++ [eof] /\ tv eof = (T_EOF, []) /\
    dsteps (start_tb (pre ++ C) sl sc src) ts2 u2 /\ map tv ts = map tv ts2 /\
    rest u2 = C /\ tb_line u2 = length pre.
Proof.
  intros HC Hok.
  destruct (lex_lines_total (pre ++ [[]]) sl sc src) as [(ts & u & Hs & He & H1)|(ts & u & e & _ & _ & _ & H1)];
    [|congruence].
  rewrite H1 in Hok. injection Hok as <-.
  assert (Hsim : sim ([[]], C) (start_tb (pre ++ [[]]) sl sc src) (start_tb (pre ++ C) sl sc src)).
  { split; [right; auto|]. split; [split; [reflexivity|simpl; lia]|]. split; [split; [reflexivity|simpl; lia]|].
    exists pre; auto. }
  destruct (steps_sim _ _ _ _ Hs _ Hsim) as (ts2 & u2 & Hs2 & Hm & Hu).
  exists ts, ts2, u2, (eof_token u). split; [reflexivity|]. split; [reflexivity|].
  split; [exact Hs2|]. split; [exact Hm|].
  destruct Hu as (_ & B1 & B2 & p & P1 & P2). cbn [fst snd] in *.
  assert (p = []).
  { rewrite (rest_eof _ B1), P1 in He. destruct p as [|l p]; [reflexivity|].
    destruct l, p; discriminate. }
  subst p. split; [exact P2|].
  destruct (steps_facts _ _ _ _ _ _ Hs2) as (_ & Hwf & _).
  assert (HL : tb_lines u2 = pre ++ C) by apply Hwf. destruct B2 as [_ B2].
  apply (f_equal (@length str)) in P2. unfold rest in P2. rewrite skipn_length in P2.
  rewrite HL, app_length in P2. rewrite HL, app_length in B2. cbn [app] in P2. destruct C as [|c0 C0]; [congruence|]. unfold str in *. lia.
Qed.
