(* LexerThms.v -- the lexing properties, proved *)
From Verif Require Export InlineInst DocLexerProps.

(* ---- the condition lexer ---- *)
Definition cond_inv (tb : tbuf) : Prop :=
  tb_column tb = 0 \/ (all_sp (current_line tb) = false /\ tail tb = []).

Lemma condition_emit tb : cl_condition tb =
  match rmatch condition_re (current_line tb) with
  | None => Ok None
  | Some cs => Ok (Some (emit [(Some T_TEXT, group cs 0); (None, group cs 1); (Some T_TEXT, group cs 2);
                               (None, group cs 3); (Some T_TEXT, group cs 4)] tb))
  end.
Proof. reflexivity. Qed.

(* The captures of a regexp that ends with $ are the whole text. *)
Lemma rmatch_end r s cs : rmatch (r ++ [REnd]) s = Some cs -> s = caps_text cs.
Proof.
  revert s cs; induction r as [|i r IH]; cbn [rmatch app]; intros s cs.
  - destruct s; [|discriminate]. intros H; injection H as <-. reflexivity.
  - destruct i as [t|p m|t|t u|].
    + destruct (startswith t s) eqn:E; [|discriminate].
      destruct (rmatch (r ++ [REnd]) _) as [c|] eqn:E2; simpl; [|discriminate].
      intros H; injection H as <-. rewrite (startswith_skipn _ _ E), (IH _ _ E2) at 1. reflexivity.
    + intros H. apply try_rep_spec in H; [|apply run_length_le].
      destruct H as (n & cs' & Hn & -> & Hk). unfold caps_text; simpl. fold (caps_text cs').
      rewrite <- (IH _ _ Hk), firstn_skipn. reflexivity.
    + destruct (if startswith t s then _ else None) as [c|] eqn:E.
      * intros H; injection H as <-. destruct (startswith t s) eqn:E1; [|discriminate].
        rewrite (startswith_skipn _ _ E1), (IH _ _ E) at 1. reflexivity.
      * destruct (rmatch (r ++ [REnd]) s) as [c|] eqn:E2; simpl; [|discriminate].
        intros H; injection H as <-. exact (IH _ _ E2).
    + destruct (if startswith t s then _ else None) as [c|] eqn:E.
      * intros H; injection H as <-. destruct (startswith t s) eqn:E1; [|discriminate].
        rewrite (startswith_skipn _ _ E1), (IH _ _ E) at 1. reflexivity.
      * destruct (startswith u s) eqn:E1; [|discriminate].
        destruct (rmatch (r ++ [REnd]) (skipn (length u) s)) as [c|] eqn:E2; simpl; [|discriminate].
        intros H; injection H as <-. rewrite (startswith_skipn _ _ E1), (IH _ _ E2) at 1. reflexivity.
    + destruct s as [|a s]; [|discriminate].
      destruct (rmatch (r ++ [REnd]) []) as [c|] eqn:E2; simpl; [|discriminate].
      intros H; injection H as <-. exact (IH _ _ E2).
Qed.

(* ... and the last one is empty. *)
Lemma rmatch_end_last r s cs : rmatch (r ++ [REnd]) s = Some cs -> exists cs', cs = cs' ++ [Some []].
Proof.
  revert s cs; induction r as [|i r IH]; cbn [rmatch app]; intros s cs.
  - destruct s; [|discriminate]. intros H; injection H as <-. exists []. reflexivity.
  - assert (K : forall (o : option captures) c x, (forall c', o = Some c' -> exists y, c' = y ++ [Some []]) ->
               option_map (cons x) o = Some c -> exists y, c = y ++ [Some []]).
    { intros o c x Ho H. destruct o as [c'|]; [|discriminate]. cbn [option_map] in H. injection H as <-.
      destruct (Ho c' eq_refl) as [y ->]. exists (x :: y). reflexivity. }
    destruct i as [t|p m|t|t u|].
    + destruct (startswith t s); [|discriminate]. apply K. apply IH.
    + intros H. apply try_rep_spec in H; [|apply run_length_le].
      destruct H as (n & cs' & Hn & -> & Hk). destruct (IH _ _ Hk) as [y ->]. eexists (_ :: y); reflexivity.
    + destruct (if startswith t s then _ else None) as [c|] eqn:E.
      * intros H; injection H as <-. destruct (startswith t s); [|discriminate].
        destruct (IH _ _ E) as [y ->]. eexists (_ :: y); reflexivity.
      * apply K. apply IH.
    + destruct (if startswith t s then _ else None) as [c|] eqn:E.
      * intros H; injection H as <-. destruct (startswith t s); [|discriminate].
        destruct (IH _ _ E) as [y ->]. eexists (_ :: y); reflexivity.
      * destruct (startswith u s); [|discriminate]. apply K. apply IH.
    + destruct s as [|a s]; [|discriminate]. apply K. apply IH.
Qed.

Section CondGood.
  Variables (lines : list str) (sl sc : nat) (src : option str).
  Lemma cond_good : good lines sl sc src cond_inv cond_lexer_fns.
  Proof.
    apply base_good; [intros tb [H|[H _]]; [left|right]; exact H|left; auto|].
    intros tb toks tb' HI Hwf He Hs Ht Hr.
    assert (Hc : tb_column tb = 0).
    { destruct HI as [H|[_ H]]; [exact H|]. rewrite H in Ht. discriminate. }
    cbn [app cond_lexer_fns run_functions] in Hr. rewrite condition_emit in Hr.
    destruct (rmatch condition_re (current_line tb)) as [cs|] eqn:E; [|cbn in Hr; discriminate].
    cbn [rbind] in Hr. apply Ok_inv in Hr.
    pose proof (rmatch_length _ _ _ E) as Hl.
    assert (Hcaps : current_line tb = caps_text cs)
      by (apply (rmatch_end [RRep is_name_chr 1; RRep (N.eqb SP) 0; RAlt (lit "==") (lit "!=");
             RRep (N.eqb SP) 0; RRep any_chr 0] _ _ E)).
    destruct cs as [|g0 [|g1 [|g2 [|g3 [|g4 [|g5 [|]]]]]]]; simpl in Hl; try discriminate.
    assert (Hg5 : cap_str g5 = []).
    { destruct (rmatch_end_last [RRep is_name_chr 1; RRep (N.eqb SP) 0; RAlt (lit "==") (lit "!=");
             RRep (N.eqb SP) 0; RRep any_chr 0] _ _ E) as [cs' Hcs].
      change [g0; g1; g2; g3; g4; g5] with ([g0; g1; g2; g3; g4] ++ [g5]) in Hcs.
      apply app_inj_tail in Hcs as [_ ->]. reflexivity. }
    set (script := [(Some T_TEXT, group _ 0); _; _; _; _]) in Hr.
    assert (Htail : tail tb = script_text script ++ []).
    { rewrite (tail_col0 _ Hc), Hcaps. unfold caps_text, script_text, script, group; simpl.
      rewrite Hg5, !app_nil_r. reflexivity. }
    destruct (emit_spec lines sl sc src script tb [] Hwf Htail) as (H1 & H2 & H3 & H4 & H5).
    rewrite Hr in H1, H2, H3, H4, H5. cbn [fst snd] in *.
    assert (Hpos : 0 < length (script_text script)).
    { apply (f_equal (@length N)) in Htail. rewrite app_nil_r in Htail. rewrite <- Htail.
      destruct (tail tb); [discriminate|simpl; lia]. }
    split; [split; [exact H1|split; [right; split; [exact H4|lia]|split; [exact H2|]]]|].
    - change toks with (fst (toks, tb')). rewrite <- Hr. apply emit_no_eof. repeat constructor; discriminate.
    - right. split; [|exact H3]. unfold current_line in *. rewrite H4.
      destruct H1 as (-> & _). destruct Hwf as (HL & _). rewrite HL in Hs. exact Hs.
  Qed.
End CondGood.

(* ---- C01: every lexer terminates with one EOF, or raises a lexer error ---- *)
Definition one_eof (toks : list token) : Prop :=
  exists ts eof, toks = ts ++ [eof] /\ t_type eof = T_EOF /\ no_eof ts.

Definition lexes_or_lexer_error (r : res (list token)) : Prop :=
  (exists toks, r = Ok toks /\ one_eof toks) \/
  (exists text src pos, r = Exc (ExMau (MsgLexer text src pos))).

Lemma good_total fns (Inv : tbuf -> Prop) text sl sc src :
  (forall lines sl sc src, good lines sl sc src Inv fns) ->
  Inv (tb_init text sl sc src) ->
  (forall tb e, run_functions (all_functions fns) tb = Exc e ->
     Inv tb -> wf (text_lines text) sl sc src tb -> tb_eof tb = false ->
     exists t s p, e = ExMau (MsgLexer t s p)) ->
  lexes_or_lexer_error (lex fns (tb_init text sl sc src)) /\
  forall toks, lex fns (tb_init text sl sc src) = Ok toks ->
    tokens_in (text_lines text) sl sc src toks (0, 0) (length (text_lines text), 0).
Proof.
  intros Hg HI Herr. pose proof (tb_init_wf text sl sc src) as Hwf.
  change (tb_lines (tb_init text sl sc src)) with (text_lines text) in Hwf.
  specialize (Hg (text_lines text) sl sc src).
  destruct (steps_total _ _ _ _ _ _ Hg _ HI Hwf) as [(ts & u & Hs & He)|(ts & u & e & Hs & He & Hr)].
  - destruct (steps_inv _ _ _ _ _ _ Hg _ _ _ HI Hwf Hs) as (HI' & Hwf' & Hti & Hne).
    unfold lex. rewrite (lex_loop_eof _ _ _ _ _ _ Hg _ ts u _ HI Hwf Hs He) by apply lex_fuel_ok.
    cbn [rbind lx_tokens]. split.
    + left. eexists; split; [reflexivity|]. exists ts, (eof_token u). repeat split; auto.
    + intros toks H; injection H as <-. eapply toks_in_app; [exact Hti|].
      pose proof (create_token_located (text_lines text) sl sc src u T_EOF [] (tail u) Hwf' eq_refl) as H.
      unfold eof_token. destruct (create_token u T_EOF []) as [t u0].
      destruct H as (H1 & H2 & H3 & H4 & H5 & H6).
      exists (raw u), (raw u0). split; [apply pos_le_refl|]. split; [exact H2|].
      rewrite H6. clear - Hwf' He. cbn [tokens_in]. destruct Hwf' as (H1 & H2 & H3 & H4 & H5 & H6).
      unfold pos_le, raw, skip; cbn [fst snd tb_line tb_column length].
      destruct (Nat.eq_dec (tb_line u) (length (text_lines text))) as [E|E]; [|left; lia].
      right; split; [exact E|]. unfold current_line in H6. rewrite H1, E, nth_overflow in H6 by lia. simpl in H6. lia.
  - destruct (steps_inv _ _ _ _ _ _ Hg _ _ _ HI Hwf Hs) as (HI' & Hwf' & _).
    destruct (Herr _ _ Hr HI' Hwf' He) as (t & s & p & ->).
    assert (Hx : lex fns (tb_init text sl sc src) = Exc (ExMau (MsgLexer t s p))).
    { unfold lex. erewrite lex_loop_exc; [reflexivity|exact Hg|exact HI|exact Hwf|exact Hs|exact He|exact Hr|].
      pose proof (lex_fuel_ok text sl sc src) as Hf. change (tb_lines (tb_init text sl sc src)) with (text_lines text) in Hf. lia. }
    rewrite Hx. split; [right; eauto|discriminate].
Qed.

Lemma doc_total text sl sc src :
  lexes_or_lexer_error (lex_document (tb_init text sl sc src)) /\
  forall toks, lex_document (tb_init text sl sc src) = Ok toks ->
    tokens_in (text_lines text) sl sc src toks (0, 0) (length (text_lines text), 0).
Proof.
  apply (good_total doc_lexer_fns col0); [apply doc_good|reflexivity|].
  intros tb e Hr Hc Hwf He.
  destruct (doc_run_exc tb e (wf_bol _ _ _ _ _ Hwf Hc) He Hr) as [(_ & _ & ->)|(_ & _ & _ & ->)];
    unfold lexer_error; eauto.
Qed.

Lemma inline_total next fns (H1 : forall s, all_sp s = false -> snd (next s) <> [] /\ (exists r, s = snd (next s) ++ r))
  (H2 : forall s, all_sp s = false -> fst (next s) <> T_EOF)
  (H3 : forall tb, all_sp (tail tb) = false ->
    run_functions (fns ++ [process_error]) tb =
    Ok ([fst (create_token tb (fst (next (tail tb))) (snd (next (tail tb))))],
        snd (create_token tb (fst (next (tail tb))) (snd (next (tail tb)))))) text sl sc src :
  lexes_or_lexer_error (lex fns (tb_init text sl sc src)) /\
  forall toks, lex fns (tb_init text sl sc src) = Ok toks ->
    tokens_in (text_lines text) sl sc src toks (0, 0) (length (text_lines text), 0).
Proof.
  apply (good_total fns inline_inv); [apply (inline_good next fns); assumption|left; reflexivity|].
  intros tb e Hr HI Hwf He. exfalso. rewrite (run_base _ _ He) in Hr.
  destruct (all_sp (current_line tb)); [discriminate|]. destruct (all_sp (tail tb)) eqn:E; [discriminate|].
  rewrite (H3 _ E) in Hr. discriminate.
Qed.

Lemma cond_total text sl sc src :
  lexes_or_lexer_error (lex_condition (tb_init text sl sc src)) /\
  forall toks, lex_condition (tb_init text sl sc src) = Ok toks ->
    tokens_in (text_lines text) sl sc src toks (0, 0) (length (text_lines text), 0).
Proof.
  apply (good_total cond_lexer_fns cond_inv); [apply cond_good|left; reflexivity|].
  intros tb e Hr HI Hwf He. rewrite (run_base _ _ He) in Hr.
  destruct (all_sp (current_line tb)); [discriminate|]. destruct (all_sp (tail tb)) eqn:E; [discriminate|].
  cbn [app cond_lexer_fns run_functions] in Hr. rewrite condition_emit in Hr.
  destruct (rmatch condition_re (current_line tb)) as [cs|]; cbn in Hr; [discriminate|].
  injection Hr as <-. unfold lexer_error. eauto.
Qed.

(* The lexers of mau. *)
Definition mau_lexers : list (tbuf -> res (list token)) :=
  [lex_document; lex_text; lex_args; lex_pre; lex_condition].

Lemma all_lexers_total lx text sl sc src : In lx mau_lexers ->
  lexes_or_lexer_error (lx (tb_init text sl sc src)) /\
  forall toks, lx (tb_init text sl sc src) = Ok toks ->
    tokens_in (text_lines text) sl sc src toks (0, 0) (length (text_lines text), 0).
Proof.
  intros [<-|[<-|[<-|[<-|[<-|[]]]]]].
  - apply doc_total.
  - apply (inline_total text_next text_lexer_fns text_next_prefix text_next_type text_fns_next).
  - apply (inline_total args_next args_lexer_fns args_next_prefix args_next_type args_fns_next).
  - apply (inline_total pre_next pre_lexer_fns pre_next_prefix pre_next_type pre_fns_next).
  - apply cond_total.
Qed.

(* ---- C02 ---- *)
Definition nth_line (text : str) (i : nat) : str := nth i (text_lines text) [].

Lemma doc_errors text sl sc src e : lex_document (tb_init text sl sc src) = Exc e ->
  exists i, i < length (text_lines text) /\ ~ In (nth_line text i) (skipn (S i) (text_lines text)) /\
    ((nth_line text i = slashes /\
      e = ExMau (MsgLexer "Unclosed multiline comment." src (shifted sl sc (i, 0)))) \/
     (exists c, fence_char c /\ nth_line text i = fence c /\
      e = ExMau (MsgLexer "Unclosed block." src (shifted sl sc (i, 0))))).
Proof.
  rewrite lex_document_init. intros Hx.
  destruct (lex_lines_total (text_lines text) sl sc src) as [(ts & u & _ & _ & H)|(ts & u & e' & Hs & He & Hr & H)];
    [congruence|].
  assert (e' = e) by congruence. subst e'. clear H.
  destruct (steps_facts _ _ _ _ _ _ Hs) as (Hc & Hwf & _).
  pose proof (wf_bol _ _ _ _ _ Hwf Hc) as Hb.
  pose proof (not_eof_line _ _ _ _ _ Hwf He) as Hlt.
  assert (HL : tb_lines u = text_lines text) by apply Hwf.
  assert (Hsrc : tb_source u = src) by apply Hwf.
  assert (Hpos : tb_position u = shifted sl sc (tb_line u, 0)).
  { rewrite (wf_position _ _ _ _ _ Hwf). unfold raw. rewrite Hc. reflexivity. }
  assert (Hcur : current_line u = nth_line text (tb_line u)).
  { unfold current_line, nth_line. rewrite HL. reflexivity. }
  assert (Hrest : rest (nextline u) = skipn (S (tb_line u)) (text_lines text)).
  { destruct (nextline_line _ _ _ _ _ Hwf Hlt) as [K1 _]. unfold rest. rewrite K1.
    change (tb_lines (nextline u)) with (tb_lines u). rewrite HL. reflexivity. }
  exists (tb_line u). split; [exact Hlt|].
  destruct (doc_run_exc _ _ Hb He Hr) as [(A1 & A2 & ->)|(A1 & A2 & A3 & ->)].
  - rewrite <- Hcur, <- Hrest, A1. split; [exact A2|]. left. split; [reflexivity|].
    unfold lexer_error. rewrite Hsrc, Hpos. reflexivity.
  - rewrite <- Hcur, <- Hrest. split; [exact A3|]. right.
    unfold lexer_error. rewrite Hsrc, Hpos.
    assert (Hns : all_sp (current_line u) = false).
    { rewrite (run_base _ _ He) in Hr. destruct (all_sp (current_line u)); [discriminate|reflexivity]. }
    destruct (current_line u) as [|a [|b [|c [|d [|]]]]] eqn:Ec; try discriminate.
    cbn [is_fence] in A1. rewrite !andb_true_iff, !N.eqb_eq in A1.
    destruct A1 as [[[A0 <-] <-] <-]. exists a. split; [|auto]. repeat split.
    + intros ->. discriminate.
    + intros ->. discriminate.
    + intros ->. apply A2. reflexivity.
Qed.

(* ---- C04 ---- *)
Lemma inline_lossless next fns
  (H1 : forall s, all_sp s = false -> snd (next s) <> [] /\ (exists r, s = snd (next s) ++ r))
  (H2 : forall s, all_sp s = false -> fst (next s) <> T_EOF)
  (H3 : forall tb, all_sp (tail tb) = false ->
    run_functions (fns ++ [process_error]) tb =
    Ok ([fst (create_token tb (fst (next (tail tb))) (snd (next (tail tb))))],
        snd (create_token tb (fst (next (tail tb))) (snd (next (tail tb)))))) s sl sc src : no_chr NL s -> all_sp s = false ->
  exists toks sp eof, lex fns (tb_init s sl sc src) = Ok (toks ++ [eof]) /\ t_type eof = T_EOF /\
    t_value eof = [] /\ all_sp sp = true /\ s = concat_str (map t_value toks) ++ sp.
Proof.
  intros Hnl Hsp. destruct (lex_inline next fns H1 H2 H3 s sl sc src) as (toks & Hl & Hm & _).
  rewrite text_lines_single, lines_toks_single in Hm; [|exact Hsp|exact Hnl|intros ->; discriminate].
  destruct (line_toks_concat next H1 H2 s) as (sp & S1 & S2).
  destruct (rev toks) as [|eof r] eqn:Er.
  - assert (toks = []) by (rewrite <- (rev_involutive toks), Er; reflexivity). subst.
    destruct (line_toks next s); discriminate.
  - assert (Ht : toks = rev r ++ [eof]) by (rewrite <- (rev_involutive toks), Er; reflexivity).
    rewrite Ht, map_app in Hm. apply app_inj_tail in Hm as [Hm1 Hm2].
    exists (rev r), sp, eof. rewrite Hl, Ht. split; [reflexivity|].
    unfold tv in Hm2. injection Hm2 as -> ->. split; [reflexivity|]. split; [reflexivity|]. split; [exact S1|].
    rewrite S2 at 1. f_equal. rewrite <- Hm1, map_map. reflexivity.
Qed.

(* ---- C07, C08, C09 ---- *)
Lemma lines_text_app a b : lines_text (a ++ b) = lines_text a ++ lines_text b.
Proof. unfold lines_text. rewrite map_app, concat_str_app. reflexivity. Qed.

Lemma split_lines_text pre X : Forall (no_chr NL) pre ->
  split_on NL (lines_text pre ++ X) = pre ++ split_on NL X.
Proof.
  induction pre as [|l pre IH]; intros H; [reflexivity|]. inversion H as [|x y Hl Hp]; subst.
  unfold lines_text in *. cbn [map concat_str]. rewrite <- !app_assoc. cbn [app].
  rewrite split_on_app by exact Hl. rewrite IH by exact Hp. reflexivity.
Qed.

Lemma lex_empty_line sl sc src sl' sc' src' :
  outcome (lex_lines [[]] sl sc src) = outcome (lex_lines [] sl' sc' src').
Proof. reflexivity. Qed.

Lemma doc_outcome_split text sl sc src :
  outcome (lex_document (tb_init text sl sc src)) = outcome (lex_lines (split_on NL text) sl sc src).
Proof. destruct text as [|a t]; [symmetry; apply lex_empty_line|reflexivity]. Qed.

(* types and values do not depend on the start position and source name *)
Lemma doc_outcome_start lines sl sc src sl' sc' src' :
  outcome (lex_lines lines sl sc src) = outcome (lex_lines lines sl' sc' src').
Proof.
  assert (Hs : dsteps (start_tb lines sl sc src) [] (start_tb lines sl sc src)) by constructor.
  assert (Hs' : dsteps (start_tb lines sl' sc' src') [] (start_tb lines sl' sc' src')) by constructor.
  rewrite (lex_resume _ _ _ _ _ _ Hs), (lex_resume _ _ _ _ _ _ Hs'). reflexivity.
Qed.

(* A prefix that lexes: what follows it is lexed as if it stood alone. *)
Lemma lex_after_prefix pre toks sl sc src C : Forall (no_chr NL) pre -> C <> [] ->
  outcome (lex_document (tb_init (lines_text pre) sl sc src)) = inl (toks ++ [(T_EOF, [])]) ->
  exists ts u, dsteps (start_tb (pre ++ C) sl sc src) ts u /\ map tv ts = toks /\
    rest u = C /\ tb_line u = length pre.
Proof.
  intros Hp HC Ho. rewrite doc_outcome_split in Ho.
  pose proof (split_lines_text pre [] Hp) as Hsp. rewrite app_nil_r in Hsp. rewrite Hsp in Ho. cbn [split_on] in Ho.
  destruct (lex_lines (pre ++ [[]]) sl sc src) as [ts0|e] eqn:El; [|destruct e as [|[]| |]; discriminate].
  destruct (lex_prefix pre sl sc src ts0 C HC El) as (ts & ts2 & u2 & eof & -> & Heof & Hs & Hm & Hr & Hl).
  cbn [outcome] in Ho. injection Ho as Ho. rewrite map_app in Ho. cbn [map] in Ho. rewrite Heof in Ho.
  apply app_inj_tail in Ho as [Ho _]. exists ts2, u2. repeat split; auto. congruence.
Qed.

Lemma fence_is_fence c : c <> NL -> is_fence (fence c) = true.
Proof.
  intros H. unfold is_fence, fence, any_chr. rewrite !N.eqb_refl, !andb_true_r.
  destruct (N.eqb_spec c NL); [congruence|reflexivity].
Qed.

Lemma starts2_single a b (s : str) : startswith (lit "//") (a :: b :: s) = N.eqb 47 a && N.eqb 47 b.
Proof. change (lit "//") with [47%N; 47%N]. cbn [startswith]. rewrite andb_true_r. reflexivity. Qed.

Lemma fence_not_comment c : c <> 47%N -> rmatch [RLit (lit "//"); RRep any_chr 0] (fence c) = None.
Proof.
  intros H. cbn [rmatch]. unfold fence. rewrite starts2_single.
  destruct (N.eqb_spec 47 c) as [E1|E1]; [congruence|reflexivity].
Qed.
Lemma fence_not_hr c : rmatch [RLit (lit "---"); REnd] (fence c) = None.
Proof.
  cbn [rmatch]. change (lit "---") with [45; 45; 45]%N. unfold fence. cbn [startswith length skipn].
  destruct (_ && _); reflexivity.
Qed.

(* One step on a block fence *)
Lemma step_block c content post u : fence_char c -> ~ In (fence c) content ->
  bol u -> rest u = fence c :: content ++ fence c :: post ->
  exists ts v, run_functions (all_functions doc_lexer_fns) u = Ok (ts, v) /\ tb_eof u = false /\
    map tv ts = block_shape (fence c) content /\ bol v /\ rest v = post.
Proof.
  intros (N1 & N2 & N3) Hin Hb Hr. destruct (rest_cons _ _ _ Hr) as (H1 & H2 & H3).
  assert (He : tb_eof u = false).
  { rewrite (rest_eof _ Hb), Hr. destruct content; reflexivity. }
  assert (Hc : col0 u) by apply Hb.
  rewrite (run_base _ _ He), (tail_col0 _ Hc), H1.
  assert (Hsp : all_sp (fence c) = false).
  { cbn [fence all_sp]. destruct (N.eqb_spec c SP); [congruence|reflexivity]. }
  rewrite Hsp. unfold doc_lexer_fns. cbn [app run_functions].
  rewrite (multiline_eq _ Hb He), H1.
  destruct (str_eqb_spec (fence c) four_slashes) as [E|E].
  { exfalso. injection E as E. congruence. }
  cbn [rbind]. rewrite dl_comment_rule, dl_hr_rule. unfold line_rule at 1. rewrite H1, (fence_not_comment c N3).
  cbn [rbind]. unfold line_rule at 1. rewrite H1, fence_not_hr.
  cbn [rbind]. rewrite (block_eq _ Hb He), H1, (fence_is_fence c N1), H3.
  rewrite find_line_app by exact Hin. cbn [rbind].
  eexists; eexists; split; [reflexivity|]. split; [exact He|].
  rewrite firstn_app, Nat.sub_diag, firstn_O, app_nil_r, firstn_all.
  assert (Hbn : bol (nextline u)) by (apply bol_nextline; exact H2).
  assert (Hrm : rest (move (nextline u) (length content)) = fence c :: post).
  { rewrite (rest_move _ _ Hbn), H3, skipn_app, skipn_all, Nat.sub_diag. reflexivity. }
  destruct (rest_cons _ _ _ Hrm) as (C1 & C2 & C3).
  split; [|split; [apply bol_nextline; exact C2|exact C3]].
  unfold block_tokens, block_shape. rewrite H1. destruct content; reflexivity.
Qed.

Lemma steps_from_bol lines sl sc src ts u : dsteps (start_tb lines sl sc src) ts u -> bol u.
Proof.
  intros Hs. destruct (steps_facts _ _ _ _ _ _ Hs) as (Hc & Hwf & _). eapply wf_bol; eauto.
Qed.

Lemma block_verbatim pre toks c content postl sl sc src :
  Forall (no_chr NL) pre -> fence_char c -> ~ In (fence c) content ->
  outcome (lex_document (tb_init (lines_text pre) sl sc src)) = inl (toks ++ [(T_EOF, [])]) ->
  outcome (lex_lines (pre ++ fence c :: content ++ fence c :: postl) sl sc src) =
  prepend (toks ++ block_shape (fence c) content) (outcome (lex_lines postl 0 0 None)).
Proof.
  intros Hp Hf Hin Ho.
  destruct (lex_after_prefix pre toks sl sc src (fence c :: content ++ fence c :: postl) Hp ltac:(discriminate) Ho)
    as (ts & u & Hs & Hm & Hr & Hl).
  pose proof (steps_from_bol _ _ _ _ _ _ Hs) as Hb.
  destruct (step_block c content postl u Hf Hin Hb Hr) as (ts2 & v & Hrun & He & Hm2 & Hbv & Hrv).
  assert (Hs2 : dsteps (start_tb (pre ++ fence c :: content ++ fence c :: postl) sl sc src) (ts ++ ts2) v).
  { eapply steps_app; [exact Hs|]. rewrite <- (app_nil_r ts2). econstructor; [exact He|exact Hrun|constructor]. }
  rewrite (lex_resume _ _ _ _ _ _ Hs2). unfold from_here. rewrite Hrv, map_app, Hm, Hm2. reflexivity.
Qed.

(* One step on a comment *)
Lemma step_comment l post u : startswith (lit "//") l = true -> l <> slashes -> bol u -> rest u = l :: post ->
  exists v, run_functions (all_functions doc_lexer_fns) u = Ok ([], v) /\ tb_eof u = false /\ bol v /\ rest v = post.
Proof.
  intros Hl Hn Hb Hr. destruct (rest_cons _ _ _ Hr) as (H1 & H2 & H3).
  destruct (proj1 (startswith_spec _ _) Hl) as [r ->].
  assert (He : tb_eof u = false) by (rewrite (rest_eof _ Hb), Hr; destruct post; reflexivity).
  assert (Hc : col0 u) by apply Hb.
  rewrite (run_base _ _ He), (tail_col0 _ Hc), H1.
  change (all_sp (lit "//" ++ r)) with false. cbn iota. unfold doc_lexer_fns. cbn [app run_functions].
  rewrite (multiline_eq _ Hb He), H1.
  destruct (str_eqb_spec (lit "//" ++ r) four_slashes) as [E|E]; [exfalso; apply Hn; exact E|].
  cbn [rbind]. rewrite dl_comment_rule. unfold line_rule. rewrite H1.
  assert (Ht : exists cs, rmatch [RLit (lit "//"); RRep any_chr 0] (lit "//" ++ r) = Some cs).
  { cbn [rmatch]. rewrite Hl. destruct (run_length any_chr _); eexists; reflexivity. }
  destruct Ht as [cs ->]. cbn [rbind].
  exists (nextline u). split; [reflexivity|]. split; [exact He|]. split; [apply bol_nextline; exact H2|exact H3].
Qed.

Lemma step_section body post u : ~ In slashes body -> bol u -> rest u = slashes :: body ++ slashes :: post ->
  exists v, run_functions (all_functions doc_lexer_fns) u = Ok ([], v) /\ tb_eof u = false /\ bol v /\ rest v = post.
Proof.
  intros Hn Hb Hr. destruct (rest_cons _ _ _ Hr) as (H1 & H2 & H3).
  assert (He : tb_eof u = false) by (rewrite (rest_eof _ Hb), Hr; destruct body; reflexivity).
  assert (Hc : col0 u) by apply Hb.
  rewrite (run_base _ _ He), (tail_col0 _ Hc), H1.
  change (all_sp slashes) with false. cbn iota. unfold doc_lexer_fns. cbn [app run_functions].
  rewrite (multiline_eq _ Hb He), H1. change (str_eqb slashes four_slashes) with true. cbn iota.
  rewrite H3. change four_slashes with slashes. rewrite find_line_app by exact Hn. cbn [rbind].
  eexists; split; [reflexivity|]. split; [exact He|].
  assert (Hbn : bol (nextline u)) by (apply bol_nextline; exact H2).
  assert (Hrm : rest (move (nextline u) (length body)) = slashes :: post).
  { rewrite (rest_move _ _ Hbn), H3, skipn_app, skipn_all, Nat.sub_diag. reflexivity. }
  destruct (rest_cons _ _ _ Hrm) as (C1 & C2 & C3).
  split; [apply bol_nextline; exact C2|exact C3].
Qed.

Definition is_comment (ls : list str) : Prop :=
  (exists l, ls = [l] /\ startswith (lit "//") l = true /\ l <> slashes) \/
  (exists body, ls = [slashes] ++ body ++ [slashes] /\ ~ In slashes body).

Lemma comment_invisible pre toks ls postl sl sc src :
  Forall (no_chr NL) pre -> is_comment ls -> postl <> [] ->
  outcome (lex_document (tb_init (lines_text pre) sl sc src)) = inl (toks ++ [(T_EOF, [])]) ->
  outcome (lex_lines (pre ++ ls ++ postl) sl sc src) = outcome (lex_lines (pre ++ postl) sl sc src).
Proof.
  intros Hp Hcm Hne Ho.
  assert (Hls : ls ++ postl <> []).
  { destruct Hcm as [(l & -> & _)|(b & -> & _)]; discriminate. }
  destruct (lex_after_prefix pre toks sl sc src (ls ++ postl) Hp Hls Ho) as (ts & u & Hs & Hm & Hr & Hl).
  destruct (lex_after_prefix pre toks sl sc src postl Hp Hne Ho) as (ts' & u' & Hs' & Hm' & Hr' & Hl').
  pose proof (steps_from_bol _ _ _ _ _ _ Hs) as Hb.
  assert (Hstep : exists v, run_functions (all_functions doc_lexer_fns) u = Ok ([], v) /\ tb_eof u = false
                            /\ bol v /\ rest v = postl).
  { destruct Hcm as [(l & -> & H1 & H2)|(b & -> & H1)].
    - apply (step_comment l); assumption.
    - apply (step_section b); auto. rewrite Hr. cbn [app]. rewrite <- app_assoc. reflexivity. }
  destruct Hstep as (v & Hrun & He & Hbv & Hrv).
  assert (Hs2 : dsteps (start_tb (pre ++ ls ++ postl) sl sc src) (ts ++ []) v).
  { eapply steps_app; [exact Hs|]. change (@nil token) with (@nil token ++ []).
    econstructor; [exact He|exact Hrun|constructor]. }
  rewrite (lex_resume _ _ _ _ _ _ Hs2), (lex_resume _ _ _ _ _ _ Hs'). unfold from_here.
  rewrite Hrv, Hr', app_nil_r, Hm, Hm'. reflexivity.
Qed.

(* Unclosed fences *)
Lemma unclosed_detected pre toks f restl sl sc src :
  Forall (no_chr NL) pre -> (f = slashes \/ exists c, fence_char c /\ f = fence c) -> ~ In f restl ->
  outcome (lex_document (tb_init (lines_text pre) sl sc src)) = inl (toks ++ [(T_EOF, [])]) ->
  lex_lines (pre ++ f :: restl) sl sc src =
  Exc (ExMau (MsgLexer (if str_eqb f slashes then "Unclosed multiline comment." else "Unclosed block.")
                src (shifted sl sc (length pre, 0)))).
Proof.
  intros Hp Hf Hin Ho.
  destruct (lex_after_prefix pre toks sl sc src (f :: restl) Hp ltac:(discriminate) Ho) as (ts & u & Hs & Hm & Hr & Hl).
  pose proof (steps_from_bol _ _ _ _ _ _ Hs) as Hb.
  destruct (steps_facts _ _ _ _ _ _ Hs) as (Hc & Hwf & _).
  destruct (rest_cons _ _ _ Hr) as (H1 & H2 & H3).
  assert (Hne : f <> []) by (destruct Hf as [->|[c [_ ->]]]; discriminate).
  assert (He : tb_eof u = false).
  { rewrite (rest_eof _ Hb), Hr. destruct f; [congruence|]. destruct restl; reflexivity. }
  assert (Hsrc : tb_source u = src) by apply Hwf.
  assert (Hpos : tb_position u = shifted sl sc (length pre, 0)).
  { rewrite (wf_position _ _ _ _ _ Hwf). unfold raw. rewrite Hc, Hl. reflexivity. }
  destruct (run_functions (all_functions doc_lexer_fns) u) as [[ts2 v]|e] eqn:Hrun.
  - (* a step that succeeds would have found the closing line *)
    exfalso. rewrite (run_base _ _ He), (tail_col0 _ Hc), H1 in Hrun.
    apply find_line_none in Hin.
    destruct Hf as [->|[c [(N1 & N2 & N3) ->]]].
    + change (all_sp slashes) with false in Hrun. cbn iota in Hrun. unfold doc_lexer_fns in Hrun.
      cbn [app run_functions] in Hrun. rewrite (multiline_eq _ Hb He), H1, H3 in Hrun.
      change (str_eqb slashes four_slashes) with true in Hrun. cbn iota in Hrun.
      change four_slashes with slashes in Hrun. rewrite Hin in Hrun. discriminate.
    + assert (Hsp : all_sp (fence c) = false).
      { cbn [fence all_sp]. destruct (N.eqb_spec c SP); [congruence|reflexivity]. }
      rewrite Hsp in Hrun. unfold doc_lexer_fns in Hrun. cbn [app run_functions] in Hrun.
      rewrite (multiline_eq _ Hb He), H1 in Hrun.
      destruct (str_eqb_spec (fence c) four_slashes) as [E|E]; [injection E as E; congruence|].
      cbn [rbind] in Hrun. rewrite dl_comment_rule, dl_hr_rule in Hrun. unfold line_rule at 1 in Hrun.
      rewrite H1, (fence_not_comment c N3) in Hrun. cbn [rbind] in Hrun.
      unfold line_rule at 1 in Hrun. rewrite H1, fence_not_hr in Hrun.
      cbn [rbind] in Hrun.
      rewrite (block_eq _ Hb He), H1, (fence_is_fence c N1), H3, Hin in Hrun. discriminate.
  - rewrite (lex_lines_exc _ _ _ _ _ _ _ Hs He Hrun).
    destruct (doc_run_exc _ _ Hb He Hrun) as [(A1 & A2 & ->)|(A1 & A2 & A3 & ->)];
      unfold lexer_error; rewrite Hsrc, Hpos; rewrite H1 in *.
    + rewrite A1. reflexivity.
    + destruct (str_eqb_spec f slashes) as [->|_]; [exfalso; apply A2; reflexivity|reflexivity].
Qed.
