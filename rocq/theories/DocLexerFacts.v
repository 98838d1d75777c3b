(* DocLexerFacts.v -- the document lexer: goodness, errors, locality *)
From Verif Require Export DocLexer InlineLexer.

Definition col0 (tb : tbuf) : Prop := tb_column tb = 0.

(* ---- searching the closing fence ---- *)
(* Index of the first line equal to d *)
Fixpoint find_line (d : str) (ls : list str) : option nat :=
  match ls with
  | [] => None
  | l :: r => if str_eqb l d then Some 0 else option_map S (find_line d r)
  end.

Lemma find_line_some d ls m : find_line d ls = Some m ->
  ~ In d (firstn m ls) /\ exists r, skipn m ls = d :: r.
Proof.
  revert m; induction ls as [|l ls IH]; intros m; simpl; [discriminate|].
  destruct (str_eqb_spec l d) as [->|Hn].
  - intros H; injection H as <-. split; [intros []|exists ls; reflexivity].
  - destruct (find_line d ls) as [k|]; simpl; [|discriminate]. intros H; injection H as <-.
    destruct (IH k eq_refl) as [H1 [r H2]]. split; [|exists r; exact H2].
    simpl. intros [H|H]; [congruence|exact (H1 H)].
Qed.

Lemma find_line_none d ls : find_line d ls = None <-> ~ In d ls.
Proof.
  induction ls as [|l ls IH]; simpl; [tauto|].
  destruct (str_eqb_spec l d) as [->|Hn]; [split; [discriminate|tauto]|].
  destruct (find_line d ls) as [k|]; simpl; [split; [discriminate|]|].
  - intros H. exfalso. destruct IH as [_ IH]. assert (Some k = None) by (apply IH; tauto). discriminate.
  - split; [|reflexivity]. intros _ [H|H]; [congruence|]. destruct IH as [IH _]. exact (IH eq_refl H).
Qed.

Lemma find_line_app d ls r : ~ In d ls -> find_line d (ls ++ d :: r) = Some (length ls).
Proof.
  induction ls as [|l ls IH]; simpl; intros H.
  - rewrite str_eqb_refl. reflexivity.
  - destruct (str_eqb_spec l d) as [->|Hn]; [tauto|]. rewrite IH by tauto. reflexivity.
Qed.

Lemma find_line_ext d ls C m : find_line d ls = Some m -> find_line d (ls ++ C) = Some m.
Proof.
  revert m; induction ls as [|l ls IH]; intros m; simpl; [discriminate|].
  destruct (str_eqb l d); [auto|]. destruct (find_line d ls) as [k|]; simpl; [|discriminate].
  intros H; injection H as <-. rewrite (IH k eq_refl). reflexivity.
Qed.

Lemma find_line_le d ls m : find_line d ls = Some m -> m < length ls.
Proof.
  revert m; induction ls as [|l ls IH]; intros m; simpl; [discriminate|].
  destruct (str_eqb l d); [intros H; injection H as <-; lia|].
  destruct (find_line d ls) as [k|]; simpl; [|discriminate]. intros H; injection H as <-.
  specialize (IH k eq_refl). lia.
Qed.

(* The lines from the current one on. *)
Definition rest (tb : tbuf) : list str := skipn (tb_line tb) (tb_lines tb).

(* A buffer at column 0 of a line of its source. *)
Definition bol (tb : tbuf) : Prop := tb_column tb = 0 /\ tb_line tb <= length (tb_lines tb).

(* The buffer moved n lines further. *)
Definition move (tb : tbuf) (n : nat) : tbuf :=
  match n with
  | 0 => tb
  | S _ => mkTbuf (tb_lines tb) (tb_line tb + n) 0 (tb_start_line tb) 0 (tb_source tb)
  end.

Lemma rest_cons tb l r : rest tb = l :: r ->
  current_line tb = l /\ tb_line tb < length (tb_lines tb) /\ rest (nextline tb) = r.
Proof.
  unfold rest, current_line. intros H. destruct (nth_skipn_cons _ _ _ _ H) as (H1 & H2 & H3).
  split; [exact H1|]. split; [exact H2|]. unfold nextline; cbn [tb_line tb_lines].
  destruct (Nat.leb_spec (tb_line tb) (length (tb_lines tb))); [exact H3|lia].
Qed.

Lemma rest_nil tb : bol tb -> rest tb = [] -> tb_eof tb = true.
Proof.
  intros [_ Hb]. unfold rest, tb_eof. intros H. apply skipn_nil_len in H.
  destruct (tb_lines tb); [reflexivity|]. destruct (_ && _); [reflexivity|]. apply Nat.leb_le; exact H.
Qed.

Lemma rest_eof tb : bol tb ->
  tb_eof tb = match rest tb with [] => true | [[]] => true | _ => false end.
Proof.
  intros Hb. destruct (rest tb) as [|l r] eqn:E; [apply rest_nil; assumption|].
  destruct (rest_cons _ _ _ E) as (H1 & H2 & H3). destruct Hb as [Hc Hb].
  unfold tb_eof. destruct (tb_lines tb) as [|l0 ls0] eqn:El; [simpl in H2; lia|]. rewrite <- El in *.
  rewrite H1, Hc. unfold rest in H3, E.
  assert (Hlen : length (tb_lines tb) - tb_line tb = S (length r)).
  { apply (f_equal (@length str)) in E. rewrite skipn_length in E. simpl in E. exact E. }
  replace (length (tb_lines tb) <=? tb_line tb) with false by (symmetry; apply Nat.leb_gt; lia).
  destruct l as [|a l]; cbn [length Nat.leb]; rewrite ?andb_false_r, ?andb_true_r.
  - destruct r; simpl in Hlen; destruct (Nat.eqb_spec (S (tb_line tb)) (length (tb_lines tb))); auto; lia.
  - destruct r; reflexivity.
Qed.

Lemma not_eof_rest tb : bol tb -> tb_eof tb = false ->
  exists r, rest tb = current_line tb :: r /\ tb_line tb < length (tb_lines tb) /\ rest (nextline tb) = r.
Proof.
  intros Hb He. rewrite (rest_eof _ Hb) in He. destruct (rest tb) as [|l r] eqn:E; [discriminate|].
  destruct (rest_cons _ _ _ E) as (H1 & H2 & H3). exists r. rewrite H1. auto.
Qed.

Lemma bol_nextline tb : tb_line tb < length (tb_lines tb) -> bol (nextline tb).
Proof.
  intros H. unfold bol, nextline; cbn [tb_column tb_line tb_lines].
  destruct (Nat.leb_spec (tb_line tb) (length (tb_lines tb))); lia.
Qed.

Lemma nextline_move tb n : tb_line tb < length (tb_lines tb) -> move (nextline tb) n = move tb (S n).
Proof.
  intros H. unfold nextline, move.
  destruct (Nat.leb_spec (tb_line tb) (length (tb_lines tb))); [|lia].
  destruct n; cbn [tb_lines tb_line tb_start_line tb_source]; f_equal; lia.
Qed.

Lemma block_lines_spec d : d <> [] -> forall n err tb, bol tb -> length (rest tb) <= n ->
  block_lines n err d tb =
  match find_line d (rest tb) with
  | Some m => Ok (firstn m (rest tb), move tb m)
  | None => Exc err
  end.
Proof.
  intros Hd n err. induction n as [|n IH]; intros tb Hb Hn.
  - destruct (rest tb) eqn:E; [|simpl in Hn; lia]. cbn [block_lines].
    rewrite (rest_nil _ Hb E). reflexivity.
  - cbn [block_lines]. rewrite (rest_eof _ Hb). destruct (rest tb) as [|l r] eqn:E; [reflexivity|].
    destruct (rest_cons _ _ _ E) as (H1 & H2 & H3). cbn [find_line].
    assert (Hcase : (match l :: r with [] => true | [[]] => true | _ => false end) = true -> l = [] /\ r = []).
    { destruct l, r; try discriminate; auto. }
    destruct (match l :: r with [] => true | [[]] => true | _ => false end).
    + destruct (Hcase eq_refl) as [-> ->]. cbn [find_line].
      destruct (str_eqb_spec [] d) as [<-|_]; [congruence|reflexivity].
    + rewrite H1. destruct (str_eqb_spec l d) as [->|Hne]; [reflexivity|].
      rewrite IH, H3; [|apply bol_nextline; exact H2|rewrite H3; simpl in Hn; lia].
      destruct (find_line d r) as [m|]; [|reflexivity]. cbn [option_map rbind fst snd firstn].
      rewrite nextline_move by exact H2. reflexivity.
Qed.

Lemma skip_to_slashes_spec n err : forall tb, bol tb -> length (rest tb) <= n ->
  skip_to_slashes n err tb =
  match find_line four_slashes (rest tb) with
  | Some m => Ok (move tb m)
  | None => Exc err
  end.
Proof.
  induction n as [|n IH]; intros tb Hb Hn.
  - destruct (rest tb) eqn:E; [|simpl in Hn; lia]. cbn [skip_to_slashes].
    rewrite (rest_nil _ Hb E). reflexivity.
  - cbn [skip_to_slashes]. rewrite (rest_eof _ Hb). destruct (rest tb) as [|l r] eqn:E; [reflexivity|].
    destruct (rest_cons _ _ _ E) as (H1 & H2 & H3). cbn [find_line].
    assert (Hcase : (match l :: r with [] => true | [[]] => true | _ => false end) = true -> l = [] /\ r = []).
    { destruct l, r; try discriminate; auto. }
    destruct (match l :: r with [] => true | [[]] => true | _ => false end).
    + destruct (Hcase eq_refl) as [-> ->]. reflexivity.
    + rewrite H1. destruct (str_eqb_spec l four_slashes) as [->|Hne]; [reflexivity|].
      rewrite IH, H3; [|apply bol_nextline; exact H2|rewrite H3; simpl in Hn; lia].
      destruct (find_line four_slashes r) as [m|]; [|reflexivity]. cbn [option_map].
      rewrite nextline_move by exact H2. reflexivity.
Qed.

Lemma rest_length tb : length (rest tb) <= length (tb_lines tb).
Proof. unfold rest. rewrite skipn_length. lia. Qed.

Lemma rest_move tb m : bol tb -> rest (move tb m) = skipn m (rest tb).
Proof.
  intros _. unfold rest, move. destruct m as [|m]; [reflexivity|]. cbn [tb_line tb_lines].
  apply skipn_add.
Qed.

Lemma move_lines tb m : tb_lines (move tb m) = tb_lines tb.
Proof. destruct m; reflexivity. Qed.
Lemma move_line tb m : tb_line (move tb m) = tb_line tb + m.
Proof. destruct m; simpl; lia. Qed.

(* ---- every function in terms of emit ---- *)
Lemma nextline_skip tb n : nextline (skip tb n) = nextline tb.
Proof. reflexivity. Qed.

Lemma nextline_emit script tb : nextline (snd (emit script tb)) = nextline tb.
Proof.
  revert tb; induction script as [|[[ty|] v] s IH]; intros tb; [reflexivity| |].
  - cbn [emit]. unfold create_token. specialize (IH (skip tb (length v))).
    destruct (emit s (skip tb (length v))). cbn [snd] in *. rewrite IH. reflexivity.
  - cbn [emit]. rewrite IH. reflexivity.
Qed.

(* A one-line rule: regexp, script built from the captures, and which of the
   emitted tokens are kept. *)
Definition line_rule (re : list ritem) (script : captures -> list (option token_type * str))
    (keep : captures -> list token -> list token) : lexfn := fun tb =>
  match rmatch re (current_line tb) with
  | None => Ok None
  | Some cs => Ok (Some (keep cs (fst (emit (script cs) tb)), nextline tb))
  end.

Definition all_kept (cs : captures) (ts : list token) : list token := ts.
(* keep the first two tokens, and the others if their text is not empty *)
Definition keep_34 (i j : nat) (cs : captures) (ts : list token) : list token :=
  match ts with
  | [t1; t2; t3; t4] => [t1; t2] ++ keep_if (group cs i) t3 ++ keep_if (group cs j) t4
  | _ => ts
  end.

Ltac rule_eq re := unfold line_rule; destruct (rmatch re _); reflexivity.

Lemma dl_comment_rule tb : dl_comment tb =
  line_rule [RLit (lit "//"); RRep any_chr 0] (fun _ => []) all_kept tb.
Proof. reflexivity. Qed.
Lemma dl_hr_rule tb : dl_horizontal_rule tb =
  line_rule [RLit (lit "---"); REnd] (fun _ => [(Some T_HORIZONTAL_RULE, current_line tb)]) all_kept tb.
Proof. unfold dl_horizontal_rule. rule_eq ([RLit (lit "---"); REnd]). Qed.
Lemma dl_control_rule tb : dl_control tb =
  line_rule control_re (fun cs => [(Some T_CONTROL, group cs 0); (Some T_TEXT, group cs 1);
                                   (None, group cs 2); (Some T_TEXT, group cs 3)]) all_kept tb.
Proof. unfold dl_control. rule_eq control_re. Qed.
Lemma dl_include_rule tb : dl_include tb =
  line_rule include_re (fun cs => [(Some T_INCLUDE, group cs 0); (None, group cs 1);
       (Some T_TEXT, group cs 2); (Some T_LITERAL, group cs 3); (Some T_TEXT, group cs 4)]) (keep_34 3 4) tb.
Proof. unfold dl_include. rule_eq include_re. Qed.
Lemma dl_variable_rule tb : dl_variable tb =
  line_rule variable_re (fun cs => [(Some T_VARIABLE, group cs 0);
       (Some T_TEXT, group cs 1); (Some T_LITERAL, group cs 2); (Some T_TEXT, group cs 3)]) (keep_34 2 3) tb.
Proof. unfold dl_variable. rule_eq variable_re. Qed.
Lemma dl_arguments_rule tb : dl_arguments tb =
  line_rule arguments_re (fun cs => [(Some T_ARGUMENTS, group cs 0);
       (Some T_TEXT, group cs 1); (Some T_LITERAL, group cs 2)]) all_kept tb.
Proof. unfold dl_arguments. rule_eq arguments_re. Qed.
Lemma dl_label_rule tb : dl_label tb =
  line_rule label_re (fun cs => [(Some T_LABEL, group cs 0 ++ group cs 1); (None, group cs 2);
       (Some T_TEXT, group cs 3)]) all_kept tb.
Proof. unfold dl_label. rule_eq label_re. Qed.
Lemma dl_list_rule tb : dl_list tb =
  line_rule list_re (fun cs => [(None, group cs 0); (Some T_LIST, group cs 1); (None, group cs 2);
       (Some T_TEXT, group cs 3)]) all_kept tb.
Proof. unfold dl_list. rule_eq list_re. Qed.
Lemma dl_header_rule tb : dl_header tb =
  line_rule header_re (fun cs => [(Some T_HEADER, group cs 0); (None, group cs 1);
       (Some T_TEXT, group cs 2)]) all_kept tb.
Proof. unfold dl_header. rule_eq header_re. Qed.
(* _process_text as a rule that always applies (at column 0) *)
Lemma dl_text_rule tb : col0 tb -> process_text tb =
  line_rule [] (fun _ => [(Some T_TEXT, current_line tb)]) all_kept tb.
Proof. intros H. unfold process_text. rewrite (tail_col0 _ H). reflexivity. Qed.

(* The script of a rule reads a prefix of the line. *)
Definition script_reads (re : list ritem) (script : captures -> list (option token_type * str)) : Prop :=
  forall s cs, rmatch re s = Some cs -> exists r, s = script_text (script cs) ++ r.

Ltac reads_tac := intros s cs H;
  pose proof (rmatch_length _ _ _ H) as Hl; pose proof (rmatch_prefix _ _ _ H) as [r Hr];
  simpl in Hl; repeat (destruct cs as [|? cs]; simpl in Hl; try discriminate);
  unfold caps_text in Hr; cbn [map concat_str] in Hr;
  unfold script_text, group; cbn [map snd nth concat_str];
  rewrite Hr; rewrite <- ?app_assoc; cbn [app];
  eexists; rewrite <- ?app_assoc; cbn [app]; reflexivity.

Lemma control_reads : script_reads control_re (fun cs => [(Some T_CONTROL, group cs 0); (Some T_TEXT, group cs 1);
                                   (None, group cs 2); (Some T_TEXT, group cs 3)]).
Proof. reads_tac. Qed.
Lemma include_reads : script_reads include_re (fun cs => [(Some T_INCLUDE, group cs 0); (None, group cs 1);
       (Some T_TEXT, group cs 2); (Some T_LITERAL, group cs 3); (Some T_TEXT, group cs 4)]).
Proof. reads_tac. Qed.
Lemma variable_reads : script_reads variable_re (fun cs => [(Some T_VARIABLE, group cs 0);
       (Some T_TEXT, group cs 1); (Some T_LITERAL, group cs 2); (Some T_TEXT, group cs 3)]).
Proof. reads_tac. Qed.
Lemma arguments_reads : script_reads arguments_re (fun cs => [(Some T_ARGUMENTS, group cs 0);
       (Some T_TEXT, group cs 1); (Some T_LITERAL, group cs 2)]).
Proof. reads_tac. Qed.
Lemma label_reads : script_reads label_re (fun cs => [(Some T_LABEL, group cs 0 ++ group cs 1); (None, group cs 2);
       (Some T_TEXT, group cs 3)]).
Proof. reads_tac. Qed.
Lemma list_reads : script_reads list_re (fun cs => [(None, group cs 0); (Some T_LIST, group cs 1); (None, group cs 2);
       (Some T_TEXT, group cs 3)]).
Proof. reads_tac. Qed.
Lemma header_reads : script_reads header_re (fun cs => [(Some T_HEADER, group cs 0); (None, group cs 1);
       (Some T_TEXT, group cs 2)]).
Proof. reads_tac. Qed.

(* ---- goodness ---- *)
Section Good.
  Variables (lines : list str) (sl sc : nat) (src : option str).
  Notation wf := (wf lines sl sc src).
  Notation step_ok := (step_ok lines sl sc src).
  Notation toks_in := (tokens_in lines sl sc src).

  Definition keep_good (keep : captures -> list token -> list token) : Prop :=
    forall cs ts p q, toks_in ts p q -> toks_in (keep cs ts) p q.

  Lemma all_kept_good : keep_good all_kept.
  Proof. intros cs ts p q H; exact H. Qed.

  Lemma keep_if_good v t ts us p q : toks_in (ts ++ t :: us) p q -> toks_in (ts ++ keep_if v t ++ us) p q.
  Proof. destruct v; simpl; [apply toks_in_drop|auto]. Qed.

  Lemma keep_34_good i j : keep_good (keep_34 i j).
  Proof.
    intros cs ts p q H. unfold keep_34. destruct ts as [|t1 [|t2 [|t3 [|t4 [|]]]]]; auto.
    assert (H1 := keep_if_good (group cs i) t3 [t1; t2] [t4] p q H).
    assert (H2 := keep_if_good (group cs j) t4 ([t1; t2] ++ keep_if (group cs i) t3) [] p q).
    rewrite <- app_assoc in H2. specialize (H2 H1). rewrite app_nil_r in H2.
    rewrite <- app_assoc in H2. exact H2.
  Qed.

  Definition fn_good (f : lexfn) : Prop :=
    forall tb toks tb', col0 tb -> wf tb -> tb_eof tb = false ->
      f tb = Ok (Some (toks, tb')) -> step_ok tb toks tb' /\ col0 tb'.

  Definition keeps_types (keep : captures -> list token -> list token) : Prop :=
    forall cs ts, no_eof ts -> no_eof (keep cs ts).

  Lemma keep_34_types i j : keeps_types (keep_34 i j).
  Proof.
    intros cs ts H. unfold keep_34. destruct ts as [|t1 [|t2 [|t3 [|t4 [|]]]]]; auto.
    unfold no_eof in *. rewrite !Forall_cons_iff in H.
    destruct H as (H1 & H2 & H3 & H4 & _).
    repeat constructor; auto. apply Forall_app; split; destruct (group cs _); repeat constructor; auto.
  Qed.

  Lemma emit_no_eof script tb : Forall (fun x => fst x <> Some T_EOF) script ->
    no_eof (fst (emit script tb)).
  Proof.
    revert tb; induction script as [|[[ty|] v] s IH]; intros tb H; [constructor| |];
      inversion H as [|x y Hx Hs]; subst.
    - cbn [emit]. destruct (create_token tb ty v) as [t tb'] eqn:E. destruct (emit s tb') as [ts tb''] eqn:E2.
      cbn [fst]. constructor.
      + injection E as <- <-. simpl in *. congruence.
      + specialize (IH tb' Hs). rewrite E2 in IH. exact IH.
    - cbn [emit]. apply IH; exact Hs.
  Qed.

  Lemma rule_good re script keep : script_reads re script -> keep_good keep -> keeps_types keep ->
    (forall cs, Forall (fun x => fst x <> Some T_EOF) (script cs)) ->
    fn_good (line_rule re script keep).
  Proof.
    intros Hre Hk Hkt Hty tb toks tb' Hc Hwf He. unfold line_rule.
    destruct (rmatch re (current_line tb)) as [cs|] eqn:E; [|discriminate].
    intros H; injection H as <- <-. destruct (Hre _ _ E) as [r Hr].
    rewrite <- (tail_col0 _ Hc) in Hr.
    destruct (emit_spec lines sl sc src (script cs) tb r Hwf Hr) as (H1 & H2 & H3 & H4 & H5).
    rewrite <- (nextline_emit (script cs) tb).
    apply nextline_step; auto. apply Hkt. apply emit_no_eof. apply Hty.
  Qed.

  Lemma fn_good_ext f g : (forall tb, col0 tb -> f tb = g tb) -> fn_good g -> fn_good f.
  Proof. intros H Hg tb toks tb' Hc Hwf He Hf. rewrite (H _ Hc) in Hf. eapply Hg; eauto. Qed.

  Lemma whole_line_good ty : ty <> T_EOF -> forall re,
    fn_good (fun tb => line_rule re (fun _ => [(Some ty, current_line tb)]) all_kept tb).
  Proof.
    intros Hty re tb toks tb' Hc Hwf He. unfold line_rule.
    destruct (rmatch re (current_line tb)) as [cs|] eqn:E; [|discriminate].
    intros H; injection H as <- <-.
    assert (Hr : tail tb = script_text [(Some ty, current_line tb)] ++ []).
    { rewrite (tail_col0 _ Hc). unfold script_text; simpl. rewrite !app_nil_r. reflexivity. }
    destruct (emit_spec lines sl sc src _ tb _ Hwf Hr) as (H1 & H2 & H3 & H4 & H5).
    match goal with |- context [nextline tb] => rewrite <- (nextline_emit [(Some ty, current_line tb)] tb) end.
    apply nextline_step; auto.
    apply (emit_no_eof [(Some ty, current_line tb)] tb). repeat constructor. simpl; congruence.
  Qed.

  Lemma wf_bol tb : wf tb -> col0 tb -> bol tb.
  Proof. intros (H1 & H2 & H3 & H4 & H5 & H6) Hc. split; [exact Hc|]. rewrite H1; exact H5. Qed.

  Lemma wf_move tb m : wf tb -> col0 tb -> tb_line tb + m <= length lines -> wf (move tb m).
  Proof.
    intros Hwf Hc Hm. destruct m as [|m]; [exact Hwf|].
    destruct Hwf as (H1 & H2 & H3 & H4 & H5 & H6). unfold wf, move; cbn. unfold current_line; cbn.
    repeat split; auto; try lia. destruct (Nat.eqb_spec (tb_line tb + S m) 0); [lia|reflexivity].
  Qed.

  Lemma col0_move tb m : col0 tb -> col0 (move tb m).
  Proof. intros H. destruct m; [exact H|reflexivity]. Qed.

  Lemma multiline_good : fn_good dl_multiline_comment.
  Proof.
    intros tb toks tb' Hc Hwf He. unfold dl_multiline_comment.
    destruct (str_eqb_spec (current_line tb) four_slashes) as [Hcur|]; [|discriminate]. cbn [negb].
    pose proof (not_eof_line _ _ _ _ _ Hwf He) as Hlt.
    assert (HL : tb_lines tb = lines) by apply Hwf.
    assert (Hb : bol (nextline tb)) by (apply bol_nextline; rewrite HL; exact Hlt).
    rewrite skip_to_slashes_spec; [|exact Hb|pose proof (rest_length (nextline tb)) as Hrl; change (tb_lines (nextline tb)) with (tb_lines tb) in Hrl; lia].
    destruct (find_line four_slashes (rest (nextline tb))) as [m|] eqn:Ef; [|discriminate].
    cbn [rbind]. intros H; injection H as <- <-.
    apply find_line_le in Ef. unfold rest in Ef. rewrite skipn_length in Ef.
    destruct (nextline_line lines sl sc src tb Hwf Hlt) as [K1 K2].
    rewrite K1 in Ef. change (tb_lines (nextline tb)) with (tb_lines tb) in Ef. rewrite HL in Ef.
    assert (Hwn : wf (nextline tb)) by (apply wf_nextline; assumption).
    assert (Hwm : wf (move (nextline tb) m)) by (apply wf_move; [exact Hwn|exact K2|rewrite K1; lia]).
    assert (Hlm : tb_line (move (nextline tb) m) < length lines) by (rewrite move_line, K1; lia).
    destruct (nextline_line lines sl sc src _ Hwm Hlm) as [M1 M2].
    rewrite move_line, K1 in M1.
    split; [|exact M2]. split; [apply wf_nextline; assumption|].
    split; [left; split; [rewrite M1; lia|exact M2]|]. split; [|constructor].
    left. unfold raw; cbn [fst]. rewrite M1. lia.
  Qed.

  Lemma slice_block i m : i + m < length lines -> 0 < m ->
    join [NL] (firstn m (skipn i lines)) =
    slice lines (i, 0) (i + m - 1, length (nth (i + m - 1) lines [])).
  Proof.
    intros Hi Hm. unfold slice; cbn [fst snd].
    destruct (Nat.eqb_spec i (i + m - 1)) as [E|E].
    - assert (m = 1) as -> by lia. replace (i + 1 - 1) with i by lia.
      destruct (skipn i lines) as [|l r] eqn:Es; [apply skipn_nil_len in Es; lia|].
      destruct (nth_skipn_cons _ _ _ _ Es) as (H1 & _ & _). rewrite H1. cbn [firstn join skipn].
      rewrite Nat.sub_0_r, firstn_all. reflexivity.
    - rewrite firstn_all. cbn [skipn].
      destruct (skipn i lines) as [|l r] eqn:Es; [apply skipn_nil_len in Es; lia|].
      destruct (nth_skipn_cons _ _ _ _ Es) as (H1 & _ & H3). rewrite H1.
      f_equal. destruct m as [|m]; [lia|]. cbn [firstn]. cbn [app]. f_equal.
      change (match lines with [] => [] | _ :: l0 => skipn i l0 end) with (skipn (S i) lines). rewrite H3.
      replace (i + S m - 1 - i - 1) with (m - 1) by lia. replace (i + S m - 1) with (i + m) by lia.
      destruct m as [|m]; [lia|]. replace (S m - 1) with m by lia.
      assert (Hr : length r = length lines - S i) by (rewrite <- H3, skipn_length; reflexivity).
      replace (nth (i + S m) lines []) with (nth m r []).
      + clear - Hr Hi. assert (Hm : m < length r) by lia. clear Hi Hr. revert r Hm.
        induction m as [|m IH]; intros [|x r] Hm; simpl in Hm; try lia.
        * reflexivity.
        * cbn [firstn nth app]. f_equal. apply IH. lia.
      + rewrite <- H3. rewrite <- (firstn_skipn (S i) lines) at 2. rewrite app_nth2; rewrite firstn_length; [|lia].
        f_equal. lia.
  Qed.

  Lemma block_good : fn_good dl_block.
  Proof.
    intros tb toks tb' Hc Hwf He. unfold dl_block.
    destruct (is_fence (current_line tb)) eqn:Hf; [|discriminate]. cbn [negb].
    pose proof (not_eof_line _ _ _ _ _ Hwf He) as Hlt.
    assert (HL : tb_lines tb = lines) by apply Hwf.
    set (d := current_line tb) in *.
    assert (Hd : d <> []) by (intros E; rewrite E in Hf; discriminate).
    assert (Ht : tail tb = d ++ []) by (rewrite (tail_col0 _ Hc), app_nil_r; reflexivity).
    pose proof (create_token_located lines sl sc src tb T_BLOCK d [] Hwf Ht) as H.
    destruct (create_token tb T_BLOCK d) as [t1 tb1].
    destruct H as (A1 & A2 & A3 & A4 & A5 & A6). rewrite A5.
    assert (Hlt1 : tb_line tb1 < length lines) by (rewrite A6; exact Hlt).
    set (tb2 := nextline tb1). remember (tb_position tb2) as ip eqn:Hip.
    destruct (nextline_line lines sl sc src tb1 A1 Hlt1) as [K1 K2]. fold tb2 in K1, K2.
    assert (Hl1 : tb_line tb1 = tb_line tb) by (rewrite A6; reflexivity). rewrite Hl1 in K1.
    assert (Hwn : wf tb2) by (apply wf_nextline; assumption).
    assert (HL2 : tb_lines tb2 = lines) by apply Hwn.
    assert (Hb : bol tb2) by (apply wf_bol; assumption).
    rewrite block_lines_spec; [|exact Hd|exact Hb|pose proof (rest_length tb2); rewrite HL2 in *; rewrite HL; lia].
    destruct (find_line d (rest tb2)) as [m|] eqn:Ef; [|discriminate]. cbn [rbind fst snd].
    pose proof (find_line_le _ _ _ Ef) as Hm. unfold rest in Hm. rewrite skipn_length, K1, HL2 in Hm.
    destruct (find_line_some _ _ _ Ef) as [_ [r Hr]].
    set (tb3 := move tb2 m) in *.
    assert (Hwm : wf tb3) by (apply wf_move; [exact Hwn|exact K2|rewrite K1; lia]).
    assert (Hc3 : col0 tb3) by (apply col0_move; exact K2).
    assert (Hl3 : tb_line tb3 = S (tb_line tb) + m) by (unfold tb3; rewrite move_line, K1; reflexivity).
    rewrite <- (rest_move tb2 m Hb) in Hr. fold tb3 in Hr. destruct (rest_cons _ _ _ Hr) as (C1 & C2 & C3).
    rewrite C1.
    assert (Ht3 : tail tb3 = d ++ []) by (rewrite (tail_col0 _ Hc3), app_nil_r; exact C1).
    pose proof (create_token_located lines sl sc src tb3 T_BLOCK d [] Hwm Ht3) as H.
    destruct (create_token tb3 T_BLOCK d) as [t3 tb4].
    destruct H as (B1 & B2 & B3 & B4 & B5 & B6).
    assert (Hcur4 : current_line tb4 = d) by (rewrite B6; exact C1). rewrite Hcur4.
    assert (Ht3eq : mkToken T_BLOCK d (t_ctx t3) = t3).
    { destruct t3 as [ty v c]; simpl in *; subst; reflexivity. }
    rewrite Ht3eq. intros H; injection H as <- <-.
    assert (Hlt4 : tb_line tb4 < length lines) by (rewrite B6; unfold skip; cbn; rewrite Hl3; lia).
    destruct (nextline_line lines sl sc src tb4 B1 Hlt4) as [N1 N2].
    assert (Hl4 : tb_line tb4 = tb_line tb3) by (rewrite B6; reflexivity).
    rewrite Hl4, Hl3 in N1.
    split; [|exact N2].
    split; [apply wf_nextline; assumption|].
    split; [left; split; [rewrite N1; lia|exact N2]|].
    set (content := match firstn m (rest tb2) with [] => [] | _ => _ end).
    assert (Hrest2 : rest tb2 = skipn (S (tb_line tb)) lines) by (unfold rest; rewrite HL2, K1; reflexivity).
    assert (Hcontent : toks_in content (raw tb2) (raw tb3) /\ no_eof content).
    { unfold content. destruct (firstn m (rest tb2)) as [|l0 ls0] eqn:Ec.
      - split; [|constructor]. right. unfold raw; cbn [fst snd]. rewrite K1, Hl3, K2, Hc3.
        assert (m = 0).
        { apply (f_equal (@length str)) in Ec. rewrite firstn_length, Hrest2, skipn_length in Ec. simpl in Ec. lia. }
        lia.
      - rewrite <- Ec. split; [|constructor; [discriminate|constructor]].
        assert (Hm0 : 0 < m) by (destruct m; [discriminate|lia]).
        assert (Hlen : length (firstn m (rest tb2)) = m) by (rewrite firstn_length, Hrest2, skipn_length; lia).
        set (i := S (tb_line tb)) in *.
        assert (Hlast : last (firstn m (rest tb2)) [] = nth (i + m - 1) lines []).
        { rewrite Hrest2. clear - Hm Hm0. assert (Him : i + m <= length lines) by lia. clear Hm.
          destruct m as [|m]; [lia|]. replace (i + S m - 1) with (i + m) by lia.
          assert (Hs : length (skipn i lines) = length lines - i) by apply skipn_length.
          replace (nth (i + m) lines []) with (nth m (skipn i lines) []).
          - assert (Hmm : m < length (skipn i lines)) by lia. clear - Hmm.
            revert Hmm. generalize (skipn i lines). induction m as [|m IH]; intros [|x l] H; simpl in H; try lia.
            + reflexivity.
            + specialize (IH l ltac:(lia)). change (firstn (S (S m)) (x :: l)) with (x :: firstn (S m) l). cbn [nth]. rewrite <- IH.
              destruct (firstn (S m) l) eqn:E; [destruct l; simpl in *; [lia|discriminate]|]. reflexivity.
          - rewrite <- (firstn_skipn i lines) at 2. rewrite app_nth2; rewrite firstn_length; [|lia].
            f_equal. lia. }
        exists (i, 0), (i + m - 1, length (nth (i + m - 1) lines [])).
        split; [right; unfold raw; cbn [fst snd]; rewrite K1, K2; split; [reflexivity|lia]|].
        split.
        + unfold located. cbn [t_value t_ctx c_start_line c_start_column c_end_line c_end_column c_source].
          split; [split; cbn [fst snd]; lia|]. split; [split; cbn [fst snd]; lia|].
          split; [unfold pos_le; cbn [fst snd]; lia|].
          split; [rewrite Hrest2; apply slice_block; lia|].
         rewrite Hip, (wf_position _ _ _ _ _ Hwn). rewrite Hlast, Hlen. unfold shifted, raw; cbn [fst snd].
          rewrite K1, K2. fold i. cbn [Nat.eqb]. unfold i at 1 2. cbn [Nat.eqb].
          destruct (Nat.eqb_spec (i + m - 1) 0) as [E0|E0]; [unfold i in E0; lia|].
          split; [f_equal; unfold i; cbn [Nat.eqb]; lia|]. split; [f_equal; unfold i; cbn [Nat.eqb]; lia|].
          apply Hwf.
        + left. unfold raw; cbn [fst]. rewrite Hl3. fold i. lia. }
    destruct Hcontent as [Hc1 Hc2].
    split.
    - exists (raw tb), (raw tb1). split; [apply pos_le_refl|]. split; [exact A2|].
      apply (toks_in_widen _ _ _ _ _ (raw tb2) (raw tb1) (raw tb4) _);
        [left; unfold raw; cbn [fst]; rewrite Hl1, K1; lia| |left; unfold raw; cbn [fst]; rewrite N1, Hl4, Hl3; lia].
      eapply toks_in_app; [exact Hc1|].
      exists (raw tb3), (raw tb4). split; [apply pos_le_refl|]. split; [exact B2|apply pos_le_refl].
    - constructor; [rewrite A4; discriminate|]. apply Forall_app; split; [exact Hc2|].
      constructor; [rewrite B4; discriminate|constructor].
  Qed.

  Lemma doc_fns_good : Forall fn_good doc_lexer_fns.
  Proof.
    unfold doc_lexer_fns.
    repeat match goal with |- Forall _ (_ :: _) => apply Forall_cons end; try apply Forall_nil.
    - exact multiline_good.
    - eapply fn_good_ext; [intros tb _; apply dl_comment_rule|].
      apply rule_good; [|apply all_kept_good|intros cs ts H; exact H|repeat constructor].
      intros s cs H. exists s; reflexivity.
    - eapply fn_good_ext; [intros tb _; apply dl_hr_rule|]. apply whole_line_good; discriminate.
    - exact block_good.
    - eapply fn_good_ext; [intros tb _; apply dl_control_rule|].
      apply rule_good; [apply control_reads|apply all_kept_good|intros cs ts H; exact H|].
      intros cs; repeat constructor; discriminate.
    - eapply fn_good_ext; [intros tb _; apply dl_include_rule|].
      apply rule_good; [apply include_reads|apply keep_34_good|apply keep_34_types|].
      intros cs; repeat constructor; discriminate.
    - eapply fn_good_ext; [intros tb _; apply dl_variable_rule|].
      apply rule_good; [apply variable_reads|apply keep_34_good|apply keep_34_types|].
      intros cs; repeat constructor; discriminate.
    - eapply fn_good_ext; [intros tb _; apply dl_arguments_rule|].
      apply rule_good; [apply arguments_reads|apply all_kept_good|intros cs ts H; exact H|].
      intros cs; repeat constructor; discriminate.
    - eapply fn_good_ext; [intros tb _; apply dl_label_rule|].
      apply rule_good; [apply label_reads|apply all_kept_good|intros cs ts H; exact H|].
      intros cs; repeat constructor; discriminate.
    - eapply fn_good_ext; [intros tb _; apply dl_list_rule|].
      apply rule_good; [apply list_reads|apply all_kept_good|intros cs ts H; exact H|].
      intros cs; repeat constructor; discriminate.
    - eapply fn_good_ext; [intros tb _; apply dl_header_rule|].
      apply rule_good; [apply header_reads|apply all_kept_good|intros cs ts H; exact H|].
      intros cs; repeat constructor; discriminate.
    - eapply fn_good_ext; [intros tb Hc; apply (dl_text_rule tb Hc)|]. apply whole_line_good; discriminate.
  Qed.

  Lemma run_fns_good fns : Forall fn_good fns -> forall tb toks tb', col0 tb -> wf tb -> tb_eof tb = false ->
    run_functions (fns ++ [process_error]) tb = Ok (toks, tb') -> step_ok tb toks tb' /\ col0 tb'.
  Proof.
    induction fns as [|f fns IH]; intros HF tb toks tb' Hc Hwf He; cbn [app run_functions].
    - unfold process_error. discriminate.
    - inversion HF as [|x y Hf Hfs]; subst.
      destruct (f tb) as [[[ts u]|]|e] eqn:E; cbn [rbind]; [| |discriminate].
      + intros H; injection H as <- <-. eapply Hf; eauto.
      + apply IH; assumption.
  Qed.

  Lemma doc_good : good lines sl sc src col0 doc_lexer_fns.
  Proof.
    apply base_good; [left; auto|auto|].
    intros tb toks tb' Hc Hwf He _ _ Hr. exact (run_fns_good _ doc_fns_good tb toks tb' Hc Hwf He Hr).
  Qed.
End Good.
