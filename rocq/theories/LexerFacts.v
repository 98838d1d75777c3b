(* LexerFacts.v -- the lexer driver: progress, termination, positions *)
From Verif Require Export Lexer SpecLexer.

Arguments nextline tb : simpl never.
Arguments skip tb chars : simpl never.

Section Driver.
  Variables (lines : list str) (sl sc : nat) (src : option str).

  (* A buffer over the given lines, in a sane position. *)
  Definition wf (tb : tbuf) : Prop :=
    tb_lines tb = lines /\ tb_start_line tb = sl /\ tb_source tb = src /\
    tb_start_column tb = (if tb_line tb =? 0 then sc else 0) /\
    tb_line tb <= length lines /\ tb_column tb <= length (current_line tb).

  Definition raw (tb : tbuf) : position := (tb_line tb, tb_column tb).

  Definition adv (tb tb' : tbuf) : Prop :=
    (tb_line tb < tb_line tb' /\ tb_column tb' = 0) \/
    (tb_line tb' = tb_line tb /\ tb_column tb < tb_column tb').

  Lemma wf_position tb : wf tb -> tb_position tb = shifted sl sc (raw tb).
  Proof.
    intros (H1 & H2 & H3 & H4 & H5 & H6). unfold tb_position, shifted, raw; simpl.
    rewrite H2, H4. reflexivity.
  Qed.

  Lemma not_eof_line tb : wf tb -> tb_eof tb = false -> tb_line tb < length lines.
  Proof.
    intros (H1 & _ & _ & _ & H5 & _). unfold tb_eof. rewrite H1.
    destruct lines as [|l ls] eqn:E; [discriminate|].
    destruct (_ && _); [discriminate|]. intros H. lia.
  Qed.

  Lemma wf_nextline tb : wf tb -> tb_line tb < length lines -> wf (nextline tb).
  Proof.
    intros (H1 & H2 & H3 & H4 & H5 & H6) Hl. unfold wf, nextline, current_line; simpl.
    rewrite H1. destruct (Nat.leb_spec (tb_line tb) (length lines)); [|lia].
    repeat split; auto; try lia.
  Qed.

  Lemma nextline_line tb : wf tb -> tb_line tb < length lines ->
    tb_line (nextline tb) = S (tb_line tb) /\ tb_column (nextline tb) = 0.
  Proof.
    intros (H1 & _) Hl. unfold nextline; simpl. rewrite H1.
    destruct (Nat.leb_spec (tb_line tb) (length lines)); [auto|lia].
  Qed.

  Lemma current_line_skip tb n : current_line (skip tb n) = current_line tb.
  Proof. reflexivity. Qed.

  Lemma wf_skip tb n : wf tb -> tb_column tb + n <= length (current_line tb) -> wf (skip tb n).
  Proof.
    intros (H1 & H2 & H3 & H4 & H5 & H6) Hn. unfold wf, skip; simpl.
    repeat split; auto.
  Qed.

  Lemma valid_raw tb : wf tb -> valid_pos lines (raw tb).
  Proof.
    intros (H1 & H2 & H3 & H4 & H5 & H6). unfold valid_pos, raw, current_line in *; simpl.
    rewrite H1 in H6. auto.
  Qed.

  Lemma pos_le_refl p : pos_le p p.
  Proof. right; auto. Qed.

  Lemma pos_le_trans p q r : pos_le p q -> pos_le q r -> pos_le p r.
  Proof. unfold pos_le; intros; lia. Qed.

  Notation toks_in := (tokens_in lines sl sc src).

  Lemma toks_in_le ts p q : toks_in ts p q -> pos_le p q.
  Proof.
    revert p; induction ts as [|t ts IH]; cbn [tokens_in]; intros p; [auto|].
    intros (a & b & Hp & Hl & Hr). destruct Hl as (_ & _ & Hab & _).
    eauto using pos_le_trans.
  Qed.

  Lemma toks_in_widen ts p p' q q' : pos_le p' p -> toks_in ts p q -> pos_le q q' -> toks_in ts p' q'.
  Proof.
    revert p p'; induction ts as [|t ts IH]; cbn [tokens_in]; intros p p' H1 H2 H3.
    - eauto using pos_le_trans.
    - destruct H2 as (a & b & Hp & Hl & Hr). exists a, b. split; [eauto using pos_le_trans|].
      split; [exact Hl|]. apply (IH b b); auto using pos_le_refl.
  Qed.

  Lemma toks_in_app ts us p q r : toks_in ts p q -> toks_in us q r -> toks_in (ts ++ us) p r.
  Proof.
    revert p; induction ts as [|t ts IH]; cbn [tokens_in app]; intros p H1 H2.
    - eapply toks_in_widen; eauto using pos_le_refl.
    - destruct H1 as (a & b & Hp & Hl & Hr). exists a, b. auto.
  Qed.

  Lemma toks_in_drop ts us t p q : toks_in (ts ++ t :: us) p q -> toks_in (ts ++ us) p q.
  Proof.
    revert p; induction ts as [|u ts IH]; cbn [tokens_in app]; intros p H.
    - destruct H as (a & b & Hp & Hl & Hr). destruct Hl as (_ & _ & Hab & _).
      eapply toks_in_widen; [|exact Hr|apply pos_le_refl]. eauto using pos_le_trans.
    - destruct H as (a & b & Hp & Hl & Hr). exists a, b. auto.
  Qed.

  Lemma slice_same l c n : slice lines (l, c) (l, c + n) = firstn n (skipn c (nth l lines [])).
  Proof. unfold slice; simpl. rewrite Nat.eqb_refl. f_equal. lia. Qed.

  (* Creating a token over the next characters of the line. *)
  Lemma create_token_located tb ty v rest : wf tb -> tail tb = v ++ rest ->
    let '(t, tb') := create_token tb ty v in
    wf tb' /\ located lines sl sc src t (raw tb) (raw tb') /\ tail tb' = rest /\
    t_type t = ty /\ t_value t = v /\ tb' = skip tb (length v).
  Proof.
    intros Hwf Ht. simpl.
    assert (Hlen : tb_column tb + length v <= length (current_line tb)).
    { assert (H := f_equal (@length N) Ht). unfold tail in H.
      rewrite skipn_length, app_length in H. destruct Hwf as (_ & _ & _ & _ & _ & Hc). lia. }
    assert (Hwf' : wf (skip tb (length v))) by (apply wf_skip; auto).
    split; [exact Hwf'|]. split; [|split; [|auto]].
    - repeat split; simpl.
      + apply (valid_raw tb Hwf).
      + apply (valid_raw tb Hwf).
      + apply (valid_raw _ Hwf').
      + apply (valid_raw _ Hwf').
      + right; simpl; split; [reflexivity|lia].
      + unfold raw; simpl. rewrite slice_same.
        replace (nth (tb_line tb) lines []) with (current_line tb)
          by (unfold current_line; destruct Hwf as (-> & _); reflexivity).
        fold (tail tb). rewrite Ht, firstn_app, Nat.sub_diag, firstn_all, firstn_O, app_nil_r.
        reflexivity.
      + rewrite <- (wf_position tb Hwf). reflexivity.
      + rewrite <- (wf_position _ Hwf'). reflexivity.
      + destruct Hwf as (_ & _ & -> & _); reflexivity.
    - unfold tail, skip; simpl. unfold current_line at 1; simpl. fold (current_line tb).
      rewrite skipn_add. fold (tail tb). rewrite Ht, skipn_app, skipn_all, Nat.sub_diag. reflexivity.
  Qed.

  Lemma skip_tail tb v rest : wf tb -> tail tb = v ++ rest ->
    wf (skip tb (length v)) /\ tail (skip tb (length v)) = rest /\
    pos_le (raw tb) (raw (skip tb (length v))).
  Proof.
    intros Hwf Ht. pose proof (create_token_located tb T_TEXT v rest Hwf Ht) as H. simpl in H.
    destruct H as (H1 & H2 & H3 & _). split; [exact H1|split; [exact H3|]].
    right; simpl; split; [reflexivity|lia].
  Qed.

  (* A sequence of token creations and skips on one line. *)
  Fixpoint emit (script : list (option token_type * str)) (tb : tbuf) : list token * tbuf :=
    match script with
    | [] => ([], tb)
    | (None, v) :: s => emit s (skip tb (length v))
    | (Some ty, v) :: s =>
        let '(t, tb') := create_token tb ty v in
        let '(ts, tb'') := emit s tb' in (t :: ts, tb'')
    end.

  Definition script_text (script : list (option token_type * str)) : str :=
    concat_str (map snd script).

  Lemma emit_spec script tb rest : wf tb -> tail tb = script_text script ++ rest ->
    wf (snd (emit script tb)) /\
    toks_in (fst (emit script tb)) (raw tb) (raw (snd (emit script tb))) /\
    tail (snd (emit script tb)) = rest /\
    tb_line (snd (emit script tb)) = tb_line tb /\
    tb_column (snd (emit script tb)) = tb_column tb + length (script_text script).
  Proof.
    revert tb; induction script as [|[[ty|] v] s IH]; intros tb Hwf Ht.
    - simpl in *. repeat split; auto using pos_le_refl; try apply Hwf; lia.
    - cbn [emit]. unfold script_text in Ht; cbn [map snd concat_str] in Ht. rewrite <- app_assoc in Ht.
      pose proof (create_token_located tb ty v _ Hwf Ht) as H.
      destruct (create_token tb ty v) as [t tb'] eqn:E.
      destruct H as (H1 & H2 & H3 & _ & _ & H4).
      specialize (IH tb' H1 H3). destruct (emit s tb') as [ts tb''] eqn:E2. cbn [fst snd] in *.
      destruct IH as (G1 & G2 & G3 & G4 & G5). repeat split; auto; try apply G1.
      + exists (raw tb), (raw tb'). split; [apply pos_le_refl|auto].
      + rewrite G4, H4. reflexivity.
      + rewrite G5, H4. unfold script_text; cbn [map snd concat_str]. rewrite app_length. simpl. lia.
    - cbn [emit]. unfold script_text in Ht; cbn [map snd concat_str] in Ht. rewrite <- app_assoc in Ht.
      destruct (skip_tail tb v _ Hwf Ht) as (H1 & H3 & H2).
      specialize (IH _ H1 H3). destruct (emit s (skip tb (length v))) as [ts tb''] eqn:E2. cbn [fst snd] in *.
      destruct IH as (G1 & G2 & G3 & G4 & G5). repeat split; auto; try apply G1.
      + eapply toks_in_widen; eauto using pos_le_refl.
      + rewrite G5. unfold script_text; cbn [map snd concat_str]. rewrite app_length. simpl. lia.
  Qed.

  (* ---- what a set of lexer functions must satisfy ---- *)
  Definition no_eof (ts : list token) : Prop := Forall (fun t => t_type t <> T_EOF) ts.

  (* One successful step from tb *)
  Definition step_ok (tb : tbuf) (toks : list token) (tb' : tbuf) : Prop :=
    wf tb' /\ adv tb tb' /\ toks_in toks (raw tb) (raw tb') /\ no_eof toks.

  Definition good (Inv : tbuf -> Prop) (fns : list lexfn) : Prop :=
    forall tb toks tb', Inv tb -> wf tb -> tb_eof tb = false ->
      run_functions (all_functions fns) tb = Ok (toks, tb') -> step_ok tb toks tb' /\ Inv tb'.

  Inductive steps (fns : list lexfn) : tbuf -> list token -> tbuf -> Prop :=
  | steps_nil tb : steps fns tb [] tb
  | steps_cons tb toks tb' toks' tb'' :
      tb_eof tb = false -> run_functions (all_functions fns) tb = Ok (toks, tb') ->
      steps fns tb' toks' tb'' -> steps fns tb (toks ++ toks') tb''.

  (* Remaining work: characters and lines. *)
  Definition remaining (tb : tbuf) : nat :=
    length (concat_str (skipn (tb_line tb) lines)) - tb_column tb
    + (length lines - tb_line tb).

  Lemma concat_skip_S i (ls : list str) : i < length ls ->
    length (concat_str (skipn i ls)) = length (nth i ls []) + length (concat_str (skipn (S i) ls)).
  Proof.
    revert ls; induction i as [|i IH]; intros [|l ls] H; simpl in H; try lia.
    - simpl. rewrite app_length. reflexivity.
    - change (skipn (S i) (l :: ls)) with (skipn i ls).
      change (skipn (S (S i)) (l :: ls)) with (skipn (S i) ls). simpl nth. apply IH. lia.
  Qed.

  Lemma concat_skip_le i j (ls : list str) : i <= j ->
    length (concat_str (skipn j ls)) <= length (concat_str (skipn i ls)).
  Proof.
    intros H. revert i ls H; induction j as [|j IH]; intros i ls H.
    - assert (i = 0) by lia; subst; lia.
    - destruct i as [|i].
      + destruct ls as [|l ls]; simpl; [lia|]. rewrite app_length.
        specialize (IH 0 ls ltac:(lia)). simpl in IH. lia.
      + destruct ls as [|l ls]; [simpl; lia|]. apply (IH i ls). lia.
  Qed.

  Lemma adv_remaining tb tb' : wf tb -> wf tb' -> tb_eof tb = false -> adv tb tb' ->
    remaining tb' < remaining tb.
  Proof.
    intros Hwf Hwf' He Ha. pose proof (not_eof_line tb Hwf He) as Hl.
    pose proof (concat_skip_S (tb_line tb) lines Hl) as Hc.
    assert (Hcol : tb_column tb <= length (nth (tb_line tb) lines [])).
    { destruct Hwf as (H1 & _ & _ & _ & _ & H6). unfold current_line in H6. rewrite H1 in H6. exact H6. }
    assert (Hcol' : tb_column tb' <= length (nth (tb_line tb') lines [])).
    { destruct Hwf' as (H1 & _ & _ & _ & _ & H6). unfold current_line in H6. rewrite H1 in H6. exact H6. }
    assert (Hl' : tb_line tb' <= length lines) by apply Hwf'.
    unfold remaining. destruct Ha as [[H1 H2]|[H1 H2]].
    - pose proof (concat_skip_le (S (tb_line tb)) (tb_line tb') lines ltac:(lia)). lia.
    - rewrite H1 in *. lia.
  Qed.

  Lemma adv_position tb tb' : wf tb -> wf tb' -> adv tb tb' ->
    position_eqb (tb_position tb) (tb_position tb') = false.
  Proof.
    intros H H' Ha. rewrite (wf_position _ H), (wf_position _ H').
    unfold position_eqb, shifted, raw; simpl.
    destruct Ha as [[H1 H2]|[H1 H2]].
    - destruct (Nat.eqb_spec (tb_line tb + sl) (tb_line tb' + sl)); [lia|reflexivity].
    - rewrite H1. apply andb_false_iff; right. apply Nat.eqb_neq. lia.
  Qed.

  Definition eof_token (tb : tbuf) : token := fst (create_token tb T_EOF []).

  Lemma run_eof fns tb : tb_eof tb = true ->
    run_functions (all_functions fns) tb = Ok ([eof_token tb], skip tb 0).
  Proof. intros H. unfold all_functions; cbn [app run_functions]. unfold process_eof. rewrite H. reflexivity. Qed.

  Lemma lex_done_app ts t : lex_done (ts ++ [t]) = tt_eqb (t_type t) T_EOF.
  Proof. unfold lex_done. rewrite rev_app_distr. reflexivity. Qed.

  Lemma lex_done_no_eof ts : no_eof ts -> lex_done ts = false.
  Proof.
    intros H. unfold lex_done. destruct (rev ts) as [|t r] eqn:E; [reflexivity|].
    assert (In t ts) by (apply in_rev; rewrite E; left; reflexivity).
    unfold no_eof in H; rewrite Forall_forall in H. specialize (H t H0).
    destruct (tt_eqb_spec (t_type t) T_EOF); congruence.
  Qed.

  Definition last_ok (st : lexst) : Prop :=
    match lx_last st with
    | Some p => position_eqb p (tb_position (lx_tb st)) = false
    | None => True
    end.

  Lemma lex_step_ok fns st : last_ok st ->
    lex_step fns st =
    rmap (fun r => mkLexst (snd r) (lx_tokens st ++ fst r) (Some (tb_position (lx_tb st))))
         (run_functions (all_functions fns) (lx_tb st)).
  Proof.
    unfold last_ok, lex_step. destruct (lx_last st) as [p|].
    - intros ->. destruct (run_functions _ _); reflexivity.
    - intros _. destruct (run_functions _ _); reflexivity.
  Qed.

  Section Good.
    Variables (Inv : tbuf -> Prop) (fns : list lexfn).
    Hypothesis Hgood : good Inv fns.

    Lemma steps_inv tb ts tb' : Inv tb -> wf tb -> steps fns tb ts tb' ->
      Inv tb' /\ wf tb' /\ toks_in ts (raw tb) (raw tb') /\ no_eof ts.
    Proof.
      intros HI Hwf Hs. induction Hs as [tb|tb ts tb' ts' tb'' He Hr Hs IH].
      - split; [exact HI|split; [exact Hwf|split; [apply pos_le_refl|constructor]]].
      - destruct (Hgood _ _ _ HI Hwf He Hr) as [(H1 & H2 & H3 & H4) HI'].
        destruct (IH HI' H1) as (G1 & G2 & G3 & G4).
        split; [exact G1|split; [exact G2|split]].
        + eapply toks_in_app; eauto.
        + apply Forall_app; auto.
    Qed.

    Lemma steps_run tb ts tb' : steps fns tb ts tb' -> Inv tb -> wf tb ->
      forall fuel st, lx_tb st = tb -> last_ok st -> no_eof (lx_tokens st) ->
        remaining tb < fuel ->
        exists fuel' last, remaining tb' < fuel' /\ last_ok (mkLexst tb' (lx_tokens st ++ ts) last) /\
          lex_loop fuel fns st = lex_loop fuel' fns (mkLexst tb' (lx_tokens st ++ ts) last).
    Proof.
      intros Hs. induction Hs as [tb|tb ts tb' ts' tb'' He Hr Hs IH]; intros HI Hwf fuel st Htb Hl Hne Hf.
      - exists fuel, (lx_last st). rewrite app_nil_r. subst tb. destruct st; auto.
      - destruct (Hgood _ _ _ HI Hwf He Hr) as [(H1 & H2 & H3 & H4) HI'].
        destruct fuel as [|fuel]; [lia|].
        pose proof (adv_remaining _ _ Hwf H1 He H2) as Hrem.
        set (st' := mkLexst tb' (lx_tokens st ++ ts) (Some (tb_position tb))).
        destruct (IH HI' H1 fuel st') as (fuel' & last & Hf' & Hl' & Heq).
        + reflexivity.
        + unfold last_ok; simpl. apply adv_position; auto.
        + simpl. apply Forall_app; auto.
        + lia.
        + exists fuel', last. simpl in Hl', Heq. rewrite <- app_assoc in Hl', Heq.
          split; [exact Hf'|]. split; [exact Hl'|].
          cbn [lex_loop]. rewrite (lex_done_no_eof _ Hne), (lex_step_ok _ _ Hl), Htb, Hr. simpl.
          exact Heq.
    Qed.

    Lemma lex_loop_eof tb ts tb' fuel : Inv tb -> wf tb -> steps fns tb ts tb' -> tb_eof tb' = true ->
      S (remaining tb) < fuel ->
      lex_loop fuel fns (lex_init tb) =
      Ok (mkLexst (skip tb' 0) (ts ++ [eof_token tb']) (Some (tb_position tb'))).
    Proof.
      intros HI Hwf Hs He Hf.
      destruct (steps_inv _ _ _ HI Hwf Hs) as (HI' & Hwf' & Hti & Hne).
      destruct fuel as [|fuel]; [lia|].
      destruct (steps_run _ _ _ Hs HI Hwf (S fuel) (lex_init tb)) as (f' & last & Hf' & Hl & ->);
        [reflexivity|exact I|constructor|lia|].
      destruct f' as [|f']; [lia|]. cbn [lex_init lx_tokens app] in *.
      cbn [lex_loop]. cbn [lx_tokens]. rewrite (lex_done_no_eof _ Hne), (lex_step_ok _ _ Hl).
      cbn [lx_tb]. rewrite (run_eof _ _ He). cbn [rmap rbind fst snd lx_tokens].
      destruct f' as [|f']; cbn [lex_loop lx_tokens]; rewrite lex_done_app; cbn; reflexivity.
    Qed.

    Lemma lex_loop_exc tb ts tb' e fuel : Inv tb -> wf tb -> steps fns tb ts tb' -> tb_eof tb' = false ->
      run_functions (all_functions fns) tb' = Exc e -> remaining tb < fuel ->
      lex_loop fuel fns (lex_init tb) = Exc e.
    Proof.
      intros HI Hwf Hs He Hr Hf.
      destruct (steps_inv _ _ _ HI Hwf Hs) as (HI' & Hwf' & Hti & Hne).
      destruct (steps_run _ _ _ Hs HI Hwf fuel (lex_init tb)) as (f' & last & Hf' & Hl & ->);
        [reflexivity|exact I|constructor|lia|].
      destruct f' as [|f']; [lia|]. cbn [lex_init lx_tokens app] in *.
      cbn [lex_loop]. cbn [lx_tokens]. rewrite (lex_done_no_eof _ Hne), (lex_step_ok _ _ Hl).
      cbn [lx_tb]. rewrite Hr. reflexivity.
    Qed.

    (* Every run reaches the end of the source or an exception. *)
    Lemma steps_total tb : Inv tb -> wf tb ->
      (exists ts tb', steps fns tb ts tb' /\ tb_eof tb' = true) \/
      (exists ts tb' e, steps fns tb ts tb' /\ tb_eof tb' = false /\
                        run_functions (all_functions fns) tb' = Exc e).
    Proof.
      intros HI Hwf. remember (remaining tb) as n eqn:Hn.
      assert (Hle : remaining tb <= n) by lia. clear Hn.
      revert tb HI Hwf Hle; induction n as [n IH] using lt_wf_ind; intros tb HI Hwf Hle.
      destruct (tb_eof tb) eqn:He.
      - left; exists [], tb; split; [constructor|exact He].
      - destruct (run_functions (all_functions fns) tb) as [[ts tb']|e] eqn:Hr.
        + destruct (Hgood _ _ _ HI Hwf He Hr) as [(H1 & H2 & H3 & H4) HI'].
          pose proof (adv_remaining _ _ Hwf H1 He H2) as Hrem.
          destruct (IH (remaining tb') ltac:(lia) tb' HI' H1 ltac:(lia)) as
            [(us & u & Hs & Hu)|(us & u & e & Hs & Hu & Hx)].
          * left. exists (ts ++ us), u. split; [econstructor; eauto|exact Hu].
          * right. exists (ts ++ us), u, e. split; [econstructor; eauto|auto].
        + right. exists [], tb, e. split; [constructor|auto].
    Qed.
  End Good.
End Driver.

Lemma tb_init_wf text sl sc src :
  wf (tb_lines (tb_init text sl sc src)) sl sc src (tb_init text sl sc src).
Proof. unfold wf; simpl. repeat split; auto; lia. Qed.

Lemma lex_fuel_ok text sl sc src :
  S (remaining (tb_lines (tb_init text sl sc src)) (tb_init text sl sc src))
  < lex_fuel (tb_init text sl sc src).
Proof. unfold remaining, lex_fuel. simpl. lia. Qed.
