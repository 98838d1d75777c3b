(* InlineLexer.v -- the inline lexers compute, line by line, a simple function *)
From Verif Require Export LexerFacts.

(* ---- the regexps used ---- *)
Lemma run_length_all_sp s : all_sp s = true -> run_length (N.eqb SP) s = length s.
Proof.
  induction s as [|a s IH]; [reflexivity|]. cbn [all_sp run_length].
  rewrite andb_true_iff, N.eqb_sym. intros [-> H]. simpl; f_equal; auto.
Qed.

Lemma rmatch_spaces_end s :
  (rmatch [RRep (N.eqb SP) 0; REnd] s = None /\ all_sp s = false) \/
  (rmatch [RRep (N.eqb SP) 0; REnd] s = Some [Some s; Some []] /\ all_sp s = true).
Proof.
  destruct (all_sp s) eqn:E.
  - right; split; [|reflexivity]. cbn [rmatch]. rewrite (run_length_all_sp s E).
    destruct s as [|a s]; [reflexivity|]. cbn [length try_rep]. cbn [Nat.ltb Nat.leb].
    change (skipn (S (length s)) (a :: s)) with (skipn (length s) s). rewrite skipn_all.
    cbn [option_map]. change (firstn (S (length s)) (a :: s)) with (a :: firstn (length s) s).
    rewrite firstn_all. reflexivity.
  - left; split; [|reflexivity].
    destruct (rmatch _ s) as [cs|] eqn:Em; [|reflexivity]. exfalso. cbn [rmatch] in Em.
    apply try_rep_spec in Em; [|apply run_length_le]. destruct Em as (m & cs' & Hm & -> & Hk).
    destruct (skipn m s) eqn:Es; [|discriminate].
    assert (Hl : length s <= m).
    { apply (f_equal (@length N)) in Es. rewrite skipn_length in Es. simpl in Es. lia. }
    assert (Hr : run_length (N.eqb SP) s = length s) by (pose proof (run_length_le (N.eqb SP) s); lia).
    clear - E Hr. induction s as [|a s IH]; [discriminate|]. cbn [run_length all_sp] in *.
    destruct (N.eqb_spec SP a) as [<-|Hn]; [|discriminate]. change (N.eqb SP SP) with true in E. cbn [andb] in E.
    injection Hr; auto.
Qed.

Lemma rmatch_plus p s :
  rmatch [RRep p 1] s = match fst (span p s) with [] => None | u => Some [Some u] end.
Proof.
  cbn [rmatch]. rewrite run_length_span.
  destruct s as [|a s]; [reflexivity|]. cbn [span]. destruct (p a) eqn:E; [|reflexivity].
  destruct (span p s) as [u v] eqn:Es. cbn [fst length try_rep]. cbn [Nat.ltb Nat.leb].
  pose proof (span_app p s) as H. rewrite Es in H. simpl in H.
  change (firstn (S (length u)) (a :: s)) with (a :: firstn (length u) s).
  rewrite <- H at 1. rewrite firstn_app, Nat.sub_diag, firstn_all, firstn_O, app_nil_r. reflexivity.
Qed.

(* ---- the common prefix of every lexer's functions ---- *)
Lemma run_base fns tb : tb_eof tb = false ->
  run_functions (all_functions fns) tb =
  if all_sp (current_line tb) then
    Ok ([fst (create_token tb T_EOL (current_line tb))],
        nextline (snd (create_token tb T_EOL (current_line tb))))
  else if all_sp (tail tb) then Ok ([], nextline (skip tb (length (tail tb))))
  else run_functions (fns ++ [process_error]) tb.
Proof.
  intros He. unfold all_functions. cbn [app run_functions]. unfold process_eof. rewrite He. cbn [rbind].
  unfold process_empty_line, process_trailing_spaces.
  destruct (rmatch_spaces_end (current_line tb)) as [[-> ->]|[-> ->]]; [|reflexivity].
  cbn [rbind]. destruct (rmatch_spaces_end (tail tb)) as [[-> ->]|[-> ->]]; reflexivity.
Qed.

Section Good.
  Variables (lines : list str) (sl sc : nat) (src : option str).
  Notation wf := (wf lines sl sc src).
  Notation step_ok := (step_ok lines sl sc src).

  (* At the start of a line, or on a line which is not blank. *)
  Definition inline_inv (tb : tbuf) : Prop :=
    tb_column tb = 0 \/ all_sp (current_line tb) = false.

  Lemma tail_col0 tb : tb_column tb = 0 -> tail tb = current_line tb.
  Proof. unfold tail. intros ->. reflexivity. Qed.

  Lemma nextline_step tb tb0 toks : wf tb -> wf tb0 -> tb_line tb0 = tb_line tb ->
    tb_eof tb = false ->
    tokens_in lines sl sc src toks (raw tb) (raw tb0) -> no_eof toks ->
    step_ok tb toks (nextline tb0) /\ tb_column (nextline tb0) = 0.
  Proof.
    intros Hwf Hwf0 Hl He Ht Hn. pose proof (not_eof_line _ _ _ _ _ Hwf He) as Hlt.
    rewrite <- Hl in Hlt. destruct (nextline_line _ _ _ _ _ Hwf0 Hlt) as [H1 H2].
    split; [|exact H2]. split; [apply wf_nextline; auto|].
    split; [left; rewrite H1, H2; lia|]. split; [|exact Hn].
    eapply toks_in_widen; [apply pos_le_refl|exact Ht|]. left. unfold raw; cbn [fst]. rewrite H1. lia.
  Qed.

  (* The three functions every lexer starts with make a good step. *)
  Lemma base_good fns (Inv : tbuf -> Prop) :
    (forall tb, Inv tb -> inline_inv tb) ->
    (forall tb, tb_column tb = 0 -> Inv tb) ->
    (forall tb toks tb', Inv tb -> wf tb -> tb_eof tb = false ->
       all_sp (current_line tb) = false -> all_sp (tail tb) = false ->
       run_functions (fns ++ [process_error]) tb = Ok (toks, tb') -> step_ok tb toks tb' /\ Inv tb') ->
    good lines sl sc src Inv fns.
  Proof.
    intros HI0 HI1 HF tb toks tb' HI Hwf He Hr. rewrite (run_base _ _ He) in Hr.
    destruct (all_sp (current_line tb)) eqn:E1.
    - destruct (HI0 _ HI) as [Hc|Hc]; [|congruence].
      pose proof (create_token_located lines sl sc src tb T_EOL (current_line tb) [] Hwf) as H.
      rewrite (tail_col0 _ Hc), app_nil_r in H. specialize (H eq_refl).
      destruct (create_token tb T_EOL (current_line tb)) as [t tb0] eqn:E. cbn [fst snd] in Hr.
      injection Hr as <- <-. destruct H as (H1 & H2 & H3 & H4 & H5 & H6).
      destruct (nextline_step tb tb0 [t]) as [G1 G2]; auto.
      + rewrite H6; reflexivity.
      + exists (raw tb), (raw tb0). split; [apply pos_le_refl|]. split; [exact H2|apply pos_le_refl].
      + constructor; [rewrite H4; discriminate|constructor].
    - destruct (all_sp (tail tb)) eqn:E2.
      + injection Hr as <- <-.
        destruct (skip_tail lines sl sc src tb (tail tb) [] Hwf) as (H1 & H2 & H3);
          [rewrite app_nil_r; reflexivity|].
        destruct (nextline_step tb (skip tb (length (tail tb))) []) as [G1 G2]; auto.
        constructor.
      + eapply HF; eauto.
  Qed.
End Good.

(* ---- a line of an inline lexer ---- *)
Section Inline.
  (* The next token of a text that is not made of spaces only. *)
  Variable next_tok : str -> token_type * str.
  Variable fns : list lexfn.
  Hypothesis next_prefix : forall s, all_sp s = false ->
    snd (next_tok s) <> [] /\ exists r, s = snd (next_tok s) ++ r.
  Hypothesis next_type : forall s, all_sp s = false -> fst (next_tok s) <> T_EOF.
  Hypothesis fns_next : forall tb, all_sp (tail tb) = false ->
    run_functions (fns ++ [process_error]) tb =
    Ok ([fst (create_token tb (fst (next_tok (tail tb))) (snd (next_tok (tail tb))))],
        snd (create_token tb (fst (next_tok (tail tb))) (snd (next_tok (tail tb))))).

  (* The tokens of a line, from a given text on: spaces at the end are dropped. *)
  Fixpoint ltoks (n : nat) (s : str) : list (token_type * str) :=
    match n with
    | 0 => []
    | S n' => if all_sp s then []
              else next_tok s :: ltoks n' (skipn (length (snd (next_tok s))) s)
    end.
  Definition line_toks (s : str) : list (token_type * str) := ltoks (length s) s.

  (* The tokens of a text, given by its lines: a blank line is an EOL token, but an
     empty last line is nothing. *)
  Fixpoint lines_toks (ls : list str) : list (token_type * str) :=
    match ls with
    | [] => []
    | l :: r => (if all_sp l
                 then match l, r with [], [] => [] | _, _ => [(T_EOL, l)] end
                 else line_toks l) ++ lines_toks r
    end.

  Lemma ltoks_enough n s : length s <= n -> ltoks n s = line_toks s.
  Proof.
    unfold line_toks. revert s; induction n as [n IH] using lt_wf_ind; intros s Hn.
    destruct s as [|a s]; [destruct n; reflexivity|].
    destruct n as [|n]; [simpl in Hn; lia|]. cbn [ltoks length].
    destruct (all_sp (a :: s)) eqn:E; [reflexivity|].
    destruct (next_prefix _ E) as [Hne [r Hr]]. f_equal.
    set (v := snd (next_tok (a :: s))) in *.
    assert (Hl : length (skipn (length v) (a :: s)) <= length s).
    { rewrite skipn_length. simpl. destruct v; [congruence|simpl; lia]. }
    simpl in Hn.
    rewrite (IH n ltac:(lia)) by lia. destruct (Nat.eq_dec (length s) n) as [->|Hd].
    - symmetry. apply (IH n ltac:(lia)). lia.
    - symmetry. apply (IH (length s) ltac:(lia)). lia.
  Qed.

  Lemma line_toks_eq s : line_toks s =
    if all_sp s then [] else next_tok s :: line_toks (skipn (length (snd (next_tok s))) s).
  Proof.
    unfold line_toks at 1. destruct s as [|a s]; [reflexivity|]. cbn [length ltoks].
    destruct (all_sp (a :: s)) eqn:E; [reflexivity|]. f_equal.
    destruct (next_prefix _ E) as [Hne [r Hr]].
    apply ltoks_enough. rewrite skipn_length. simpl.
    destruct (snd (next_tok (a :: s))); [congruence|simpl; lia].
  Qed.

  (* Lossless: only spaces at the end of the line are dropped. *)
  Lemma line_toks_concat s : exists sp, all_sp sp = true /\
    s = concat_str (map snd (line_toks s)) ++ sp.
  Proof.
    remember (length s) as n eqn:Hn. assert (Hle : length s <= n) by lia. clear Hn.
    revert s Hle; induction n as [|n IH]; intros s Hle.
    - destruct s; [|simpl in Hle; lia]. exists []; auto.
    - rewrite line_toks_eq. destruct (all_sp s) eqn:E; [exists s; auto|].
      destruct (next_prefix _ E) as [Hne [r Hr]].
      set (v := snd (next_tok s)) in *. assert (Hs : skipn (length v) s = r).
      { rewrite Hr, skipn_app, skipn_all, Nat.sub_diag. reflexivity. }
      rewrite Hs. assert (Hrn : length r <= n).
      { apply (f_equal (@length N)) in Hr. rewrite app_length in Hr.
        destruct v; [congruence|simpl in Hr; lia]. }
      destruct (IH r Hrn) as (sp & H1 & H2). exists sp; split; [exact H1|].
      simpl. fold v. rewrite Hr at 1. rewrite H2 at 1. rewrite app_assoc. reflexivity.
  Qed.

  Lemma line_toks_not_eof s : Forall (fun t => fst t <> T_EOF) (line_toks s).
  Proof.
    remember (length s) as n eqn:Hn. assert (Hle : length s <= n) by lia. clear Hn.
    revert s Hle; induction n as [|n IH]; intros s Hle.
    - destruct s; [|simpl in Hle; lia]. constructor.
    - rewrite line_toks_eq. destruct (all_sp s) eqn:E; [constructor|].
      destruct (next_prefix _ E) as [Hne [r Hr]].
      constructor; [apply next_type; exact E|]. apply IH.
      rewrite skipn_length. destruct s; [discriminate|]. destruct (snd (next_tok _)); [congruence|simpl in *; lia].
  Qed.

  Section Lines.
    Variables (lines : list str) (sl sc : nat) (src : option str).
    Notation wf := (wf lines sl sc src).

    Lemma inline_good : good lines sl sc src inline_inv fns.
    Proof.
      apply base_good; [auto|left; auto|].
      intros tb toks tb' HI Hwf He E1 E2 Hr. rewrite (fns_next _ E2) in Hr.
      destruct (next_prefix _ E2) as [Hne [r Hr']].
      pose proof (create_token_located lines sl sc src tb (fst (next_tok (tail tb))) _ r Hwf Hr') as H.
      destruct (create_token tb _ _) as [t tb0]. cbn [fst snd] in Hr. injection Hr as <- <-.
      destruct H as (H1 & H2 & H3 & H4 & H5 & H6).
      split.
      - split; [exact H1|]. split; [right; rewrite H6; simpl; split; [reflexivity|]|].
        + destruct (snd (next_tok (tail tb))); [congruence|simpl; lia].
        + split; [exists (raw tb), (raw tb0); split; [apply pos_le_refl|split; [exact H2|apply pos_le_refl]]|].
          constructor; [rewrite H4; apply next_type; exact E2|constructor].
      - right. rewrite H6. exact E1.
    Qed.

    Lemma nth_skipn_cons i (ls : list str) l r : skipn i ls = l :: r -> nth i ls [] = l /\ i < length ls
      /\ skipn (S i) ls = r.
    Proof.
      revert ls; induction i as [|i IH]; intros [|x ls] H; simpl in H; try discriminate.
      - injection H as -> ->. simpl; auto with arith.
      - destruct (IH ls H) as (H1 & H2 & H3). simpl; auto with arith.
    Qed.

    Lemma skipn_nil_len i (ls : list str) : skipn i ls = [] -> length ls <= i.
    Proof. intros H. apply (f_equal (@length str)) in H. rewrite skipn_length in H. simpl in H. lia. Qed.

    (* Lexing the rest of the current line *)
    Lemma steps_line n : forall tb s, wf tb -> tail tb = s -> length s <= n ->
      tb_line tb < length lines -> all_sp (current_line tb) = false ->
      exists ts tb', steps fns tb ts tb' /\ map tv ts = line_toks s /\ wf tb' /\
        ((tb_eof tb' = true /\ S (tb_line tb) = length lines) \/
         (tb_line tb' = S (tb_line tb) /\ tb_column tb' = 0)).
    Proof.
      induction n as [|n IH]; intros tb s Hwf Hs Hn Hl Hsp.
      all: destruct (tb_eof tb) eqn:He;
        [ assert (Hl' : S (tb_line tb) = length lines /\ all_sp s = true)
          by (unfold tb_eof in He; destruct Hwf as (H1 & _ & _ & _ & _ & _); rewrite H1 in He;
              destruct lines as [|l0 ls0] eqn:El; [simpl in Hl; lia|]; rewrite <- El in *;
              destruct (Nat.eqb_spec (S (tb_line tb)) (length lines)) as [Heq|Hne]; cbn [andb] in He;
              [destruct (Nat.leb_spec (length (current_line tb)) (tb_column tb)) as [Hle|Hgt];
                 [split; [exact Heq|]; rewrite <- Hs; unfold tail; rewrite skipn_all2 by lia; reflexivity
                 |apply Nat.leb_le in He; lia]
              |apply Nat.leb_le in He; lia]);
          destruct Hl' as [Hl1 Hl2]; exists [], tb; split; [constructor|];
          split; [rewrite line_toks_eq, Hl2; reflexivity|]; split; [exact Hwf|left; auto]
        | ].
      all: destruct (all_sp s) eqn:Es;
        [ exists [], (nextline (skip tb (length (tail tb))));
          destruct (skip_tail lines sl sc src tb (tail tb) [] Hwf) as (H1 & H2 & H3);
            [rewrite app_nil_r; reflexivity|];
          split; [change (@nil token) with (@nil token ++ []); econstructor;
                    [exact He| |constructor]; rewrite (run_base _ _ He), Hsp; rewrite Hs, Es; reflexivity|];
          split; [rewrite line_toks_eq, Es; reflexivity|];
          split; [apply wf_nextline; [exact H1|exact Hl]|];
          right; apply (nextline_line lines sl sc src _ H1 Hl)
        | ].
      - destruct s; [discriminate|simpl in Hn; lia].
      - destruct (next_prefix _ Es) as [Hne [r Hr]].
        pose proof (create_token_located lines sl sc src tb (fst (next_tok s)) (snd (next_tok s)) r Hwf) as H.
        rewrite Hs in H. specialize (H Hr).
        assert (Hrun : run_functions (all_functions fns) tb =
                       Ok ([fst (create_token tb (fst (next_tok s)) (snd (next_tok s)))],
                           snd (create_token tb (fst (next_tok s)) (snd (next_tok s))))).
        { rewrite (run_base _ _ He), Hsp, Hs, Es. rewrite <- Hs in *. apply fns_next. exact Es. }
        destruct (create_token tb _ _) as [t tb0]. cbn [fst snd] in Hrun.
        destruct H as (H1 & H2 & H3 & H4 & H5 & H6).
        assert (Hrn : length r <= n).
        { apply (f_equal (@length N)) in Hr. rewrite app_length in Hr.
          destruct (snd (next_tok s)); [congruence|simpl in Hr; lia]. }
        destruct (IH tb0 r H1 H3 Hrn) as (ts & tb' & G1 & G2 & G3 & G4).
        + rewrite H6; exact Hl.
        + rewrite H6; exact Hsp.
        + exists ([t] ++ ts), tb'. split; [econstructor; eauto|]. split.
          * rewrite map_app, G2, (line_toks_eq s), Es. cbn [map app]. unfold tv. rewrite H4, H5.
            rewrite <- surjective_pairing. f_equal. f_equal.
            rewrite Hr at 2. rewrite skipn_app, skipn_all, Nat.sub_diag. reflexivity.
          * split; [exact G3|]. rewrite H6 in G4. exact G4.
    Qed.

    (* Lexing from the start of a line to the end *)
    Lemma steps_lines : forall rest tb, wf tb -> tb_column tb = 0 -> skipn (tb_line tb) lines = rest ->
      exists ts tb', steps fns tb ts tb' /\ tb_eof tb' = true /\ map tv ts = lines_toks rest.
    Proof.
      induction rest as [|l rest IH]; intros tb Hwf Hc Hr.
      - exists [], tb. split; [constructor|]. split; [|reflexivity].
        apply skipn_nil_len in Hr. unfold tb_eof. destruct Hwf as (-> & _).
        destruct lines; [reflexivity|]. destruct (_ && _); [reflexivity|]. apply Nat.leb_le; exact Hr.
      - destruct (nth_skipn_cons _ _ _ _ Hr) as (H1 & H2 & H3).
        assert (Hcur : current_line tb = l) by (unfold current_line; destruct Hwf as (-> & _); exact H1).
        assert (Heof : tb_eof tb = match l, rest with [], [] => true | _, _ => false end).
        { unfold tb_eof. destruct Hwf as (-> & _). destruct lines as [|l0 ls0] eqn:El; [simpl in H2; lia|].
          rewrite <- El in *. rewrite Hcur, Hc.
          assert (Hrest : length rest = length lines - S (tb_line tb)) by (rewrite <- H3, skipn_length; reflexivity).
          replace (length lines <=? tb_line tb) with false by (symmetry; apply Nat.leb_gt; lia).
          destruct l as [|a l]; cbn [length Nat.leb]; rewrite ?andb_false_r, ?andb_true_r.
          - destruct rest; simpl in Hrest; destruct (Nat.eqb_spec (S (tb_line tb)) (length lines)); auto; lia.
          - destruct rest; reflexivity. }
        cbn [lines_toks]. destruct (all_sp l) eqn:Esp.
        + destruct (tb_eof tb) eqn:He.
          * exists [], tb. split; [constructor|]. split; [exact He|].
            destruct l as [|a l], rest as [|l' rest]; try discriminate. reflexivity.
          * pose proof (run_base fns _ He) as Hrun. rewrite Hcur, Esp in Hrun.
            assert (Ht : tail tb = l ++ []) by (rewrite (tail_col0 _ Hc), app_nil_r; exact Hcur).
            pose proof (create_token_located lines sl sc src tb T_EOL l [] Hwf Ht) as H.
            destruct (create_token tb T_EOL l) as [t tb0]. cbn [fst snd] in Hrun.
            destruct H as (G1 & G2 & G3 & G4 & G5 & G6).
            assert (Hl0 : tb_line tb0 < length lines) by (rewrite G6; exact H2).
            destruct (nextline_line lines sl sc src _ G1 Hl0) as [K1 K2].
            destruct (IH (nextline tb0)) as (ts & tb' & S1 & S2 & S3).
            -- apply wf_nextline; assumption.
            -- exact K2.
            -- rewrite K1. rewrite G6. exact H3.
            -- exists ([t] ++ ts), tb'. split; [econstructor; eauto|]. split; [exact S2|].
               rewrite map_app, S3. cbn [map]. unfold tv. rewrite G4, G5.
               destruct l as [|a l], rest as [|l' rest]; try discriminate; reflexivity.
        + destruct (steps_line (length l) tb l Hwf) as (ts & tb' & S1 & S2 & S3 & S4);
            [rewrite (tail_col0 _ Hc); exact Hcur|lia|exact H2|rewrite Hcur; exact Esp|].
          destruct S4 as [[S4 S5]|[S4 S5]].
          * exists ts, tb'. split; [exact S1|]. split; [exact S4|]. rewrite S2.
            assert (rest = []) as ->; [|rewrite app_nil_r; reflexivity].
            rewrite <- H3. apply skipn_all2. lia.
          * destruct (IH tb' S3 S5) as (us & u & U1 & U2 & U3); [rewrite S4; exact H3|].
            exists (ts ++ us), u. split; [|split; [exact U2|rewrite map_app, S2, U3; reflexivity]].
            clear - S1 U1. induction S1; [exact U1|]. rewrite <- app_assoc. econstructor; eauto.
    Qed.
  End Lines.

  (* Lexing a text, whatever its start position: never fails. *)
  Lemma lex_inline text sl sc src :
    exists toks, lex fns (tb_init text sl sc src) = Ok toks /\
      map tv toks = lines_toks (text_lines text) ++ [(T_EOF, [])] /\
      tokens_in (text_lines text) sl sc src toks (0, 0) (length (text_lines text), 0) .
  Proof.
    set (tb := tb_init text sl sc src). pose proof (tb_init_wf text sl sc src) as Hwf. fold tb in Hwf.
    set (lines := tb_lines tb) in *.
    assert (HL : text_lines text = lines) by reflexivity. rewrite HL.
    destruct (steps_lines lines sl sc src lines tb Hwf) as (ts & tb' & S1 & S2 & S3); [reflexivity|reflexivity|].
    assert (HI : inline_inv tb) by (left; reflexivity).
    pose proof (inline_good lines sl sc src) as Hg.
    destruct (steps_inv _ _ _ _ _ _ Hg _ _ _ HI Hwf S1) as (HI' & Hwf' & Hti & Hne).
    unfold lex. rewrite (lex_loop_eof _ _ _ _ _ _ Hg tb ts tb' _ HI Hwf S1 S2) by apply lex_fuel_ok.
    cbn [rbind lx_tokens]. eexists; split; [reflexivity|]. split; [rewrite map_app, S3; reflexivity|].
    eapply toks_in_app; [exact Hti|].
    pose proof (create_token_located lines sl sc src tb' T_EOF [] (tail tb') Hwf' eq_refl) as H.
    unfold eof_token. destruct (create_token tb' T_EOF []) as [t tb0]. destruct H as (H1 & H2 & H3 & H4 & H5 & H6).
    exists (raw tb'), (raw tb0). split; [apply pos_le_refl|]. split; [exact H2|].
    rewrite H6. clearbody lines. clear - Hwf' S2. cbn [tokens_in]. destruct Hwf' as (H1 & H2 & H3 & H4 & H5 & H6).
    unfold pos_le, raw, skip; cbn [fst snd tb_line tb_column length]. destruct (Nat.eq_dec (tb_line tb') (length lines)) as [E|E]; [|left; unfold position in *; lia].
    right; split; [exact E|]. unfold current_line in H6. rewrite H1, E, nth_overflow in H6 by lia. simpl in H6. lia.
  Qed.
End Inline.
