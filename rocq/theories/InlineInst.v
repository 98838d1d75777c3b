(* InlineInst.v -- the three inline lexers as instances of InlineLexer.v *)
From Verif Require Export InlineLexer.

(* The next token of each lexer (stated on the text alone). *)
Definition text_plain (c : N) : bool := negb (mem_chr c (SP :: text_specials)).
Definition text_next (s : str) : token_type * str :=
  match s with
  | [] => (T_TEXT, [])
  | c :: _ => if N.eqb c SP then (T_TEXT, [SP])
              else if mem_chr c text_specials then (T_LITERAL, [c])
              else (T_TEXT, fst (span text_plain s))
  end.

Definition args_plain (c : N) : bool := negb (mem_chr c (SP :: args_specials)).
Definition args_next (s : str) : token_type * str :=
  match s with
  | [] => (T_TEXT, [])
  | c :: _ => if N.eqb c SP then (T_WHITESPACE, fst (span (N.eqb SP) s))
              else if mem_chr c args_specials then (T_LITERAL, [c])
              else (T_TEXT, fst (span args_plain s))
  end.

Definition pre_plain (c : N) : bool := negb (mem_chr c pre_specials).
Definition pre_next (s : str) : token_type * str :=
  match s with
  | [] => (T_TEXT, [])
  | c :: _ => if mem_chr c pre_specials then (T_LITERAL, [c])
              else (T_TEXT, fst (span pre_plain s))
  end.

Lemma span_cons p c r : p c = true -> fst (span p (c :: r)) = c :: fst (span p r).
Proof. intros H. simpl. rewrite H. destruct (span p r); reflexivity. Qed.

Lemma span_prefix p s : exists r, s = fst (span p s) ++ r.
Proof. exists (snd (span p s)). symmetry; apply span_app. Qed.

Lemma current_char_tail tb : current_char tb = hd_error (tail tb).
Proof.
  unfold current_char, tail. generalize (current_line tb), (tb_column tb).
  intros s n; revert s; induction n as [|n IH]; intros [|a s]; simpl; auto.
Qed.

Lemma text_next_prefix s : all_sp s = false ->
  snd (text_next s) <> [] /\ exists r, s = snd (text_next s) ++ r.
Proof.
  destruct s as [|c r]; [discriminate|]. intros _. unfold text_next.
  destruct (N.eqb_spec c SP) as [->|Hn]; [split; [discriminate|exists r; reflexivity]|].
  destruct (mem_chr c text_specials) eqn:E; [split; [discriminate|exists r; reflexivity]|].
  cbn [snd]. split; [|apply span_prefix]. rewrite span_cons; [discriminate|].
  unfold text_plain; cbn [mem_chr]. rewrite E. destruct (N.eqb_spec c SP); [congruence|reflexivity].
Qed.

Lemma args_next_prefix s : all_sp s = false ->
  snd (args_next s) <> [] /\ exists r, s = snd (args_next s) ++ r.
Proof.
  destruct s as [|c r]; [discriminate|]. intros _. unfold args_next.
  destruct (N.eqb_spec c SP) as [->|Hn];
    [cbn [snd]; split; [rewrite span_cons by reflexivity; discriminate|apply span_prefix]|].
  destruct (mem_chr c args_specials) eqn:E; [split; [discriminate|exists r; reflexivity]|].
  cbn [snd]. split; [|apply span_prefix]. rewrite span_cons; [discriminate|].
  unfold args_plain; cbn [mem_chr]. rewrite E. destruct (N.eqb_spec c SP); [congruence|reflexivity].
Qed.

Lemma pre_next_prefix s : all_sp s = false ->
  snd (pre_next s) <> [] /\ exists r, s = snd (pre_next s) ++ r.
Proof.
  destruct s as [|c r]; [discriminate|]. intros _. unfold pre_next.
  destruct (mem_chr c pre_specials) eqn:E; [split; [discriminate|exists r; reflexivity]|].
  cbn [snd]. split; [|apply span_prefix]. rewrite span_cons; [discriminate|].
  unfold pre_plain. rewrite E. reflexivity.
Qed.

Lemma text_next_type s : all_sp s = false -> fst (text_next s) <> T_EOF.
Proof. intros _. unfold text_next; destruct s; [discriminate|]. destruct (N.eqb _ _); [discriminate|]. destruct (mem_chr _ _); discriminate. Qed.
Lemma args_next_type s : all_sp s = false -> fst (args_next s) <> T_EOF.
Proof. intros _. unfold args_next; destruct s; [discriminate|]. destruct (N.eqb _ _); [discriminate|]. destruct (mem_chr _ _); discriminate. Qed.
Lemma pre_next_type s : all_sp s = false -> fst (pre_next s) <> T_EOF.
Proof. intros _. unfold pre_next; destruct s; [discriminate|]. destruct (mem_chr _ _); discriminate. Qed.

Lemma one_token_eq tb ty v :
  one_token tb ty v = Ok (Some ([fst (create_token tb ty v)], snd (create_token tb ty v))).
Proof. unfold one_token. destruct (create_token tb ty v); reflexivity. Qed.

Lemma text_fns_next tb : all_sp (tail tb) = false ->
  run_functions (text_lexer_fns ++ [process_error]) tb =
  Ok ([fst (create_token tb (fst (text_next (tail tb))) (snd (text_next (tail tb))))],
      snd (create_token tb (fst (text_next (tail tb))) (snd (text_next (tail tb))))).
Proof.
  intros H. unfold text_lexer_fns. cbn [app run_functions].
  unfold tl_whitespace, tl_literal, tl_text, cur_in, cur_str. rewrite current_char_tail.
  rewrite !rmatch_plus. fold text_plain.
  destruct (tail tb) as [|c r] eqn:E; [discriminate|]. cbn [hd_error]. unfold text_next.
  rewrite (N.eqb_sym c SP). destruct (N.eqb_spec SP c) as [Hc|Hn].
  - rewrite <- Hc. rewrite span_cons by reflexivity. rewrite one_token_eq. reflexivity.
  - assert (Hp : fst (span (N.eqb SP) (c :: r)) = []).
    { cbn [span]. destruct (N.eqb_spec SP c); [congruence|reflexivity]. }
    rewrite Hp. cbn [rbind]. destruct (mem_chr c text_specials) eqn:Em.
    + rewrite one_token_eq. reflexivity.
    + cbn [rbind]. assert (Hpl : text_plain c = true).
      { unfold text_plain; cbn [mem_chr]. rewrite Em. destruct (N.eqb_spec c SP); [congruence|reflexivity]. }
      rewrite (span_cons text_plain c r Hpl). unfold group; cbn [nth cap_str].
      rewrite one_token_eq. reflexivity.
Qed.

Lemma args_fns_next tb : all_sp (tail tb) = false ->
  run_functions (args_lexer_fns ++ [process_error]) tb =
  Ok ([fst (create_token tb (fst (args_next (tail tb))) (snd (args_next (tail tb))))],
      snd (create_token tb (fst (args_next (tail tb))) (snd (args_next (tail tb))))).
Proof.
  intros H. unfold args_lexer_fns. cbn [app run_functions].
  unfold al_whitespace, al_literal, al_text, cur_in, cur_str. rewrite current_char_tail.
  rewrite !rmatch_plus. fold args_plain.
  destruct (tail tb) as [|c r] eqn:E; [discriminate|]. cbn [hd_error]. unfold args_next.
  rewrite (N.eqb_sym c SP). destruct (N.eqb_spec SP c) as [Hc|Hn].
  - rewrite <- Hc. rewrite span_cons by reflexivity. unfold group; cbn [nth cap_str].
    rewrite one_token_eq. reflexivity.
  - assert (Hp : fst (span (N.eqb SP) (c :: r)) = []).
    { cbn [span]. destruct (N.eqb_spec SP c); [congruence|reflexivity]. }
    rewrite Hp. cbn [rbind]. destruct (mem_chr c args_specials) eqn:Em.
    + rewrite one_token_eq. reflexivity.
    + cbn [rbind]. assert (Hpl : args_plain c = true).
      { unfold args_plain; cbn [mem_chr]. rewrite Em. destruct (N.eqb_spec c SP); [congruence|reflexivity]. }
      rewrite (span_cons args_plain c r Hpl). unfold group; cbn [nth cap_str].
      rewrite one_token_eq. reflexivity.
Qed.

Lemma pre_fns_next tb : all_sp (tail tb) = false ->
  run_functions (pre_lexer_fns ++ [process_error]) tb =
  Ok ([fst (create_token tb (fst (pre_next (tail tb))) (snd (pre_next (tail tb))))],
      snd (create_token tb (fst (pre_next (tail tb))) (snd (pre_next (tail tb))))).
Proof.
  intros H. unfold pre_lexer_fns. cbn [app run_functions].
  unfold pl_literal, pl_text, cur_in, cur_str. rewrite current_char_tail.
  rewrite !rmatch_plus. fold pre_plain.
  destruct (tail tb) as [|c r] eqn:E; [discriminate|]. cbn [hd_error]. unfold pre_next.
  destruct (mem_chr c pre_specials) eqn:Em.
  - rewrite one_token_eq. reflexivity.
  - cbn [rbind]. assert (Hpl : pre_plain c = true) by (unfold pre_plain; rewrite Em; reflexivity).
    rewrite (span_cons pre_plain c r Hpl). unfold group; cbn [nth cap_str].
    rewrite one_token_eq. reflexivity.
Qed.

Definition text_line_toks := line_toks text_next.
Definition args_line_toks := line_toks args_next.
Definition pre_line_toks := line_toks pre_next.

Definition lex_text_ok := lex_inline text_next text_lexer_fns text_next_prefix text_next_type text_fns_next.
Definition lex_args_ok := lex_inline args_next args_lexer_fns args_next_prefix args_next_type args_fns_next.
Definition lex_pre_ok := lex_inline pre_next pre_lexer_fns pre_next_prefix pre_next_type pre_fns_next.

(* One line: the tokens of the line and EOF. *)
Lemma text_lines_single s : no_chr NL s -> s <> [] -> text_lines s = [s].
Proof. intros H Hn. unfold text_lines. destruct s; [congruence|]. apply split_on_none; exact H. Qed.

Lemma lines_toks_single next s : all_sp s = false -> lines_toks next [s] = line_toks next s.
Proof. intros H. cbn [lines_toks]. rewrite H, app_nil_r. reflexivity. Qed.
