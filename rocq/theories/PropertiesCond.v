(* PropertiesCond.v -- C27: conditions *)
From Verif Require Import LineFacts ParseFacts Cond SpecPre PropertiesPre.

(* A variable name: letters, digits and _ . + - *)
Definition var_name (s : str) : Prop := s <> [] /\ all_chars name_char s.
Definition spaces (s : str) : Prop := forall c, In c s -> c = SP.
Definition op_text (equal : bool) : str := if equal then lit "==" else lit "!=".
Definition condition_text (v sp1 : str) (equal : bool) (sp2 w : str) : str := v ++ sp1 ++ op_text equal ++ sp2 ++ w.
(* the value: up to the end of the line; the spaces before it are not part of it *)
Definition cond_value (w : str) : Prop := ~ In NL w /\ hd_error w <> Some SP.

Lemma spaces_all s : spaces s -> forallb (N.eqb SP) s = true.
Proof. intros H. apply forallb_forall. intros c Hc. rewrite (H c Hc). reflexivity. Qed.

Lemma condition_match v sp1 eq sp2 w : var_name v -> spaces sp1 -> spaces sp2 -> cond_value w ->
  rmatch condition_re (condition_text v sp1 eq sp2 w) =
  Some [Some v; Some sp1; Some (op_text eq); Some sp2; Some w; Some []].
Proof.
  intros [Hv Hv0] Hs1 Hs2 [Hw Hw']. pose proof (all_chars_b _ _ _ name_chr_spec Hv0) as Hv'. unfold condition_re, condition_text.
  assert (Hop : exists c d, op_text eq = [c; d] /\ is_name_chr c = false /\ N.eqb SP c = false).
  { destruct eq; eexists; eexists; (split; [reflexivity|]); split; reflexivity. }
  destruct Hop as (c0 & d0 & Eop & Hc0 & Hc0').
  apply rmatch_rep; [exact Hv'| |destruct v; [congruence|cbn; lia]|].
  { intros c r E. destruct sp1 as [|s sp1].
    - rewrite Eop in E. cbn in E. injection E as <- _. exact Hc0.
    - cbn in E. injection E as <- _. rewrite (Hs1 s (or_introl eq_refl)). reflexivity. }
  apply rmatch_rep; [apply spaces_all, Hs1| |lia|].
  { intros c r E. rewrite Eop in E. cbn in E. injection E as <- _. exact Hc0'. }
  assert (Hrest : rmatch [RRep (N.eqb SP) 0; RRep any_chr 0; REnd] (sp2 ++ w) = Some [Some sp2; Some w; Some []]).
  { apply rmatch_rep; [apply spaces_all, Hs2| |lia|].
    - intros c r ->. cbn in Hw'. destruct (N.eqb_spec SP c) as [<-|]; [congruence|reflexivity].
    - rewrite <- (app_nil_r w) at 1. apply rmatch_rep; [|discriminate|lia|reflexivity].
      apply forallb_forall. intros c Hc. unfold any_chr. destruct (N.eqb_spec c NL) as [->|]; [contradiction|reflexivity]. }
  cbn [rmatch]. destruct eq; cbn [op_text].
  - rewrite startswith_app. rewrite skipn_app, skipn_all, Nat.sub_diag. cbn [skipn app].
    change (rmatch [RRep (N.eqb SP) 0; RRep any_chr 0; REnd] (sp2 ++ w)) with
      (try_rep (rmatch [RRep any_chr 0; REnd]) (sp2 ++ w) 0 (run_length (N.eqb SP) (sp2 ++ w))) in Hrest.
    cbn [rmatch] in Hrest. rewrite Hrest. reflexivity.
  - change (startswith (lit "==") (lit "!=" ++ sp2 ++ w)) with false. cbv iota.
    rewrite startswith_app. rewrite skipn_app, skipn_all, Nat.sub_diag. cbn [skipn app].
    change (rmatch [RRep (N.eqb SP) 0; RRep any_chr 0; REnd] (sp2 ++ w)) with
      (try_rep (rmatch [RRep any_chr 0; REnd]) (sp2 ++ w) 0 (run_length (N.eqb SP) (sp2 ++ w))) in Hrest.
    cbn [rmatch] in Hrest. rewrite Hrest. reflexivity.
Qed.

Lemma no_nl_cond v sp1 eq sp2 w : var_name v -> spaces sp1 -> spaces sp2 -> cond_value w ->
  no_chr NL (condition_text v sp1 eq sp2 w).
Proof.
  intros [_ Hv0] Hs1 Hs2 [Hw _] H. pose proof (all_chars_b _ _ _ name_chr_spec Hv0) as Hv. unfold condition_text in H. rewrite !in_app_iff in H.
  destruct H as [H|[H|[H|[H|H]]]].
  - rewrite forallb_forall in Hv. specialize (Hv _ H). discriminate.
  - specialize (Hs1 _ H). discriminate.
  - destruct eq; vm_compute in H; intuition discriminate.
  - specialize (Hs2 _ H). discriminate.
  - contradiction.
Qed.

Lemma lex_condition_line v sp1 eq sp2 w o : var_name v -> spaces sp1 -> spaces sp2 -> cond_value w ->
  exists c1 c2 c3 c4, lex_condition (buffer (condition_text v sp1 eq sp2 w) o) =
    Ok [mkToken T_TEXT v c1; mkToken T_TEXT (op_text eq) c2; mkToken T_TEXT w c3; mkToken T_EOF [] c4].
Proof.
  intros Hv Hs1 Hs2 Hw. set (text := condition_text v sp1 eq sp2 w).
  pose proof (condition_match v sp1 eq sp2 w Hv Hs1 Hs2 Hw) as Hm. fold text in Hm.
  pose proof (no_nl_cond v sp1 eq sp2 w Hv Hs1 Hs2 Hw) as Hnl. fold text in Hnl.
  assert (Hlen : length text = length v + length sp1 + 2 + length sp2 + length w).
  { unfold text, condition_text. rewrite !app_length. destruct eq; cbn; lia. }
  assert (Hne : text <> []) by (intros E; rewrite E in Hlen; cbn in Hlen; lia).
  assert (Hsp : all_sp text = false).
  { unfold text, condition_text. destruct Hv as [Hv Hn0]. pose proof (all_chars_b _ _ _ name_chr_spec Hn0) as Hn. destruct v as [|c v]; [congruence|]. cbn [app all_sp].
    cbn in Hn. apply andb_prop in Hn as [Hn _]. destruct (N.eqb_spec c SP) as [->|]; [discriminate|reflexivity]. }
  set (tb := buffer text o). assert (Hl : tb_lines tb = [text]).
  { unfold tb, buffer, tb_init. cbn [tb_lines]. destruct text; [congruence|]. apply split_on_none, Hnl. }
  assert (Hcur : current_line tb = text) by (unfold current_line; rewrite Hl; reflexivity).
  assert (He : tb_eof tb = false).
  { unfold tb_eof. rewrite Hl, Hcur. cbn. destruct text; [congruence|]. reflexivity. }
  assert (Htail : Token.tail tb = text) by (unfold Token.tail; rewrite Hcur; reflexivity).
  assert (Hline : tb_line tb = 0) by reflexivity. assert (Hcol : tb_column tb = 0) by reflexivity. clearbody tb.
  unfold lex_condition, lex.
  assert (Hfuel : exists f, lex_fuel tb = S (S (S f))).
  { unfold lex_fuel. rewrite Hl. cbn [length]. exists (length (concat_str [text])). lia. }
  destruct Hfuel as (f & ->).
  unfold lex_init. cbn [lex_loop lx_tokens lex_done rev]. unfold lex_step at 1. cbn [lx_last lx_tb lx_tokens].
  rewrite (run_base _ _ He), Hcur, Hsp, Htail, Hsp. cbn [cond_lexer_fns app run_functions]. unfold cl_condition at 1. rewrite Hcur, Hm.
  unfold group. cbn [nth cap_str]. unfold create_token. cbn [rbind fst snd app].
  match goal with |- context [mkLexst ?b _ _] => set (tb' := b) end. cbn [lex_loop lx_tokens lex_done rev app t_type]. change (tt_eqb T_TEXT T_EOF) with false.
  assert (Heof : tb_eof tb' = true).
  { unfold tb_eof, tb', current_line, skip. cbn [tb_lines tb_line tb_column]. rewrite Hl, Hline, Hcol. cbn [length nth Nat.eqb andb].
    rewrite Hlen.
    destruct (Nat.leb_spec (length v + length sp1 + 2 + length sp2 + length w) (0 + length v + length sp1 + length (op_text eq) + length sp2 + length w)) as [K|K]; [reflexivity|].
    destruct eq; cbn [op_text] in K; cbn in K; lia. }
  unfold lex_step at 1. cbn [lx_last lx_tb lx_tokens].
  assert (Hpos : position_eqb (tb_position tb) (tb_position tb') = false).
  { unfold position_eqb, tb_position, tb', skip. cbn [tb_line tb_column tb_start_line tb_start_column fst snd].
    apply andb_false_iff. right. apply Nat.eqb_neq. destruct Hv as [Hv _]. destruct v; [congruence|]. cbn [length]. lia. }
  rewrite Hpos. unfold all_functions. cbn [app run_functions]. unfold process_eof. rewrite Heof. cbn [create_token rbind fst snd app].
  cbn [lex_loop lx_tokens lex_done rev app t_type]. rewrite tt_eqb_refl. cbn [rbind lx_tokens].
  do 4 eexists. reflexivity.
Qed.

Lemma parse_condition_line v sp1 eq sp2 w o : var_name v -> spaces sp1 -> spaces sp2 -> cond_value w ->
  exists ctx, parse_condition (condition_text v sp1 eq sp2 w) o = Ok (Some (mkCondition v (op_text eq) w ctx)).
Proof.
  intros Hv Hs1 Hs2 Hw. destruct (lex_condition_line v sp1 eq sp2 w o Hv Hs1 Hs2 Hw) as (c1 & c2 & c3 & c4 & E).
  unfold parse_condition, prun. rewrite E. eexists. reflexivity.
Qed.

(* @if VAR OP VALUE, evaluated in the environment where it is read. *)
Theorem C27_conditions e prefix operator cond v sp1 equal sp2 w :
  var_name v -> spaces sp1 -> spaces sp2 -> cond_value w ->
  (exists t, preprocess e (t_value cond) (origin_of cond) = Ok t /\ t_value t = condition_text v sp1 equal sp2 w) ->
  t_value operator = lit "if" ->
  exists c, make_control e prefix operator cond = Ok c /\
    forall e', (* the environment where the next node is processed *)
    match dget v e' with
    | Some x => exists b, run_control e' c = Ok b /\ (b = true <-> if equal then x = EStr w else x <> EStr w)
    | None => exists ctx, run_control e' c = Exc (parser_error "Variable has not been defined." (Some ctx))
    end.
Proof.
  intros Hv Hs1 Hs2 Hw (t & Hp & Ht) Hop. unfold make_control, process_condition. rewrite Hp. cbn [rbind]. rewrite Ht.
  destruct (parse_condition_line v sp1 equal sp2 w (origin_of cond) Hv Hs1 Hs2 Hw) as (ctx & ->). cbn [rbind].
  unfold new_control. rewrite Hop, str_eqb_refl. cbn [cn_variable cn_comparison cn_value].
  set (ctx' := merge_contexts _ _). exists (mkControl v equal w ctx'). split; [destruct equal; reflexivity|].
  intros e'. unfold run_control. cbn [ct_variable ct_equal ct_value ct_ctx]. destruct (dget v e') as [x|]; [|eauto].
  assert (K : value_is x w = true <-> x = EStr w).
  { destruct x as [s| | |]; cbn; try (split; discriminate). rewrite str_eqb_eq. split; congruence. }
  destruct equal; [exists (value_is x w)|exists (negb (value_is x w))]; (split; [reflexivity|]).
  - exact K.
  - rewrite negb_true_iff, <- K. destruct (value_is x w); split; congruence.
Qed.

(* Any other operator is an error, at the operator. *)
Theorem C27_unknown_operator e prefix operator cond n : process_condition e cond = Ok (Some n) ->
  t_value operator <> lit "if" ->
  make_control e prefix operator cond =
  Exc (parser_error "Control operator is not supported." (Some (merge_contexts (t_ctx prefix) (t_ctx cond)))).
Proof.
  intros H Hop. unfold make_control. rewrite H. cbn [rbind]. unfold new_control.
  destruct (str_eqb (t_value operator) (lit "if")) eqn:E; [apply str_eqb_eq in E; contradiction|reflexivity].
Qed.

Definition cond_tok (s : string) : token := mkToken T_TEXT (lit s) (mkContext 0 4 0 4 None).
Example C27_ex :
  let e := [(lit "flag", EStr (lit "on")); (lit "app.n", EStr (lit "2"))] in
  (match make_control e (cond_tok "@") (cond_tok "if") (cond_tok "flag == on") with
   | Ok c => run_control e c = Ok true | _ => False end) /\
  (match make_control e (cond_tok "@") (cond_tok "if") (cond_tok "app.n!=2") with
   | Ok c => run_control e c = Ok false | _ => False end) /\
  (match make_control e (cond_tok "@") (cond_tok "if") (cond_tok "none==2") with
   | Ok c => match run_control e c with Exc (ExMau _) => True | _ => False end | _ => False end) /\
  (match make_control e (cond_tok "@") (cond_tok "unless") (cond_tok "flag==on") with Exc (ExMau _) => True | _ => False end).
Proof. vm_compute. repeat split. Qed.

(* the hypotheses of C27_conditions for that first case *)
Example C27_ex_hyps : var_name (lit "flag") /\ spaces (lit " ") /\ cond_value (lit "on") /\
  condition_text (lit "flag") (lit " ") true (lit " ") (lit "on") = lit "flag == on" /\ no_meaning (lit "flag == on").
Proof.
  repeat split; try discriminate; try reflexivity.
  - intros c Hc. vm_compute in Hc |- *. intuition.
  - intros c [<-|[]]. reflexivity.
  - intros H. vm_compute in H. intuition discriminate.
  - intros K. vm_compute in H, K. intuition congruence.
  - intros ->. vm_compute in H. intuition discriminate.
Qed.

Print Assumptions C27_conditions.
Print Assumptions C27_unknown_operator.
