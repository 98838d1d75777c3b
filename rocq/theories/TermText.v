(* TermText.v -- the parsers of texts, arguments and conditions never reach a bound *)
From Verif Require Export TermFacts.
From Verif Require Import LexerThms InlineInst ParseFacts.

Ltac calm := repeat first
  [ assumption | apply calm_ret | apply calm_pget | apply calm_pmod | apply calm_peek | apply calm_peek_is
  | apply calm_get | (apply calm_collect; assumption) | (apply calm_raise; discriminate)
  | (apply calm_bind; [assumption| |intros ?])
  | apply calm_with ].

Section Calm.
  Context (I : list token -> Prop) (Hc : closed I) (He : forall r, I r -> to_eof r).

  Lemma pp_calm e : Forall (calm I) (pp_fns e).
  Proof.
    unfold pp_fns. constructor; [|constructor; [|constructor; [|constructor; [|constructor]]]].
    - unfold pp_escaped, pp_save, get_tv, get_tok. calm.
    - unfold pp_verbatim, pp_save, get_tv, get_tok. calm.
    - unfold pp_curly, pp_save, get_tv, get_tok. calm.
      destruct (startswith LB (t_value _)).
      + calm. match goal with |- calm _ (if ?b then _ else _) => destruct b end; calm.
      + destruct (dget _ e); calm.
    - unfold pp_pass, pp_save, get_tok. calm.
  Qed.

  Lemma ap_calm ctx : Forall (calm I) (ap_fns ctx).
  Proof.
    assert (V : calm I ap_value).
    { unfold ap_value, is_tv, get_tv, get_ty. calm. match goal with |- calm _ (if ?b then _ else _) => destruct b end; unfold get_tv; calm. }
    unfold ap_fns. constructor; [|constructor; [|constructor]].
    - unfold ap_named_argument, get_tv, get_ty. calm.
    - unfold ap_unnamed_argument. calm. match goal with |- calm _ (if ?b then _ else _) => destruct b end; calm.
  Qed.
End Calm.

Lemma closed_any : closed (fun _ => True).
Proof. intros a b _ _ _. exact I. Qed.

(* the tokens of the inline lexers *)
Lemma inline_eof next fns text sl sc src :
  (forall text sl sc src, exists toks, lex fns (tb_init text sl sc src) = Ok toks /\
      map tv toks = lines_toks next (text_lines text) ++ [(T_EOF, [])] /\
      tokens_in (text_lines text) sl sc src toks (0, 0) (length (text_lines text), 0)) ->
  exists toks, lex fns (tb_init text sl sc src) = Ok toks /\ toks <> [] /\ to_eof toks /\
    map tv toks = lines_toks next (text_lines text) ++ [(T_EOF, [])].
Proof.
  intros H. destruct (H text sl sc src) as (toks & H1 & H2 & _). exists toks. split; [exact H1|].
  destruct (map_tv_app _ _ _ H2) as (a & b & E & _ & Hb). destruct (map_tv_cons _ _ _ _ Hb) as (c & r & -> & Hr).
  apply map_tv_nil in Hr. subst r toks. split; [destruct a; discriminate|]. split; [exists a, c; reflexivity|exact H2].
Qed.

Lemma preprocess_calm e text o : preprocess e text o <> Exc ExFuel /\ preprocess e text o <> Exc ExTokenError.
Proof.
  unfold preprocess, buffer, lex_pre. destruct (inline_eof pre_next pre_lexer_fns text (o_line o) (o_column o) (o_source o) lex_pre_ok) as (toks & -> & Hn & He & _).
  pose proof (prun_calm to_eof toks [] (pp_fns e) closed_eof (pp_calm to_eof closed_eof (fun _ H => H) e) Hn He) as K.
  pose proof (@prun_no_token pp_state (Ok toks) [] (pp_fns e) ltac:(discriminate)) as K'.
  destruct (prun (Ok toks) [] (pp_fns e)) as [x|ex]; cbn [rbind]; [split; discriminate|split; intros [= ->]; congruence].
Qed.

Definition fine_res {A} (r : res A) : Prop := r <> Exc ExFuel /\ r <> Exc ExTokenError.
Lemma fine_ok {A} (a : A) : fine_res (Ok a).
Proof. split; discriminate. Qed.
Lemma fine_exc {A} e : e <> ExFuel -> e <> ExTokenError -> fine_res (@Exc A e).
Proof. split; congruence. Qed.
Lemma fine_bind {A B} (r : res A) (f : A -> res B) : fine_res r -> (forall a, fine_res (f a)) -> fine_res (rbind r f).
Proof. intros [H1 H2] K. destruct r as [a|e]; [apply K|]. cbn. split; congruence. Qed.
Ltac fine := repeat first [ apply fine_ok | (apply fine_exc; discriminate) | (apply fine_bind; [|intros ?]) ].

Lemma split_into_fine parts v : forall out, fine_res (split_into parts v out).
Proof.
  induction parts as [|k rest IH]; intros out; [apply fine_ok|]. cbn [split_into]. destruct rest as [|k2 rest]; [apply fine_ok|].
  destruct (dget k out) as [[]|]; try (apply fine_exc; destruct rest; discriminate); fine; apply IH.
Qed.
Lemma asdict_fine e : fine_res (env_asdict e).
Proof.
  unfold env_asdict, nest_flattened_dict. generalize (@nil (str * env_val)). induction e as [|[k v] e IH]; intros acc; [apply fine_ok|].
  cbn [nest_items]. apply fine_bind; [apply split_into_fine|]. intros acc'. apply IH.
Qed.

Lemma isolate_fine e ctx x : fine_res (isolate e ctx x).
Proof.
  unfold isolate. destruct (1 <? _); [fine|]. destruct (1 <? _); [fine|]. destruct (hd_error _) as [alias|]; [|fine].
  apply fine_bind; [|intros [[u n] s]; fine].
  unfold expand_alias. apply fine_bind; [destruct (env_get e _); fine; apply asdict_fine|]. intros repl.
  destruct (dget _ repl) as [[]|]; fine.
  - destruct (dget _ _) as [[]|]; fine.
  - destruct (dget _ _) as [[]|]; fine.
Qed.
Lemma preprocess_fine e text o : fine_res (preprocess e text o).
Proof. apply preprocess_calm. Qed.
Lemma parse_arguments_fine e text o : fine_res (parse_arguments e text o).
Proof.
  unfold parse_arguments, buffer, lex_args.
  destruct (inline_eof args_next args_lexer_fns text (o_line o) (o_column o) (o_source o) lex_args_ok) as (toks & -> & Hn & He & _).
  cbn [rbind]. apply fine_bind; [|intros x; apply isolate_fine]. split.
  - apply (prun_calm to_eof); auto using closed_eof. apply ap_calm; auto using closed_eof.
  - apply prun_no_token. discriminate.
Qed.
Lemma process_arguments_fine e t : fine_res (process_arguments e t).
Proof. apply parse_arguments_fine. Qed.
Lemma process_arguments_with_variables_fine e t : fine_res (process_arguments_with_variables e t).
Proof. apply fine_bind; [apply preprocess_fine|]. intros u. apply parse_arguments_fine. Qed.

Lemma lex_condition_fine text o : fine_res (lex_condition (buffer text o)) /\ forall toks, lex_condition (buffer text o) = Ok toks -> toks <> [].
Proof.
  destruct (all_lexers_total lex_condition text (o_line o) (o_column o) (o_source o)) as [[(toks & E & ts & eof & -> & _)|(a & b & c & E)] _].
  - right; right; right; right; left; reflexivity.
  - unfold buffer. rewrite E. split; [apply fine_ok|]. intros toks K. apply Ok_inv in K. subst toks. destruct ts; discriminate.
  - unfold buffer. rewrite E. split; [fine|discriminate].
Qed.
Lemma parse_condition_fine text o : fine_res (parse_condition text o).
Proof.
  unfold parse_condition. destruct (lex_condition_fine text o) as [[F1 F2] H]. destruct (lex_condition (buffer text o)) as [toks|ex].
  - split; [|apply prun_no_token; discriminate]. apply (prun_calm (fun _ => True)); auto using closed_any.
    constructor; [|constructor]. assert (Hc : closed (fun _ => True)) by apply closed_any. unfold cp_condition, get_ty. calm.
  - split; [|apply prun_no_token; congruence]. unfold prun. cbn. congruence.
Qed.
Lemma make_control_fine e p op c : fine_res (make_control e p op c).
Proof.
  unfold make_control. apply fine_bind.
  - apply fine_bind; [apply preprocess_fine|]. intros u. apply parse_condition_fine.
  - intros [n|]; [|fine]. unfold new_control. destruct (str_eqb _ _); [|fine]. destruct (str_eqb _ _); [fine|]. destruct (str_eqb _ _); fine.
Qed.
Lemma run_control_fine e c : fine_res (run_control e c).
Proof. unfold run_control. destruct (dget _ e); fine. Qed.

(* ------------------------------------------------------------ texts *)
Definition not_comma (t : token) : Prop := token_eqb t comma_tok = false.
Definition text_toks (rem : list token) : Prop := to_eof rem /\ Forall not_comma rem.
Lemma closed_text : closed text_toks.
Proof. apply closed_and; [apply closed_eof|apply closed_all]. Qed.
Definition below (n : nat) (rem : list token) : Prop := text_toks rem /\ length rem < n.
Lemma closed_below n : closed (below n).
Proof. apply closed_and; [apply closed_text|apply closed_len]. Qed.
Lemma below_eof n r : below n r -> to_eof r.
Proof. intros [[H _] _]. exact H. Qed.
Lemma below_step n r r' : below (S n) r -> below (S n) r' -> length r' < length r -> below n r'.
Proof. intros [_ H] [H' _] Hl. split; [exact H'|lia]. Qed.
Lemma below_weak n r : below n r -> text_toks r.
Proof. intros [H _]. exact H. Qed.
Lemma bstep n r r' : below n r -> below n r' -> length r' < length r -> below (pred n) r'.
Proof. intros [_ H] [H' _] Hl. split; [exact H'|lia]. Qed.

Lemma eats_peeked (I : list token -> Prop) {X A} (g : token -> P X A) : closed I ->
  (forall t, eats (fun r => I r /\ exists u r', r = u :: r' /\ u = t) (g t)) -> eats I (pbind (ppeek None None None) g).
Proof.
  intros Hc H rem x Hr Hi. destruct rem as [|t r]; [congruence|]. unfold pbind, ppeek. cbn [fst snd peek_tok check_token].
  apply (H t); [discriminate|]. split; [exact Hi|]. eauto.
Qed.

Lemma check_cases t ty v f : check_token t ty v f = Ok t \/ check_token t ty v f = Exc ExTokenError.
Proof.
  unfold check_token. destruct ty as [ty|]; [destruct (negb _); [auto|]|]; (destruct v as [v|]; [destruct (negb _); [auto|]|]); (destruct f as [f|]; [destruct (negb _); auto|auto]).
Qed.

(* a function that starts with a test of the first token *)
Definition heads ty v f (r : list token) : Prop := exists t r', r = t :: r' /\ check_token t ty v f = Ok t.
Definition heads_not ty v f (r : list token) : Prop := exists t r', r = t :: r' /\ check_token t ty v f = Exc ExTokenError.
Lemma calm_test (I : list token -> Prop) {X A} ty v f (g : bool -> P X A) :
  calm (fun r => I r /\ heads ty v f r) (g true) -> calm (fun r => I r /\ heads_not ty v f r) (g false) ->
  calm I (pbind (peek_is ty v f) g).
Proof.
  intros H1 H2 rem x Hr Hi. destruct rem as [|t r]; [congruence|].
  destruct (check_cases t ty v f) as [E|E].
  - assert (E' : pbind (peek_is ty v f) g (t :: r, x) = g true (t :: r, x)) by (unfold pbind, peek_is; cbn [fst peek_tok]; rewrite E; reflexivity).
    rewrite E'. apply H1; [discriminate|]. split; [exact Hi|]. exists t, r. auto.
  - assert (E' : pbind (peek_is ty v f) g (t :: r, x) = g false (t :: r, x)) by (unfold pbind, peek_is; cbn [fst peek_tok]; rewrite E; reflexivity).
    rewrite E'. apply H2; [discriminate|]. split; [exact Hi|]. exists t, r. auto.
Qed.
Lemma eats_bind2 (I' I J : list token -> Prop) {X A B} (f : P X A) (g : A -> P X B) : closed I -> (forall r, I' r -> I r) ->
  eats I' f -> (forall a, calm J (g a)) ->
  (forall r r', I r -> I r' -> length r' < length r -> J r') -> eats I' (pbind f g).
Proof.
  intros Hc Hw Hf Hg Hj rem x Hr Hi. destruct (Hf rem x Hr Hi) as (A1 & A2 & A3 & A4). unfold pbind.
  destruct (f (rem, x)) as [[rem' x'] [a|e]]; cbn [fst snd] in *.
  2:{ split; [exact A1|]. split; [exact A2|]. split; [congruence|discriminate]. }
  specialize (A4 a eq_refl).
  assert (Hi' : I rem') by exact (Hc _ _ A2 A1 (Hw _ Hi)).
  destruct (Hg a rem' x' A2 (Hj _ _ (Hw _ Hi) Hi' A4)) as (B1 & B2 & B3). split; [eapply suffix_trans; eassumption|].
  split; [exact B2|]. split; [exact B3|]. intros b _. apply suffix_length in B1. lia.
Qed.

Lemma args_loop_calm n : calm (below n) (tp_args_loop n).
Proof.
  induction n as [|n IH]; [intros rem x Hr [_ H]; lia|]. cbn [tp_args_loop].
  assert (Hc := closed_below (S n)). assert (Hc' := closed_below n).
  apply calm_test; (apply calm_test; [cbn [orb]; calm|]); cbn [orb]; [calm|].
  assert (W : forall I', (forall r, I' r -> below (S n) r) -> forall r, I' r -> to_eof r) by (intros I' H r Hr; eapply below_eof, H, Hr).
  apply calm_test; apply eats_calm.
  - refine (eats_bind2 _ (below (S n)) (below n) _ _ Hc _ _ _ (below_step n)).
    + intros r [[[H _] _] _]. exact H.
    + refine (eats_bind2 _ (below (S n)) (below (S n)) _ _ Hc _ _ _ (fun r r' _ H _ => H)).
      * intros r [[[H _] _] _]. exact H.
      * apply eats_get; [intros r [[[H _] _] _]; eapply eof_weak, below_eof, H|discriminate].
      * intros o. assert (He : forall r, below (S n) r -> to_eof r) by apply below_eof. unfold get_tv. calm.
    + intros a. calm.
  - refine (eats_bind2 _ (below (S n)) (below n) _ _ Hc _ _ _ (below_step n)).
    + intros r [[[H _] _] _]. exact H.
    + intros r2 x2 _ [[[Hb2 H1] H2] _]. unfold pcollect_join, pcollect, pbind. cbn [fst snd].
      destruct (collect_calm (macro_stops ++ [EOF_tok]) false r2 (below_eof _ _ Hb2)) as (c & rest & Ec & S1 & S2 & S3).
      { rewrite token_in_app. apply orb_true_r. }
      rewrite Ec. unfold pret. cbn [fst snd]. split; [exact S1|]. split; [exact S2|]. split; [discriminate|]. intros _ _.
      destruct H1 as (t & r & -> & E1). destruct H2 as (t' & r' & E & E2). injection E as <- <-. apply (S3 t r eq_refl).
      rewrite token_in_app. unfold token_in, macro_stops. cbn [existsb].
      destruct Hb2 as [[_ Hf] _]. inversion Hf as [|? ? Hn _]. unfold not_comma in Hn. rewrite Hn.
      assert (token_eqb t rpar_tok = false) as ->.
      { destruct (token_eqb t rpar_tok) eqn:K; [|reflexivity]. exfalso. apply token_eqb_spec in K as [K1 K2].
        revert E1. unfold check_token. cbn in K1, K2. rewrite K1, K2. discriminate. }
      assert (token_eqb t EOF_tok = false) as ->; [|reflexivity].
      destruct (token_eqb t EOF_tok) eqn:K; [|reflexivity]. exfalso. apply token_eqb_spec in K as [K1 _].
      revert E2. unfold check_token. cbn in K1. rewrite K1. discriminate.
    + intros a. calm.
Qed.
Lemma macro_args_calm : calm text_toks tp_macro_args.
Proof.
  intros rem x Hr Hi. unfold tp_macro_args. cbn [fst].
  assert (K : calm (below (S (length rem))) (let* ts := tp_args_loop (S (length rem)) in pret (from_token_list ts []))).
  { assert (Hc := closed_below (S (length rem))). assert (K := args_loop_calm (S (length rem))). calm. }
  apply K; [exact Hr|]. split; [exact Hi|lia].
Qed.

(* one of several functions *)
Lemma eats_first (I' : list token -> Prop) fs last : Forall (eats I') fs -> eats I' last -> eats I' (tp_first fs last).
Proof.
  induction 1 as [|f fs Hf _ IH]; intros Hl; [exact Hl|]. cbn [tp_first]. intros rem x Hr Hi. unfold pbind, pwith.
  destruct (Hf rem x Hr Hi) as (A1 & A2 & A3 & A4). destruct (f (rem, x)) as [[rem' x'] [a|e]]; cbn [fst snd] in *.
  - unfold pret. cbn [fst snd]. split; [exact A1|]. split; [exact A2|]. split; [discriminate|]. intros b _. exact (A4 a eq_refl).
  - destruct e; cbn [fst snd]; [exact (IH Hl rem x' Hr Hi)| | |];
      (split; [apply suffix_refl|]; split; [exact Hr|]; split; [congruence|discriminate]).
Qed.

Section Text.
  Context (e : env) (nest : nest_fn).
  Context (nest_ok : forall text o s, fst (fst (nest text o s)) = fst s /\ snd (nest text o s) <> Exc ExFuel).

  Lemma nest_calm I text o : calm I (nest text o).
  Proof.
    intros rem x Hr Hi. destruct (nest_ok text o (rem, x)) as [H1 H2]. cbn [fst] in H1. rewrite H1.
    split; [apply suffix_refl|]. split; [exact Hr|exact H2].
  Qed.
  Lemma needed_calm (I : list token -> Prop) p n m c : calm I (needed p n m c).
  Proof. unfold needed. destruct (named_arg p n); [apply calm_ret|apply calm_raise; discriminate]. Qed.
  Lemma link_content_calm (I : list token -> Prop) t o : calm I (tp_link_content nest t o).
  Proof. unfold tp_link_content. destruct o; [apply nest_calm|apply calm_ret]. Qed.
  Lemma fine_calm (I : list token -> Prop) {X A} (r : res A) : fine_res r -> calm I (@plift X A r).
  Proof. intros [H _]. apply calm_lift, H. Qed.
  Lemma new_control_fine p v c b ctx : fine_res (new_control p v c b ctx).
  Proof. unfold new_control. destruct (str_eqb _ _); [|fine]. destruct (str_eqb _ _); [fine|]. destruct (str_eqb _ _); fine. Qed.

  Ltac calm2 := repeat first
    [ assumption | apply calm_ret | apply calm_pget | apply calm_pmod | apply nest_calm | apply needed_calm | apply link_content_calm
    | (apply calm_raise; discriminate) | (apply calm_bind; [assumption| |intros ?]) ].

  Lemma control_calm (I : list token -> Prop) name p c : closed I -> calm I (tp_control e nest name p c).
  Proof.
    intros Hc. unfold tp_control. destruct (split_on _ _) as [|op [|cond [|? ?]]]; try (apply calm_raise; discriminate).
    destruct (negb _); [apply calm_raise; discriminate|].
    apply calm_bind; [assumption| |intros node].
    { match goal with |- context [parse_condition ?t ?o] => destruct (parse_condition_fine t o) as [H1 H2]; destruct (parse_condition t o) as [[n|]|[]] end;
        try (apply calm_ret); try (apply calm_raise; first [discriminate|congruence]). }
    apply calm_bind; [assumption|apply fine_calm, new_control_fine|]. intros ctl.
    apply calm_bind; [assumption|apply needed_calm|]. intros tc.
    apply calm_bind; [assumption|apply fine_calm, run_control_fine|]. intros test.
    apply calm_bind; [assumption| |].
    { destruct (str_eqb op _); [|apply calm_ret]. destruct (if test then _ else _) as [t|]; [|apply calm_raise; discriminate].
      apply calm_bind; [assumption| |intros; apply calm_ret]. apply calm_lift. unfold ifeval_text.
      destruct (env_get e _) as [v| |]; [destruct v as [ |[|]| |]| |]; discriminate. }
    intros [t|]; [apply nest_calm|apply calm_ret].
  Qed.
  Lemma macro_rest_calm (I : list token -> Prop) name p c : closed I -> calm I
     (let n := t_value name in
      if startswith (lit "if") n then tp_control e nest name p c
      else if str_eqb n (lit "link") then tp_link nest p c
      else if str_eqb n (lit "header") then tp_header_link nest p c
      else if str_eqb n (lit "mailto") then tp_mailto nest p c
      else if str_eqb n (lit "image") then tp_image p c
      else if str_eqb n (lit "footnote") then tp_footnote p c
      else if str_eqb n (lit "class") then tp_class nest p c
      else if str_eqb n (lit "unicode") then tp_unicode p c
      else if str_eqb n (lit "raw") then tp_raw p c
      else pret [NMacro n (arguments_of p) c]).
  Proof.
    intros Hc. cbv zeta. destruct (startswith _ _); [apply control_calm, Hc|].
    destruct (str_eqb _ _); [unfold tp_link; calm2|].
    destruct (str_eqb _ _).
    { unfold tp_header_link; calm2. destruct (named_arg _ _); calm2. }
    destruct (str_eqb _ _); [unfold tp_mailto; calm2|].
    destruct (str_eqb _ _); [unfold tp_image; calm2|].
    destruct (str_eqb _ _); [unfold tp_footnote; calm2|].
    destruct (str_eqb _ _); [unfold tp_class; calm2|].
    destruct (str_eqb _ _); [unfold tp_unicode; calm2|].
    destruct (str_eqb _ _); [unfold tp_raw; calm2|apply calm_ret].
  Qed.

  (* not at the end *)
  Definition going (n : nat) (r : list token) : Prop := below n r /\ exists t u r', r = t :: u :: r'.
  Lemma going_below n r : going n r -> below n r.
  Proof. intros [H _]. exact H. Qed.
  Lemma going_eof n r : going n r -> to_eof_type r.
  Proof. intros [H _]. eapply eof_weak, below_eof, H. Qed.
  Lemma eats_tok n {X} : eats (going n) (@get_tok X).
  Proof.
    intros rem x Hr (_ & t & u & r & ->). unfold get_tok, pget_token. cbn [fst peek_tok check_token snd next_rem].
    split; [exists [t]; reflexivity|]. split; [discriminate|]. split; [discriminate|]. intros _ _. cbn. lia.
  Qed.
  Lemma item_eats n words : (forall stops, token_in EOF_tok stops = true -> calm (below n) (words stops)) ->
    eats (going (S n)) (tp_item e nest words).
  Proof.
    intros Hw. assert (Hc := closed_below (S n)). assert (Hc' := closed_below n).
    assert (He : forall r, below (S n) r -> to_eof r) by apply below_eof.
    assert (G : forall B ty v f (g : token -> P tx B), ty <> T_EOF -> (forall a, calm (below n) (g a)) -> eats (going (S n)) (pbind (@pget_token tx (Some ty) v f) g)).
    { intros B ty v f g Hty Hg. refine (eats_bind2 _ (below (S n)) (below n) _ _ Hc (going_below _) _ Hg (below_step n)).
      apply eats_get; [apply going_eof|exact Hty]. }
    assert (He' : forall r, below n r -> to_eof r) by apply below_eof.
    apply eats_first.
    2:{ unfold tp_word. refine (eats_bind2 _ (below (S n)) (below n) _ _ Hc (going_below _) (eats_tok _) _ (below_step n)). intros t. apply calm_ret. }
    constructor; [|constructor; [|constructor; [|constructor; [|constructor; [|constructor]]]]].
    - unfold tp_backslash. apply G; [discriminate|]. intros a. unfold get_tok. calm.
    - unfold tp_macro. apply G; [discriminate|]. intros o.
      apply calm_bind; [exact Hc'|apply calm_get|]. intros name.
      apply calm_bind; [exact Hc'|apply calm_get|]. intros _.
      apply calm_bind; [exact Hc'|apply calm_get|]. intros _.
      apply calm_bind; [exact Hc'|eapply calm_weak; [apply below_weak|apply macro_args_calm]|]. intros argt.
      apply calm_bind; [exact Hc'|apply calm_get|]. intros cl.
      apply calm_bind; [exact Hc'|apply fine_calm, process_arguments_fine|]. intros p.
      apply macro_rest_calm, Hc'.
    - unfold tp_verbatim. apply G; [discriminate|]. intros a. unfold get_tv. calm.
    - unfold tp_escaped. apply G; [discriminate|]. intros a. unfold get_tv. calm.
    - unfold tp_style. apply G; [discriminate|]. intros a.
      apply calm_bind; [exact Hc'|apply Hw; cbn [style_stops token_in existsb]; rewrite orb_true_r; reflexivity|].
      intros content. unfold get_tv. calm.
  Qed.

  Lemma words_calm n : forall stops, token_in EOF_tok stops = true -> calm (below n) (tp_words e nest n stops).
  Proof.
    induction n as [|n IH]; intros stops Hs; [intros rem x Hr [_ H]; lia|]. cbn [tp_words].
    intros rem x Hr Hi. destruct rem as [|t r]; [congruence|].
    assert (E : forall A (g : token -> P tx A), pbind (ppeek None None None) g (t :: r, x) = g t (t :: r, x)) by reflexivity.
    rewrite E. clear E. destruct (token_in t stops) eqn:Et.
    { apply calm_ret with (I := below (S n)); [discriminate|exact Hi]. }
    assert (Hg : going (S n) (t :: r)).
    { split; [exact Hi|]. destruct r as [|u r]; [exfalso|eauto]. destruct Hi as [[([|? b] & c & Eb) _] _]; [|destruct b; discriminate].
      injection Eb as ->. revert Hs Et. unfold token_in. rewrite existsb_exists. intros (u & H1 & H2). intros K.
      assert (existsb (token_eqb (mkToken T_EOF [] c)) stops = true); [|congruence]. apply existsb_exists. exists u. split; [exact H1|exact H2]. }
    assert (Hc := closed_below (S n)).
    assert (K : eats (going (S n)) (let* nodes := tp_item e nest (tp_words e nest n) in
        match nodes with
        | [] => pret []
        | _ => let* rest := tp_words e nest n stops in pret (nodes ++ rest)
        end)).
    { refine (eats_bind2 _ (below (S n)) (below n) _ _ Hc (going_below _) (item_eats n _ IH) _ (below_step n)).
      intros [|a l]; [apply calm_ret|]. apply calm_bind; [apply closed_below|apply IH, Hs|intros; apply calm_ret]. }
    exact (eats_calm _ _ K (t :: r) x Hr Hg).
  Qed.
  Lemma sentence_calm : calm text_toks (tp_sentence e nest).
  Proof.
    intros rem x Hr Hi. unfold tp_sentence. cbn [fst].
    assert (K : calm (below (S (length rem))) (let* nodes := tp_words e nest (S (length rem)) text_stops in
       pmod (fun x => mkTx (tx_nodes x ++ group_words [] nodes) (tx_foot x) (tx_links x) (tx_next x)) ;;; pret true)).
    { apply calm_bind; [apply closed_below|apply words_calm; reflexivity|]. intros nodes. apply calm_bind; [apply closed_below|apply calm_pmod|intros; apply calm_ret]. }
    apply K; [exact Hr|]. split; [exact Hi|lia].
  Qed.
End Text.

Definition COMMA_s : str := lit ",".
Lemma text_next_comma s : text_next s <> (T_LITERAL, COMMA_s).
Proof.
  unfold text_next. destruct s as [|c r]; [discriminate|]. destruct (N.eqb c SP); [discriminate|].
  destruct (mem_chr c text_specials) eqn:E; [|discriminate]. intros H. assert (c = 44%N) as -> by (injection H as H; exact H). discriminate E.
Qed.
Lemma line_no_comma n : forall s, ~ In (T_LITERAL, COMMA_s) (ltoks text_next n s).
Proof.
  induction n as [|n IH]; intros s; [intros []|]. cbn [ltoks]. destruct (all_sp s); [intros []|].
  intros [H|H]; [exact (text_next_comma _ H)|exact (IH _ H)].
Qed.
Lemma lines_no_comma ls : ~ In (T_LITERAL, COMMA_s) (lines_toks text_next ls).
Proof.
  induction ls as [|l ls IH]; [intros []|]. cbn [lines_toks]. rewrite in_app_iff. intros [H|H]; [|exact (IH H)].
  destruct (all_sp l); [|exact (line_no_comma _ _ H)]. destruct l; [destruct ls; [destruct H|]|]; (destruct H as [H|[]]; discriminate H).
Qed.
Lemma lex_text_toks text o : exists toks, lex_text (buffer text o) = Ok toks /\ toks <> [] /\ text_toks toks.
Proof.
  unfold buffer, lex_text. destruct (inline_eof text_next text_lexer_fns text (o_line o) (o_column o) (o_source o) lex_text_ok) as (toks & -> & Hn & He & Hm).
  exists toks. split; [reflexivity|]. split; [exact Hn|]. split; [exact He|]. apply Forall_forall. intros t Ht. unfold not_comma.
  destruct (token_eqb t comma_tok) eqn:E; [|reflexivity]. exfalso. apply token_eqb_spec in E as [E1 E2].
  assert (In (T_LITERAL, COMMA_s) (map tv toks)) as K.
  { apply in_map_iff. exists t. split; [|exact Ht]. unfold tv. rewrite E1, E2. reflexivity. }
  rewrite Hm in K. apply in_app_iff in K as [K|[K|[]]]; [exact (lines_no_comma _ K)|discriminate K].
Qed.

(* the parser of texts never reaches a bound on the number of its steps *)
Lemma tp_run_fine depth : forall e text o next, fine_res (tp_run depth e text o next).
Proof.
  induction depth as [|d IH]; intros e text o next; [apply fine_exc; discriminate|]. cbn [tp_run].
  destruct (lex_text_toks text o) as (toks & -> & Hn & Ht). split; [|apply prun_no_token; discriminate].
  apply (prun_calm text_toks); auto using closed_text. constructor; [|constructor]. apply sentence_calm.
  intros text' o' [rem x]. cbn [snd fst]. destruct (IH e text' o' (tx_next x)) as [H1 _].
  destruct (tp_run d e text' o' (tx_next x)) as [y|ex]; cbn [fst snd]; split; try reflexivity; congruence.
Qed.
