(* MacroFacts.v -- how the text parser reads a macro *)
From Verif Require Export TextFacts.

Lemma map_lit toks c ts : map tv toks = (T_LITERAL, c) :: ts -> exists q r, toks = mkToken T_LITERAL c q :: r /\ map tv r = ts.
Proof. apply map_tv_cons. Qed.
Lemma specials_same c : mem_chr c text_specials = true <-> In c SPECIAL.
Proof. rewrite mem_chr_In. unfold text_specials, SPECIAL. cbn. tauto. Qed.

(* ------------------------------------------------ the text between the brackets *)
(* No closing bracket and no backslash. *)
Definition no_close (w : str) : Prop := forall c, In c w -> ~ In c (lit ")\").
Definition rest_ok (w : str) : Prop := no_close w /\ hd_error w <> Some QUOTE.

Lemma close_not_stop w t : no_close w -> In (tv t) (tk w) ->
  token_in t (macro_stops ++ [EOF_tok]) = false /\ token_eqb t escape_tok = false /\ t_value t <> [] /\ t_type t <> T_EOF /\
  tv t <> (T_LITERAL, lit ")").
Proof.
  intros Hw Ht. pose proof (tk_tok w) as Hk. rewrite Forall_forall in Hk. specialize (Hk _ Ht) as [Hne Hk].
  assert (K : forall c, In c (lit ")\") -> tv t <> (T_LITERAL, [c])).
  { intros c Hc K. rewrite K in Ht. apply (Hw c); [|exact Hc]. apply (tk_in w T_LITERAL [c] c Ht). left; reflexivity. }
  assert (Kc : tv t <> (T_LITERAL, [COMMA])).
  { intros K'. rewrite K' in Hk. destruct Hk as [Hk|(c & Hk & Hs)]; [discriminate|]. injection Hk as <-. discriminate. }
  assert (Kt : t_type t = T_TEXT \/ t_type t = T_LITERAL).
  { destruct Hk as [Hk|(c & Hk & _)]; [left; exact Hk|right]. unfold tv in Hk. injection Hk as Hk _. exact Hk. }
  assert (Ke : token_eqb t EOF_tok = false). { apply tv_in_stop. unfold tv. intros E. injection E as E _. rewrite E in Kt. destruct Kt; discriminate. }
  split; [|split; [|split; [exact Hne|split]]].
  - unfold token_in, macro_stops. cbn [app existsb]. rewrite (tv_in_stop t T_LITERAL [COMMA] Kc : token_eqb t comma_tok = false).
    rewrite (tv_in_stop t T_LITERAL (lit ")") (K 41%N ltac:(cbn; tauto)) : token_eqb t rpar_tok = false). rewrite Ke. reflexivity.
  - apply (tv_in_stop t T_LITERAL [BS]). apply K. cbn; tauto.
  - destruct Kt as [-> | ->]; discriminate.
  - apply (K 41%N). cbn; tauto.
Qed.

(* the loop on such a text *)
Lemma loop_rest w a q r x n : rest_ok w -> map tv a = tk w -> length a < n ->
  exists ts, tp_args_loop n (a ++ mkToken T_LITERAL (lit ")") q :: r, x) = ((mkToken T_LITERAL (lit ")") q :: r, x), Ok ts) /\ concat_str (map t_value ts) = w.
Proof.
  intros [Hw Hh] Ha Hn. destruct w as [|c0 w0].
  - apply map_tv_nil in Ha as ->. exists []. split; [|reflexivity]. destruct n as [|n]; [lia|]. cbn [app tp_args_loop].
    unfold pbind at 1. rewrite (is_tv_yes (mkToken T_LITERAL (lit ")") q) T_LITERAL (lit ")") r x eq_refl).
    unfold pbind. rewrite (is_ty_no (mkToken T_LITERAL (lit ")") q) T_EOF r x ltac:(discriminate)). reflexivity.
  - destruct (tk_ne c0 w0) as (ty & v & ts & Et). rewrite Et in Ha.
    apply map_tv_cons in Ha as (tc & a' & -> & Ha'). set (w := c0 :: w0) in *. set (t := mkToken ty (c0 :: v) tc) in *.
    assert (Hall : forall u, In u (t :: a') -> In (tv u) (tk w)).
    { intros u Hu. rewrite Et. destruct Hu as [<-|Hu]; [left; reflexivity|right]. rewrite <- Ha'. apply in_map, Hu. }
    assert (Hts : forall u, In u (t :: a') -> _) by (intros u Hu; exact (close_not_stop w u Hw (Hall u Hu))).
    assert (Hco := collect_none (macro_stops ++ [EOF_tok]) (t :: a') (mkToken T_LITERAL (lit ")") q) r
      (fun u Hu => conj (proj1 (Hts u Hu)) (proj1 (proj2 (Hts u Hu)))) eq_refl).
    destruct (Hts t (or_introl eq_refl)) as (_ & _ & _ & H4 & H5).
    assert (H6 : tv t <> tQ). { unfold tv, t, tQ. cbn [t_type t_value]. intros K. assert (K2 : c0 :: v = [QUOTE]) by (inversion K; reflexivity). injection K2 as K2 _. apply Hh. cbn. congruence. }
    assert (Hv : t_value (join_tokens (t :: a') []) = w).
    { rewrite join_value.
      - transitivity (concat_str (map snd (tk w))); [|apply tk_values]. rewrite Et. cbn [map]. rewrite <- Ha', map_map. reflexivity.
      - apply Forall_forall. intros u Hu. apply (Hts u Hu). }
    exists [join_tokens (t :: a') []]. split; [|cbn [map concat_str]; rewrite Hv, app_nil_r; reflexivity].
    cbn [length] in Hn. destruct n as [|[|n]]; try lia.
    cbn [tp_args_loop app]. unfold pbind at 1. rewrite (is_tv_no t T_LITERAL (lit ")") _ x H5).
    unfold pbind at 1. rewrite (is_ty_no t T_EOF _ x H4). cbn [orb].
    unfold pbind at 1. rewrite (is_tv_no t T_LITERAL Q _ x H6).
    unfold pbind at 1. unfold pcollect_join at 1, pcollect at 1. unfold pbind at 1. cbn [fst snd]. cbn [app] in Hco. rewrite Hco. unfold pret at 1.
    unfold pbind at 1. unfold pbind at 1. rewrite (is_tv_yes (mkToken T_LITERAL (lit ")") q) T_LITERAL (lit ")") r x eq_refl).
    unfold pbind at 1. rewrite (is_ty_no (mkToken T_LITERAL (lit ")") q) T_EOF r x ltac:(discriminate)). cbn [orb]. reflexivity.
Qed.

Lemma from_list_value ts : ts <> [] -> exists c, from_token_list ts [] = mkToken T_TEXT (concat_str (map t_value ts)) c.
Proof. intros H. destruct ts as [|t ts]; [congruence|]. unfold from_token_list. eexists. rewrite join_nil_sep. reflexivity. Qed.

Definition args_read (w : str) : Prop := forall a q r x, map tv a = tk w ->
  exists c, tp_macro_args (a ++ mkToken T_LITERAL (lit ")") q :: r, x) = ((mkToken T_LITERAL (lit ")") q :: r, x), Ok (mkToken T_TEXT w c)).

Lemma read_rest w : rest_ok w -> w <> [] -> args_read w.
Proof.
  intros Hw Hne a q r x Ha. unfold tp_macro_args. cbn [fst].
  destruct (loop_rest w a q r x (S (length (a ++ mkToken T_LITERAL (lit ")") q :: r))) Hw Ha) as (ts & E & Hts).
  { rewrite app_length. cbn [length]. lia. }
  unfold pbind at 1. rewrite E. destruct (from_list_value ts) as (c & Ec); [intros ->; apply Hne; symmetry; exact Hts|].
  exists c. rewrite Ec, Hts. reflexivity.
Qed.

Lemma quote_stop c : token_in (mkToken T_LITERAL [QUOTE] c) (quote_stops ++ [EOF_tok]) = true.
Proof. reflexivity. Qed.
Lemma quote_no_stop t : inline_tok (tv t) -> tv t <> (T_LITERAL, [QUOTE]) -> token_in t (quote_stops ++ [EOF_tok]) = false.
Proof.
  intros H1 H2. unfold token_in, quote_stops. cbn [app existsb]. rewrite (tv_in_stop t T_LITERAL [QUOTE] H2 : token_eqb t quote_tok = false).
  unfold EOF_tok. rewrite !inline_not_end by auto. reflexivity.
Qed.

(* a quoted first argument *)
Lemma read_quoted v rest : ~ In QUOTE v -> quotable v -> rest_ok rest -> args_read ([QUOTE] ++ v ++ [QUOTE] ++ rest).
Proof.
  intros Hv Hq Hr a q r x Ha. cbn [app] in Ha. rewrite tk_special in Ha by reflexivity. rewrite tk_wrap in Ha by reflexivity.
  apply map_tv_cons in Ha as (c1 & a1 & -> & Ha). apply map_tv_app in Ha as (ta & a2 & -> & Hta & Ha). apply map_tv_cons in Ha as (c2 & tb & -> & Htb).
  assert (Hc : can_be_inside QUOTE v). { clear -Hq. induction v as [|c v IH]; [exact I|]. cbn in *. tauto. }
  pose proof (lex_inside QUOTE eq_refl ltac:(discriminate) _ v (le_n _) Hc) as Hi. rewrite inside_none, <- Hta in Hi by assumption.
  destruct (collect_inside QUOTE ltac:(discriminate) (quote_stops ++ [EOF_tok]) quote_stop quote_no_stop _ v Hi ta (mkToken T_LITERAL [QUOTE] c2)
    (tb ++ mkToken T_LITERAL (lit ")") q :: r) eq_refl eq_refl) as (cs & H1 & H2).
  unfold tp_macro_args. cbn [app fst length]. rewrite <- app_assoc. cbn [app].
  set (tt := ta ++ mkToken T_LITERAL [QUOTE] c2 :: tb ++ mkToken T_LITERAL (lit ")") q :: r) in *.
  assert (Hlen : length tb < length tt) by (unfold tt; rewrite app_length; cbn [length]; rewrite app_length; cbn [length]; lia).
  destruct (loop_rest rest tb q r x (S (length tt)) Hr Htb ltac:(lia)) as (ts & E & Hts).
  assert (Htt : tt <> []) by (unfold tt; destruct ta; discriminate).
  unfold pbind at 1. cbn [tp_args_loop]. 
  unfold pbind at 1. rewrite (is_tv_no (mkToken T_LITERAL [QUOTE] c1) T_LITERAL (lit ")") _ x ltac:(discriminate)).
  unfold pbind at 1. rewrite (is_ty_no (mkToken T_LITERAL [QUOTE] c1) T_EOF _ x ltac:(discriminate)). cbn [orb].
  unfold pbind at 1. rewrite (is_tv_yes (mkToken T_LITERAL [QUOTE] c1) T_LITERAL Q _ x eq_refl).
  unfold pbind at 1. unfold pbind at 1. rewrite (get_lit Q c1 tt x Htt : get_tv T_LITERAL Q (mkToken T_LITERAL [QUOTE] c1 :: tt, x) = _).
  unfold pbind at 1. unfold pcollect_join at 1, pcollect at 1. unfold pbind at 1. cbn [fst snd]. rewrite H1. unfold pret at 1.
  unfold pbind at 1. rewrite (get_lit Q c2 (tb ++ mkToken T_LITERAL (lit ")") q :: r) x ltac:(destruct tb; discriminate) : get_tv T_LITERAL Q (mkToken T_LITERAL [QUOTE] c2 :: _, x) = _). unfold pret at 1.
  match goal with |- context [@pbind tx _ _ ?m ?k] => change m with (tp_args_loop (S (length tt))) end.
  unfold pbind at 1. rewrite E. unfold pret at 1.
  edestruct from_list_value as (c & Ec); [|exists c; rewrite Ec; unfold pret; repeat f_equal]; [discriminate|].
  cbn [map concat_str t_value]. rewrite H2, Hts. change Q with [QUOTE]. rewrite <- !app_assoc. reflexivity.
Qed.

(* ------------------------------------------------ what follows the arguments *)
(* text_parser.py:331-366: what follows the arguments in _parse_macro *)
Definition dispatch (e : env) (nest : nest_fn) (name : token) (p : parsed_args) (c : context) : P tx (list inode) :=
  let n := t_value name in
  if startswith (lit "if") n then tp_control e nest name p c
  else if str_eqb n (lit "link") then tp_link nest p c
  else if str_eqb n (lit "header") then tp_header_link nest p c
  else if str_eqb n (lit "mailto") then tp_mailto nest p c
  else if str_eqb n (lit "image") then tp_image p c
  else if str_eqb n (lit "footnote") then tp_footnote p c
  else if str_eqb n (lit "class") then tp_class nest p c
  else if str_eqb n (lit "unicode") then tp_unicode p c
  else if str_eqb n (lit "raw") then tp_raw p c
  else pret [NMacro n (arguments_of p) c].

(* the parser inside the parser *)
Definition nested (d : nat) (e : env) : nest_fn := fun text o s =>
  match tp_run d e text o (tx_next (snd s)) with
  | Ok x => let x0 := snd s in
            ((fst s, mkTx (tx_nodes x0) (tx_foot x0) (tx_links x0) (tx_next x)), Ok (tx_nodes x))
  | Exc ex => (s, Exc ex)
  end.
Lemma run_unfold d e text o next :
  tp_run (S d) e text o next = prun (lex_text (buffer text o)) (tx_init next) [tp_sentence e (nested d e)].
Proof. reflexivity. Qed.

Lemma macro_name_plain n : macro_name n -> forallb text_plain n = true.
Proof.
  intros [_ H]. apply forallb_forall. intros c Hc. destruct (H c Hc) as (H1 & H2 & _). apply text_plain_spec.
  split; [destruct (N.eqb_spec c SP); [contradiction|reflexivity]|]. destruct (mem_chr c text_specials) eqn:E; [|reflexivity].
  apply specials_same in E. contradiction.
Qed.

Lemma startswith_firstn p s : startswith p s = true -> firstn (length p) s = p.
Proof.
  revert s; induction p as [|a p IH]; intros [|b s] H; try reflexivity; try discriminate. cbn in *. destruct (N.eqb_spec a b) as [->|]; [|discriminate].
  f_equal. apply IH, H.
Qed.
Lemma dispatch_user e nest t p c s : user_macro (t_value t) -> dispatch e nest t p c s = (s, Ok [NMacro (t_value t) (arguments_of p) c]).
Proof.
  intros (_ & H1 & H2). unfold dispatch. cbv zeta. destruct (startswith (lit "if") (t_value t)) eqn:E.
  { apply startswith_firstn in E. contradiction. }
  repeat (match goal with |- context [str_eqb (t_value t) ?n] => destruct (str_eqb_spec (t_value t) n) as [K|_]; [exfalso; apply H1; rewrite K; cbn; tauto|] end).
  reflexivity.
Qed.

Lemma two_args e a b text o : writes_args [Pos a; Pos b] text -> plain_value a = true -> plain_value b = true ->
  exists p t1 t2, parse_arguments e text o = Ok p /\ pa_unnamed p = [t1; t2] /\ pa_named p = [] /\ t_value t1 = a /\ t_value t2 = b.
Proof.
  intros Hw Ha Hb. destruct (C20_arguments_round_trip e [a; b] [] text o Hw) as (p & P1 & P2 & P3 & _); [repeat constructor; assumption|].
  exists p. unfold arguments_of in P2, P3. cbn [na_unnamed na_named] in P2, P3.
  destruct (pa_unnamed p) as [|t1 [|t2 [|]]]; try discriminate. cbn [map] in P2. injection P2 as <- <-. exists t1, t2.
  split; [exact P1|]. split; [reflexivity|]. split; [|auto]. destruct (pa_named p) as [|[k v] l]; [reflexivity|].
  specialize (P3 k). cbn in P3. rewrite str_eqb_refl in P3. discriminate.
Qed.

Lemma quotable_plain v : no_close v -> no_chr NL v -> quotable v.
Proof.
  induction v as [|c v IH]; intros H1 H2; [exact I|]. split; [intros ->; apply H2; left; reflexivity|]. split.
  - intros ->. exfalso. apply (H1 BS); [left; reflexivity|cbn; tauto].
  - apply IH; [intros a Ha; apply H1; right; exact Ha|intros K; apply H2; right; exact K].
Qed.
Lemma escape_plain v : ~ In QUOTE v -> escape v = v.
Proof.
  induction v as [|c v IH]; intros H; [reflexivity|]. cbn. destruct (N.eqb_spec c QUOTE) as [->|]; [destruct H; left; reflexivity|].
  rewrite IH; [reflexivity|]. intros K. apply H. right; exact K.
Qed.
Lemma mention_plain n : mention_name n -> plain_value n = true.
Proof.
  intros (_ & _ & H). destruct n as [|c r]; [reflexivity|]. specialize (H c r eq_refl). unfold plain_value, has_mark.
  apply negb_true_iff. apply orb_false_iff; split; [apply orb_false_iff; split|]; match goal with |- N.eqb c ?k = false => destruct (N.eqb_spec c k) as [->|]; [exfalso; apply H; cbn; tauto|reflexivity] end.
Qed.


(* ------------------------------------------------ values in order *)
Lemma values_read e us text o : writes_args (map Pos us) text -> Forall (fun v => plain_value v = true) us ->
  exists p, parse_arguments e text o = Ok p /\ map t_value (pa_unnamed p) = us /\ pa_named p = [] /\ arguments_of p = mkArgs us [] [] [] None.
Proof.
  intros Hw Hp. destruct (C20_arguments_round_trip e us [] text o) as (p & P1 & P2 & P3 & P4 & P5 & P6); [cbn; rewrite app_nil_r; exact Hw|exact Hp|].
  assert (E : na_named (arguments_of p) = []).
  { destruct (na_named (arguments_of p)) as [|[k v] l] eqn:E; [reflexivity|]. specialize (P3 k). cbn in P3. rewrite str_eqb_refl in P3. discriminate. }
  exists p. split; [exact P1|]. split; [exact P2|]. split.
  - unfold arguments_of in E. cbn [na_named] in E. destruct (pa_named p) as [|[k v] l]; [reflexivity|discriminate].
  - destruct (arguments_of p) as [u n t i s]. cbn in *. congruence.
Qed.

Lemma value_plain v : macro_value v -> plain_value v = true.
Proof.
  intros (_ & _ & _ & _ & H). destruct v as [|c r]; [reflexivity|]. specialize (H c r eq_refl). unfold plain_value, has_mark.
  apply negb_true_iff. apply orb_false_iff; split; [apply orb_false_iff; split|]; match goal with |- N.eqb c ?k = false => destruct (N.eqb_spec c k) as [->|]; [exfalso; apply H; cbn; tauto|reflexivity] end.
Qed.
Lemma text_plain_value s : quoted_text s -> plain_value s = true.
Proof.
  intros (_ & _ & _ & H). destruct s as [|c r]; [reflexivity|]. specialize (H c r eq_refl). unfold plain_value, has_mark.
  apply negb_true_iff. apply orb_false_iff; split; [apply orb_false_iff; split|]; match goal with |- N.eqb c ?k = false => destruct (N.eqb_spec c k) as [->|]; [exfalso; apply H; cbn; tauto|reflexivity] end.
Qed.
Lemma value_bare v : macro_value v -> bare_ok v.
Proof.
  intros (H1 & H2 & H3 & H4 & _). unfold bare_ok. repeat split; auto.
  - intros K. apply (H2 c H). unfold args_meaning in K. cbn in K |- *. tauto.
  - intros ->. apply (H2 NL H). cbn. tauto.
Qed.
Lemma value_closed v : macro_value v -> no_close v.
Proof. intros (_ & H & _) c Hc K. apply (H c Hc). cbn in K |- *. tauto. Qed.
Lemma value_hd v : macro_value v -> hd_error v <> Some QUOTE.
Proof. intros (H1 & H & _). destruct v as [|c v]; [congruence|]. cbn. intros K. injection K as ->. apply (H QUOTE); [left; reflexivity|cbn; tauto]. Qed.
Lemma no_close_app a b : no_close a -> no_close b -> no_close (a ++ b).
Proof. intros H1 H2 c Hc. apply in_app_iff in Hc as [Hc|Hc]; auto. Qed.
Lemma values_closed vs : Forall macro_value vs -> no_close (join (lit ", ") vs).
Proof.
  induction 1 as [|v vs Hv H IH]; [intros c []|]. destruct vs as [|u vs]; [exact (value_closed v Hv)|].
  rewrite join_cons by discriminate. apply no_close_app; [exact (value_closed v Hv)|]. apply no_close_app; [|exact IH].
  intros c [<-|[<-|[]]] K; cbn in K; intuition discriminate.
Qed.
Lemma join_writes (vs : list (str * str)) : vs <> [] -> Forall (fun p => writes (fst p) (snd p)) vs -> writes_args (map Pos (map fst vs)) (join (lit ", ") (map snd vs)).
Proof.
  intros Hne H. induction H as [|[v w] vs Hv H IH]; [congruence|]. destruct vs as [|u vs].
  - apply ws_one, wa_pos, Hv.
  - cbn [map]. rewrite join_cons by discriminate. apply (ws_cons (Pos v) w 1); [apply wa_pos, Hv|]. apply IH. discriminate.
Qed.
Lemma values_written vs : vs <> [] -> Forall macro_value vs -> writes_args (map Pos vs) (join (lit ", ") vs).
Proof.
  intros Hne H. assert (E : exists ps, map fst ps = vs /\ map snd ps = vs /\ Forall (fun p => writes (fst p) (snd p)) ps).
  { clear Hne. induction H as [|v vs Hv H (ps & E1 & E2 & E3)]; [exists []; repeat split; constructor|].
    exists ((v, v) :: ps). cbn. rewrite E1, E2. repeat split. constructor; [apply w_bare, value_bare, Hv|exact E3]. }
  destruct E as (ps & E1 & E2 & E3). pose proof (join_writes ps) as K. rewrite E1, E2 in K. apply K; [|exact E3].
  intros ->. apply Hne. symmetry. exact E1.
Qed.
Lemma values_args vs : vs <> [] -> Forall macro_value vs -> args_read (join (lit ", ") vs).
Proof.
  intros Hne H. assert (K : hd_error (join (lit ", ") vs) <> Some QUOTE /\ join (lit ", ") vs <> []).
  { destruct H as [|v vs Hv H]; [congruence|]. pose proof (value_hd v Hv) as K1. destruct Hv as (K2 & _).
    destruct v as [|c v]; [congruence|]. destruct vs; [split; [exact K1|discriminate]|]. rewrite join_cons by discriminate. split; [exact K1|discriminate]. }
  apply read_rest; [split; [apply values_closed, H|apply K]|apply K].
Qed.
Lemma inside_quotable s : can_be_inside QUOTE s -> quotable s.
Proof. induction s as [|c s IH]; [auto|]. cbn. tauto. Qed.
Lemma escape_same v : ~ In QUOTE v -> escape v = v.
Proof. exact (escape_plain v). Qed.

Lemma shown_written v s : macro_value v -> quoted_text s -> writes_args (map Pos [v; s]) (join (lit ", ") [v; [QUOTE] ++ s ++ [QUOTE]]).
Proof.
  intros Hv (Hq & Hi & _). apply (join_writes [(v, v); (s, [QUOTE] ++ s ++ [QUOTE])]); [discriminate|].
  constructor; [apply w_bare, value_bare, Hv|]. constructor; [|constructor]. cbn [fst snd]. rewrite <- (escape_same s Hq) at 2. apply w_quoted, inside_quotable, Hi.
Qed.
Lemma shown_args v s : macro_value v -> last_text s -> args_read (join (lit ", ") [v; [QUOTE] ++ s ++ [QUOTE]]).
Proof.
  intros Hv [(Hq & Hi & _) Hc]. pose proof (value_hd v Hv) as K1. pose proof (value_closed v Hv) as K2. destruct Hv as (K3 & _).
  rewrite join_cons by discriminate. cbn [join]. destruct v as [|c v]; [congruence|]. apply read_rest; [|discriminate]. split; [|exact K1].
  apply no_close_app; [exact K2|]. intros a Ha. apply in_app_iff in Ha as [[<-|[<-|[]]]|Ha]; [intros K; cbn in K; intuition discriminate..|].
  apply in_app_iff in Ha as [[<-|[]]|Ha]; [intros K; cbn in K; intuition discriminate|]. apply in_app_iff in Ha as [Ha|[<-|[]]]; [exact (Hc a Ha)|].
  intros K; cbn in K; intuition discriminate.
Qed.
Lemma class_written s cs : Forall macro_value cs -> quoted_text s -> writes_args (map Pos (s :: cs)) (join (lit ", ") (([QUOTE] ++ s ++ [QUOTE]) :: cs)).
Proof.
  intros Hc (Hq & Hi & _). assert (W : writes s ([QUOTE] ++ s ++ [QUOTE])) by (rewrite <- (escape_same s Hq) at 2; apply w_quoted, inside_quotable, Hi).
  destruct cs as [|c cs]; [apply ws_one, wa_pos, W|]. rewrite join_cons by discriminate.
  apply (ws_cons (Pos s) _ 1 (map Pos (c :: cs))); [apply wa_pos, W|]. apply values_written; [discriminate|exact Hc].
Qed.
Lemma class_args s cs : Forall macro_value cs -> quoted_text s -> args_read (join (lit ", ") (([QUOTE] ++ s ++ [QUOTE]) :: cs)).
Proof.
  intros Hc (Hq & Hi & _). set (rest := match cs with [] => [] | _ => lit ", " ++ join (lit ", ") cs end).
  assert (E : join (lit ", ") (([QUOTE] ++ s ++ [QUOTE]) :: cs) = [QUOTE] ++ s ++ [QUOTE] ++ rest).
  { unfold rest. destruct cs as [|c cs]; [reflexivity|]. rewrite join_cons by discriminate. rewrite <- !app_assoc. reflexivity. }
  rewrite E. apply read_quoted; [exact Hq|apply inside_quotable, Hi|]. unfold rest. destruct cs as [|c cs]; [split; [intros a []|discriminate]|].
  split; [|discriminate]. apply no_close_app; [intros a [<-|[<-|[]]] K; cbn in K; intuition discriminate|]. apply values_closed, Hc.
Qed.

(* ------------------------------------------------ a macro among the words *)
Lemma item_macro e nest words name w vs o1 c1 o2 o3 a q r x :
  args_read w -> writes_args (map Pos vs) w -> Forall (fun v => plain_value v = true) vs -> map tv a = tk w -> r <> [] ->
  exists p c, map t_value (pa_unnamed p) = vs /\ pa_named p = [] /\ arguments_of p = mkArgs vs [] [] [] None /\
    forall x' n, dispatch e nest (mkToken T_TEXT name c1) p c (r, x) = ((r, x'), Ok [n]) ->
      tp_item e nest words (macro_toks name o1 c1 o2 o3 (a ++ mkToken T_LITERAL (lit ")") q :: r), x) = ((r, x'), Ok [n]).
Proof.
  intros Hr Hw Hp Ha Hne. destruct (Hr a q r x Ha) as (cw & E).
  destruct (values_read e vs w (origin_of (mkToken T_TEXT w cw)) Hw Hp) as (p & P1 & P2 & P3 & P4).
  exists p, (merge_contexts o1 q). split; [exact P2|]. split; [exact P3|]. split; [exact P4|]. intros x' n Hd.
  unfold tp_item. unfold macro_toks at 1. rewrite skip_backslash by discriminate. apply first_ok.
  unfold macro_toks, tp_macro. unfold pbind at 1. rewrite get_lit by discriminate.
  unfold pbind at 1. rewrite get_type by discriminate.
  unfold pbind at 1. rewrite get_lit by discriminate.
  unfold pbind at 1. rewrite get_lit by (destruct a; discriminate).
  unfold pbind at 1. rewrite E. unfold pbind at 1. rewrite get_lit by exact Hne.
  unfold pbind at 1. unfold plift at 1. unfold process_arguments. cbn [t_value]. rewrite P1. cbv zeta. cbn [t_value t_ctx]. exact Hd.
Qed.
