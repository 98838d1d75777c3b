(* ParseFacts.v -- running the parsers of P.v on the tokens of a lexer *)
From Verif Require Export P InlineInst.

(* ------------------------------------------------ tokens that differ *)
Definition same_token (u t : token) : bool := token_eqb u t && context_eqb (t_ctx u) (t_ctx t).

(* no token after t is the same token *)
Fixpoint apart (toks : list token) : Prop :=
  match toks with
  | [] => True
  | t :: r => (t_value t <> [] -> Forall (fun u => same_token u t = false) r) /\ apart r
  end.

Lemma apart_app a b : apart (a ++ b) -> apart b.
Proof. induction a as [|t a IH]; [auto|]. cbn [app apart]. intros [_ H]. auto. Qed.

Lemma same_start u t : same_token u t = true -> c_start_line (t_ctx u) = c_start_line (t_ctx t) /\ c_start_column (t_ctx u) = c_start_column (t_ctx t).
Proof.
  unfold same_token, context_eqb. rewrite !andb_true_iff, !Nat.eqb_eq. tauto.
Qed.

Lemma slice_same lines p : slice lines p p = [].
Proof. unfold slice. rewrite Nat.eqb_refl, Nat.sub_diag. reflexivity. Qed.

Lemma shifted_inj sl sc p q : shifted sl sc p = shifted sl sc q -> p = q.
Proof.
  unfold shifted. destruct p as [a b], q as [c d]. cbn. intros H. injection H as H1 H2.
  assert (a = c) as -> by lia. f_equal. lia.
Qed.

Lemma tokens_in_starts lines sl sc src toks : forall p q t, tokens_in lines sl sc src toks p q -> In t toks ->
  exists a, pos_le p a /\ (c_start_line (t_ctx t), c_start_column (t_ctx t)) = shifted sl sc a.
Proof.
  induction toks as [|u toks IH]; intros p q t; [contradiction|]. intros (a & b & H1 & H2 & H3) [<-|Hin].
  - exists a. split; [exact H1|]. destruct H2 as (_ & _ & _ & _ & E & _). exact E.
  - destruct (IH b q t H3 Hin) as (a' & H4 & H5). exists a'. split; [|exact H5].
    destruct H2 as (_ & _ & H2 & _). unfold pos_le in *. lia.
Qed.

Lemma tokens_in_apart lines sl sc src toks : forall p q, tokens_in lines sl sc src toks p q -> apart toks.
Proof.
  induction toks as [|t toks IH]; intros p q; [exact (fun _ => I)|]. intros (a & b & H1 & H2 & H3).
  split; [|exact (IH b q H3)]. intros Hne. apply Forall_forall. intros u Hu.
  destruct (same_token u t) eqn:E; [|reflexivity]. exfalso.
  destruct H2 as (_ & _ & Hab & Hval & Hst & _). destruct (tokens_in_starts _ _ _ _ _ _ _ _ H3 Hu) as (a' & Hb & Hst').
  apply same_start in E as [E1 E2]. rewrite E1, E2, Hst in Hst'. apply shifted_inj in Hst'. subst a'.
  assert (a = b) as <-. { destruct a, b. unfold pos_le in *. cbn in *. f_equal; lia. }
  rewrite slice_same in Hval. congruence.
Qed.

(* ------------------------------------------------ the parse loop *)
Lemma ploop_eof {X} n (fns : list (P X bool)) last t r x : t_type t = T_EOF ->
  ploop (S n) fns last (t :: r, x) = ((t :: r, x), Ok tt).
Proof.
  intros H. cbn [ploop]. unfold pbind, is_ty, peek_is. cbn [fst peek_tok]. unfold check_token. rewrite H, tt_eqb_refl. reflexivity.
Qed.

Lemma ploop_step {X} n (fns : list (P X bool)) last t r x s' : t_type t <> T_EOF -> same_token t last = false ->
  ptry fns (t :: r, x) = (s', Ok true) ->
  ploop (S n) fns last (t :: r, x) = ploop n fns t s'.
Proof.
  intros H1 H2 H3. cbn [ploop]. unfold pbind at 1, is_ty, peek_is. cbn [fst peek_tok]. unfold check_token at 1.
  destruct (tt_eqb_spec (t_type t) T_EOF); [contradiction|]. cbn [negb].
  unfold pbind at 1, ppeek. cbn [fst peek_tok check_token]. fold (same_token t last). rewrite H2.
  unfold pbind at 1. rewrite H3. reflexivity.
Qed.

Lemma ploop_exc {X} n (fns : list (P X bool)) last t r x s' e : t_type t <> T_EOF -> same_token t last = false ->
  ptry fns (t :: r, x) = (s', Exc e) ->
  ploop (S n) fns last (t :: r, x) = (s', Exc e).
Proof.
  intros H1 H2 H3. cbn [ploop]. unfold pbind at 1, is_ty, peek_is. cbn [fst peek_tok]. unfold check_token at 1.
  destruct (tt_eqb_spec (t_type t) T_EOF); [contradiction|]. cbn [negb].
  unfold pbind at 1, ppeek. cbn [fst peek_tok check_token]. fold (same_token t last). rewrite H2.
  unfold pbind at 1. rewrite H3. reflexivity.
Qed.

Lemma start_token_same t : t_type t <> T_EOF -> same_token t start_token = false.
Proof.
  intros H. unfold same_token, token_eqb. destruct (tt_eqb_spec (t_type t) (t_type start_token)) as [E|E]; [|reflexivity].
  cbn in E. contradiction.
Qed.

(* the first token after [last] is another one *)
Definition fresh (last : token) (toks : list token) : Prop := Forall (fun u => t_type u = T_EOF \/ same_token u last = false) toks.
Lemma fresh_start toks : fresh start_token toks.
Proof.
  apply Forall_forall. intros u _. destruct (token_type_eq_dec (t_type u) T_EOF); [auto|]. right. apply start_token_same. assumption.
Qed.
Lemma fresh_app last a b : fresh last (a ++ b) -> fresh last b.
Proof. intros H. apply Forall_app in H as [_ H]. exact H. Qed.
Lemma fresh_next t a b : apart (t :: a ++ b) -> t_value t <> [] -> fresh t b.
Proof.
  intros [H _] Hv. specialize (H Hv). apply Forall_app in H as [_ H].
  eapply Forall_impl; [|exact H]. cbn. auto.
Qed.
Lemma fresh_hd last t r : fresh last (t :: r) -> t_type t <> T_EOF -> same_token t last = false.
Proof. intros H Ht. inversion H as [|? ? [K|K] ?]; [contradiction|exact K]. Qed.

(* tokens known by type and value *)
Lemma map_tv_cons toks ty v e : map tv toks = (ty, v) :: e ->
  exists c r, toks = mkToken ty v c :: r /\ map tv r = e.
Proof. destruct toks as [|[ty' v' c] r]; [discriminate|]. cbn. intros H. injection H as -> -> H. eauto. Qed.
Lemma map_tv_app toks a b : map tv toks = a ++ b -> exists ta tb, toks = ta ++ tb /\ map tv ta = a /\ map tv tb = b.
Proof. intros H. apply map_eq_app in H as (l1 & l2 & -> & <- & <-). eauto. Qed.
Lemma map_tv_nil toks : map tv toks = [] -> toks = [].
Proof. destruct toks; [reflexivity|discriminate]. Qed.

(* A lexed line. *)
Record lexed (toks : list token) (body : list (token_type * str)) : Prop := mkLexed {
  lx_tv : map tv toks = body ++ [(T_EOF, [])];
  lx_apart : apart toks }.

Section Line.
  Variables (next : str -> token_type * str) (fns : list lexfn).
  Hypothesis ok : forall text sl sc src,
    exists toks, lex fns (tb_init text sl sc src) = Ok toks /\
      map tv toks = lines_toks next (text_lines text) ++ [(T_EOF, [])] /\
      tokens_in (text_lines text) sl sc src toks (0, 0) (length (text_lines text), 0).

  Lemma lexed_text text sl sc src : exists toks, lex fns (tb_init text sl sc src) = Ok toks /\
    lexed toks (lines_toks next (text_lines text)).
  Proof.
    destruct (ok text sl sc src) as (toks & H1 & H2 & H3). exists toks. split; [exact H1|]. split; [exact H2|].
    eapply tokens_in_apart, H3.
  Qed.

  (* the tokens of one line *)
  Lemma line_of_text s : no_chr NL s ->
    lines_toks next (text_lines s) = if all_sp s then match s with [] => [] | _ => [(T_EOL, s)] end else line_toks next s.
  Proof.
    intros H. destruct s as [|a s]; [reflexivity|]. rewrite (text_lines_single (a :: s)) by (auto; discriminate).
    cbn [lines_toks]. rewrite app_nil_r. reflexivity.
  Qed.
End Line.

(* the tokens of a lexer step by step *)
Lemma pre_toks_special c s : mem_chr c pre_specials = true ->
  line_toks pre_next (c :: s) = (T_LITERAL, [c]) :: line_toks pre_next s.
Proof.
  intros H. rewrite (line_toks_eq _ pre_next_prefix pre_next_type).
  assert (all_sp (c :: s) = false) as ->.
  { cbn [all_sp]. destruct (N.eqb_spec c SP) as [->|]; [discriminate|reflexivity]. }
  assert (E : pre_next (c :: s) = (T_LITERAL, [c])) by (unfold pre_next; rewrite H; reflexivity). rewrite E. reflexivity.
Qed.

Definition starts_with (p : N -> bool) (s : str) : Prop := exists c r, s = c :: r /\ p c = true.

Lemma pre_toks_text t s : t <> [] -> forallb pre_plain t = true ->
  (s = [] \/ starts_with (fun c => mem_chr c pre_specials) s) -> all_sp (t ++ s) = false ->
  line_toks pre_next (t ++ s) = (T_TEXT, t) :: line_toks pre_next s.
Proof.
  intros Hne Hp Hs Hsp. rewrite (line_toks_eq _ pre_next_prefix pre_next_type), Hsp.
  assert (E : pre_next (t ++ s) = (T_TEXT, t)).
  { unfold pre_next. destruct t as [|c t]; [congruence|]. cbn [app].
    assert (Hc : pre_plain c = true) by (cbn in Hp; apply andb_prop in Hp as [Hp _]; exact Hp).
    unfold pre_plain in Hc. apply negb_true_iff in Hc. rewrite Hc. f_equal.
    change (c :: t ++ s) with ((c :: t) ++ s). rewrite (span_all pre_plain (c :: t) s Hp); [reflexivity|].
    intros a v ->. destruct Hs as [Hs|(a' & r & Hs & Hm)]; [discriminate|]. injection Hs as <- <-. unfold pre_plain. rewrite Hm. reflexivity. }
  rewrite E. cbn [snd]. rewrite skipn_app, skipn_all, Nat.sub_diag. reflexivity.
Qed.
Lemma pre_toks_end s : all_sp s = true -> line_toks pre_next s = [].
Proof. intros H. rewrite (line_toks_eq _ pre_next_prefix pre_next_type), H. reflexivity. Qed.

(* Evaluating the monad on explicit tokens.  The parser's own functions must be
   unfolded first. *)
Ltac decide_lits :=
  repeat match goal with
  | |- context [str_eqb ?a ?b] =>
      let v := eval vm_compute in (str_eqb a b) in
      match v with true => change (str_eqb a b) with true | false => change (str_eqb a b) with false end
  | |- context [tt_eqb ?a ?b] =>
      let v := eval vm_compute in (tt_eqb a b) in
      match v with true => change (tt_eqb a b) with true | false => change (tt_eqb a b) with false end
  end.
Ltac pev :=
  repeat (progress (cbv beta iota zeta delta [pbind pret praise plift pget pmod pwith ptry pget_token get_tok get_ty
    get_tv is_ty is_tv peek_is ppeek pcollect pcollect_join peek_tok next_rem check_token fst snd
    t_type t_value t_ctx negb]; decide_lits)).
