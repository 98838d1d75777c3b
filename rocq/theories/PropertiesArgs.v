(* PropertiesArgs.v -- C20 to C23: arguments *)
From Verif Require Import ParseFacts Args SpecArgs PropertiesPre EnvFacts PropertiesEnv.

(* ------------------------------------------------ lexing *)
Definition args_special (c : N) : bool := mem_chr c args_specials.
Lemma args_special_spec c : args_special c = true <-> args_meaning c.
Proof. apply mem_chr_In. Qed.
Lemma args_plain_spec c : args_plain c = true <-> c <> SP /\ ~ args_meaning c.
Proof.
  assert (args_plain c = negb (N.eqb c SP) && negb (args_special c)) as ->.
  { unfold args_plain, args_special. cbn [mem_chr]. try reflexivity. try (rewrite negb_orb; reflexivity). }
  rewrite andb_true_iff, !negb_true_iff, <- args_special_spec. destruct (args_special c), (N.eqb_spec c SP); intuition congruence.
Qed.

Lemma line_toks_head next (H1 : forall s, all_sp s = false -> snd (next s) <> [] /\ exists r, s = snd (next s) ++ r)
  (H2 : forall s, all_sp s = false -> fst (next s) <> T_EOF) w s ty :
  all_sp (w ++ s) = false -> next (w ++ s) = (ty, w) -> line_toks next (w ++ s) = (ty, w) :: line_toks next s.
Proof.
  intros Hsp E. rewrite (line_toks_eq next H1 H2), Hsp, E. cbn [snd]. rewrite skipn_app, skipn_all, Nat.sub_diag. reflexivity.
Qed.

Definition not_sp (s : str) : Prop := all_sp s = false.
Lemma args_toks_special c s : args_special c = true -> line_toks args_next (c :: s) = (T_LITERAL, [c]) :: line_toks args_next s.
Proof.
  intros H. assert (Hc : N.eqb c SP = false) by (destruct (N.eqb_spec c SP) as [->|]; [discriminate|reflexivity]).
  change (c :: s) with ([c] ++ s). apply (line_toks_head _ args_next_prefix args_next_type).
  - cbn [app all_sp]. rewrite Hc. reflexivity.
  - cbn [app args_next]. rewrite Hc. unfold args_special in H. rewrite H. reflexivity.
Qed.
Lemma args_toks_space n s : (forall r, s <> SP :: r) -> all_sp s = false ->
  line_toks args_next (repeat SP (S n) ++ s) = (T_WHITESPACE, repeat SP (S n)) :: line_toks args_next s.
Proof.
  intros Hs Hsp. apply (line_toks_head _ args_next_prefix args_next_type).
  - rewrite all_sp_app, Hsp. apply andb_false_r.
  - cbn [repeat app args_next]. change (N.eqb SP SP) with true. cbv iota. f_equal.
    change (SP :: repeat SP n ++ s) with (repeat SP (S n) ++ s). rewrite (span_all (N.eqb SP) (repeat SP (S n)) s); [reflexivity| |].
    + apply forallb_forall. intros c Hc. apply repeat_spec in Hc as ->. reflexivity.
    + intros a v ->. destruct (N.eqb_spec SP a) as [<-|]; [|reflexivity]. destruct (Hs v eq_refl).
Qed.
Lemma args_toks_text w s : w <> [] -> forallb args_plain w = true -> (forall c r, s = c :: r -> args_plain c = false) ->
  line_toks args_next (w ++ s) = (T_TEXT, w) :: line_toks args_next s.
Proof.
  intros Hne Hw Hs. destruct w as [|c w]; [congruence|].
  assert (Hc : args_plain c = true) by (cbn in Hw; apply andb_prop in Hw; tauto).
  apply args_plain_spec in Hc as [Hc1 Hc2]. rewrite <- args_special_spec in Hc2. unfold args_special in Hc2.
  apply (line_toks_head _ args_next_prefix args_next_type).
  - cbn [app all_sp]. destruct (N.eqb_spec c SP); [congruence|reflexivity].
  - cbn [app args_next]. destruct (N.eqb_spec c SP); [congruence|]. destruct (mem_chr c args_specials); [destruct Hc2; reflexivity|].
    f_equal. change (c :: w ++ s) with ((c :: w) ++ s). rewrite (span_all args_plain (c :: w) s Hw); [reflexivity|]. intros a v E. exact (Hs a v E).
Qed.
Lemma sp_run v : exists n v', SP :: v = repeat SP (S n) ++ v' /\ (forall c r, v' = c :: r -> c <> SP).
Proof.
  induction v as [|c v IH]; [exists 0, []; split; [reflexivity|discriminate]|]. destruct (N.eq_dec c SP) as [->|Hc].
  - destruct IH as (n & v' & -> & H). exists (S n), v'. auto.
  - exists 0, (c :: v). split; [reflexivity|]. intros c' r E. injection E as <- _. exact Hc.
Qed.
Lemma plain_run d v : args_plain d = true ->
  exists w v', d :: v = w ++ v' /\ w <> [] /\ forallb args_plain w = true /\ (forall c r, v' = c :: r -> args_plain c = false).
Proof.
  intros Hp. exists (fst (span args_plain (d :: v))), (snd (span args_plain (d :: v))). repeat split.
  - symmetry; apply span_app.
  - rewrite span_cons by exact Hp. discriminate.
  - apply span_fst_all.
  - intros c r. apply span_snd_hd.
Qed.
Lemma args_toks_end s : all_sp s = true -> line_toks args_next s = [].
Proof. intros H. rewrite (line_toks_eq _ args_next_prefix args_next_type), H. reflexivity. Qed.

(* ------------------------------------------------ quoted values *)
Lemma quotable_app a b : quotable (a ++ b) -> quotable b.
Proof. induction a as [|c a IH]; [auto|]. cbn. intros (_ & _ & H). auto. Qed.
Lemma escape_app a b : escape (a ++ b) = escape a ++ escape b.
Proof. induction a as [|c a IH]; [reflexivity|]. cbn. destruct (N.eqb c QUOTE); cbn; rewrite IH; reflexivity. Qed.
Lemma escape_no_quote w : ~ In QUOTE w -> escape w = w.
Proof.
  induction w as [|c w IH]; intros H; [reflexivity|]. cbn. destruct (N.eqb_spec c QUOTE) as [->|]; [destruct H; left; reflexivity|].
  rewrite IH; [reflexivity|]. intros K; apply H; right; exact K.
Qed.

(* the tokens of an escaped value, and the value they stand for *)
Definition tQ : token_type * str := (T_LITERAL, [QUOTE]).
Definition tB : token_type * str := (T_LITERAL, [BS]).
Definition ordinary (t : token_type * str) : Prop := t <> tQ /\ snd t <> [] /\ fst t <> T_EOF.
Inductive qtoks : list (token_type * str) -> str -> Prop :=
| qt_nil : qtoks [] []
| qt_tok t ts v : ordinary t -> t <> tB -> qtoks ts v -> qtoks (t :: ts) (snd t ++ v)
| qt_esc ts v : qtoks ts v -> qtoks (tB :: tQ :: ts) (QUOTE :: v)
| qt_pair t ts v : ordinary t -> qtoks ts v -> qtoks (tB :: t :: ts) (BS :: snd t ++ v).

Lemma escape_hd d v rest c r : escape (d :: v) ++ QUOTE :: rest = c :: r -> c = d \/ (c = BS /\ d = QUOTE).
Proof.
  cbn. destruct (N.eqb_spec d QUOTE) as [->|]; cbn; intros H; injection H as <- _; auto.
Qed.

(* one token of a value that does not start with a quote *)
Lemma next_quoted d v rest : d <> QUOTE -> exists ty w v', d :: v = w ++ v' /\ w <> [] /\
  line_toks args_next (escape (d :: v) ++ QUOTE :: rest) = (ty, w) :: line_toks args_next (escape v' ++ QUOTE :: rest) /\
  ordinary (ty, w) /\ ((ty, w) = tB -> d = BS).
Proof.
  intros Hd. destruct (args_special d) eqn:Es.
  - exists T_LITERAL, [d], v. repeat split; try discriminate.
    + cbn [escape]. destruct (N.eqb_spec d QUOTE); [contradiction|]. apply args_toks_special, Es.
    + intros H. injection H as ->. contradiction.
    + intros H. injection H as ->. reflexivity.
  - destruct (N.eqb_spec d SP) as [->|Hsp].
    + destruct (sp_run v) as (n & v' & Hw & Hv').
      assert (Hesc : escape (repeat SP (S n)) = repeat SP (S n)). { apply escape_no_quote. intros H. apply repeat_spec in H. discriminate. }
      exists T_WHITESPACE, (repeat SP (S n)), v'. rewrite Hw, escape_app, Hesc, <- app_assoc. repeat split; try discriminate.
      rewrite args_toks_space; [reflexivity| |rewrite all_sp_app; apply andb_false_r].
      intros r E. destruct v' as [|c v2]; [discriminate|]. specialize (Hv' c v2 eq_refl).
      apply escape_hd in E as [E|[E _]]; [congruence|discriminate].
    + assert (Hp : args_plain d = true).
      { apply args_plain_spec. split; [exact Hsp|]. rewrite <- args_special_spec, Es. discriminate. }
      destruct (plain_run d v Hp) as (w & v' & Hw & Hwn & Hall & Hv').
      assert (Hesc : escape w = w).
      { apply escape_no_quote. intros H. rewrite forallb_forall in Hall. specialize (Hall _ H). discriminate. }
      exists T_TEXT, w, v'. rewrite Hw, escape_app, Hesc, <- app_assoc. repeat split; try discriminate; try assumption.
      apply args_toks_text; [assumption|exact Hall|]. intros c r E. destruct v' as [|c' v2].
      * cbn in E. injection E as <- _. reflexivity.
      * specialize (Hv' c' v2 eq_refl). apply escape_hd in E as [E|[E _]]; [subst c; exact Hv'|rewrite E; reflexivity].
Qed.

Lemma lex_quoted : forall n v rest, length v <= n -> quotable v -> exists ts, qtoks ts v /\
  line_toks args_next (escape v ++ QUOTE :: rest) = ts ++ line_toks args_next (QUOTE :: rest).
Proof.
  induction n as [|n IH]; intros v rest Hn Hq.
  - destruct v; [|cbn in Hn; lia]. exists []. split; [constructor|reflexivity].
  - destruct v as [|c v]; [exists []; split; [constructor|reflexivity]|]. cbn [length] in Hn.
    destruct Hq as (Hnl & Hbs & Hq).
    destruct (N.eq_dec c QUOTE) as [->|Hc].
    + destruct (IH v rest ltac:(lia) Hq) as (ts & H1 & H2). exists (tB :: tQ :: ts). split; [apply qt_esc, H1|].
      cbn [escape]. rewrite N.eqb_refl. cbn [app]. rewrite !args_toks_special by reflexivity. rewrite H2. reflexivity.
    + destruct (N.eq_dec c BS) as [->|Hb].
      * destruct (Hbs eq_refl) as [Hne Hnq]. destruct v as [|d v]; [congruence|]. cbn in Hnq.
        assert (Hdq : d <> QUOTE) by congruence.
        destruct (next_quoted d v rest Hdq) as (ty & w & v' & E1 & E2 & E3 & E4 & _).
        assert (Hlen : length v' <= n).
        { apply (f_equal (@length N)) in E1. rewrite app_length in E1. destruct w; [congruence|]. cbn in E1, Hn. lia. }
        assert (Hq' : quotable v') by (rewrite E1 in Hq; apply quotable_app in Hq; exact Hq).
        destruct (IH v' rest Hlen Hq') as (ts & H1 & H2). exists (tB :: (ty, w) :: ts). rewrite E1. split; [apply (qt_pair (ty, w)); assumption|].
        assert (Hescb : escape (BS :: w ++ v') = BS :: escape (w ++ v')) by reflexivity.
        rewrite Hescb. cbn [app]. rewrite (args_toks_special BS) by reflexivity. rewrite <- E1, E3, H2. reflexivity.
      * destruct (next_quoted c v rest Hc) as (ty & w & v' & E1 & E2 & E3 & E4 & E5).
        assert (Hlen : length v' <= n).
        { apply (f_equal (@length N)) in E1. rewrite app_length in E1. destruct w; [congruence|]. cbn in E1, Hn. lia. }
        assert (Hq' : quotable v').
        { apply (quotable_app w). rewrite <- E1. cbn. auto. }
        destruct (IH v' rest Hlen Hq') as (ts & H1 & H2). exists ((ty, w) :: ts). split.
        -- rewrite E1. apply (qt_tok (ty, w)); auto.
        -- rewrite E3, H2. reflexivity.
Qed.

Lemma tv_in_stop t ty v : tv t <> (ty, v) -> token_eqb t (generate ty v) = false.
Proof.
  intros H. destruct (token_eqb t (generate ty v)) eqn:E; [|reflexivity]. apply token_eqb_spec in E as [E1 E2].
  destruct H. unfold tv. rewrite E1, E2. reflexivity.
Qed.
Definition qstops : list token := [quote_tok] ++ [EOF_tok].
Lemma ordinary_stop t : ordinary (tv t) -> token_in t qstops = false.
Proof.
  intros (H1 & H2 & H3). unfold token_in, qstops. cbn [app existsb]. rewrite orb_false_r. apply orb_false_iff. split; [apply tv_in_stop, H1|].
  apply tv_in_stop. intros K. unfold tv in K. injection K as K _. apply H3. exact K.
Qed.

Lemma collect_quoted ts v : qtoks ts v -> forall a q r, map tv a = ts -> tv q = tQ ->
  exists c, collect_list qstops false (a ++ q :: r) = Ok (c, q :: r) /\
    t_value (join_tokens c []) = v.
Proof.
  intros Hq a q r Ha Hqt.
  assert (K : exists c, collect_list qstops false (a ++ q :: r) = Ok (c, q :: r) /\
    concat_str (map t_value c) = v /\ Forall (fun t => t_value t <> []) c).
  2:{ destruct K as (c & H1 & H2 & H3). exists c. split; [exact H1|]. rewrite join_value by exact H3. exact H2. }
  assert (Hqs : token_in q qstops = true).
  { unfold token_in, qstops. cbn [app existsb]. assert (token_eqb q quote_tok = true) as ->; [|reflexivity].
    apply token_eqb_spec. unfold tv, tQ in Hqt. injection Hqt as -> ->. auto. }
  revert a Ha. induction Hq as [|t ts v Ho Hb Hq IH|ts v Hq IH|t ts v Ho Hq IH]; intros a Ha.
  - apply map_tv_nil in Ha as ->. exists []. cbn [app collect_list]. rewrite Hqs. repeat split. constructor.
  - destruct a as [|u a]; [discriminate|]. cbn in Ha. injection Ha as <- Ha. destruct (IH a Ha) as (c & H1 & H2 & H3).
    exists (u :: c). cbn [app collect_list].
    rewrite (ordinary_stop u Ho), (tv_in_stop u T_LITERAL [BS] Hb : token_eqb u escape_tok = false).
    rewrite H1. cbn [rbind map concat_str]. rewrite H2. split; [reflexivity|]. split; [reflexivity|].
    constructor; [|exact H3]. destruct Ho as (_ & Ho & _). exact Ho.
  - destruct a as [|b [|u a]]; try discriminate. cbn in Ha. injection Ha as Hb1 Hb2 Hu1 Hu2 Ha. destruct (IH a Ha) as (c & H1 & H2 & H3).
    exists (u :: c). destruct b as [bt bv bc], u as [ut uv uc]. cbn in Hb1, Hb2, Hu1, Hu2. subst.
    cbn [app collect_list]. change (token_in (mkToken T_LITERAL [BS] bc) qstops) with false.
    change (token_eqb (mkToken T_LITERAL [BS] bc) escape_tok) with true.
    change (token_in (mkToken T_LITERAL [QUOTE] uc) qstops) with true. cbv iota.
    destruct (a ++ q :: r) as [|y ys] eqn:E; [destruct a; discriminate|]. rewrite H1. cbn [rbind negb orb app map concat_str t_value].
    repeat split. constructor; [discriminate|exact H3].
  - destruct a as [|b [|u a]]; try discriminate. cbn in Ha. injection Ha as Hb1 Hb2 Hu Ha. destruct (IH a Ha) as (c & H1 & H2 & H3).
    subst t. exists (b :: u :: c). destruct b as [bt bv bc]. cbn in Hb1, Hb2. subst.
    cbn [app collect_list]. change (token_in (mkToken T_LITERAL [BS] bc) qstops) with false.
    change (token_eqb (mkToken T_LITERAL [BS] bc) escape_tok) with true.
    rewrite (ordinary_stop u Ho). cbv iota.
    destruct (a ++ q :: r) as [|y ys] eqn:E; [destruct a; discriminate|]. rewrite H1. cbn [rbind negb orb app map concat_str t_value].
    repeat split. constructor; [discriminate|]. constructor; [destruct Ho as (_ & Ho & _); exact Ho|exact H3].
Qed.

(* ------------------------------------------------ bare values *)
Definition bare_tok (t : token_type * str) : Prop := (fst t = T_TEXT \/ fst t = T_WHITESPACE) /\ snd t <> [].
Definition stops_bare (rest : str) : Prop := rest = [] \/ exists r, rest = COMMA :: r.

Lemma lex_bare_rest : forall n v rest, length v <= n -> (forall c, In c v -> ~ args_meaning c) ->
  hd_error (rev v) <> Some SP -> stops_bare rest ->
  exists ts, line_toks args_next (v ++ rest) = ts ++ line_toks args_next rest /\
    concat_str (map snd ts) = v /\ Forall bare_tok ts /\
    (hd_error v <> Some SP -> v <> [] -> exists w ts', ts = (T_TEXT, w) :: ts').
Proof.
  induction n as [|n IH]; intros v rest Hn Hm Hend Hrest.
  - destruct v; [|cbn in Hn; lia]. exists []. repeat split; [constructor|]. intros _ K. congruence.
  - destruct v as [|d v]; [exists []; repeat split; [constructor|]; intros _ K; congruence|]. cbn [length] in Hn.
    assert (Hsuf : forall w v', d :: v = w ++ v' -> w <> [] -> length v' <= n /\ (forall c, In c v' -> ~ args_meaning c) /\ hd_error (rev v') <> Some SP).
    { intros w v' E Hw. split; [|split].
      - apply (f_equal (@length N)) in E. rewrite app_length in E. destruct w; [congruence|]. cbn in E. lia.
      - intros c Hc. apply Hm. rewrite E. apply in_or_app; auto.
      - rewrite E, rev_app_distr in Hend. destruct (rev v'); [discriminate|exact Hend]. }
    destruct (N.eqb_spec d SP) as [->|Hsp].
    + destruct (sp_run v) as (k & v' & Hw & Hv').
      destruct (Hsuf _ v' Hw) as (L1 & L2 & L3); [discriminate|].
      destruct v' as [|c v2].
      { exfalso. rewrite app_nil_r in Hw. apply Hend. rewrite Hw. clear. change (S k) with (1 + k).
        induction k as [|k IH]; [reflexivity|]. cbn [Nat.add repeat rev] in *.
        destruct (rev (repeat SP k) ++ [SP]) as [|x xs]; [discriminate|]. cbn in *. exact IH. }
      specialize (Hv' c v2 eq_refl).
      destruct (IH (c :: v2) rest L1 L2 L3 Hrest) as (ts & T1 & T2 & T3 & T4).
      exists ((T_WHITESPACE, repeat SP (S k)) :: ts). rewrite Hw, <- app_assoc. rewrite args_toks_space.
      * rewrite T1. cbn [map concat_str snd]. rewrite T2. repeat split; auto.
        -- constructor; [|exact T3]. split; [right; reflexivity|]. discriminate.
        -- intros K. cbn in K. congruence.
      * intros r E. cbn in E. injection E as E _. congruence.
      * cbn [app all_sp]. destruct (N.eqb_spec c SP) as [->|]; [congruence|reflexivity].
    + assert (Hp : args_plain d = true).
      { apply args_plain_spec. split; [exact Hsp|]. apply Hm. left; reflexivity. }
      destruct (plain_run d v Hp) as (w & v' & Hw & Hwn & Hall & Hv').
      destruct (Hsuf w v' Hw Hwn) as (L1 & L2 & L3).
      destruct (IH v' rest L1 L2 L3 Hrest) as (ts & T1 & T2 & T3 & T4).
      exists ((T_TEXT, w) :: ts). rewrite Hw, <- app_assoc. rewrite args_toks_text; [| |exact Hall|].
      * rewrite T1. cbn [map concat_str snd]. rewrite T2. repeat split; auto.
        -- constructor; [|exact T3]. split; [left; reflexivity|]. exact Hwn.
        -- intros _ _. eauto.
      * exact Hwn.
      * intros c r E. destruct v' as [|c' v2].
        -- cbn in E. destruct Hrest as [->|[r' ->]]; [discriminate|]. injection E as <- _. reflexivity.
        -- cbn in E. injection E as <- _. exact (Hv' c' v2 eq_refl).
Qed.

(* ------------------------------------------------ values and what follows them *)
Definition tC : token_type * str := (T_LITERAL, [COMMA]).
Inductive vtoks : list (token_type * str) -> str -> Prop :=
| vt_quoted ts v : qtoks ts v -> vtoks (tQ :: ts ++ [tQ]) v
| vt_bare w ts : Forall bare_tok ((T_TEXT, w) :: ts) -> vtoks ((T_TEXT, w) :: ts) (concat_str (map snd ((T_TEXT, w) :: ts))).

Lemma lex_value v w rest : writes v w -> stops_bare rest ->
  exists ts, line_toks args_next (w ++ rest) = ts ++ line_toks args_next rest /\ vtoks ts v.
Proof.
  intros [v' (H1 & H2 & H3 & H4)|v' Hq] Hr.
  - destruct (lex_bare_rest (length v') v' rest (le_n _)) as (ts & T1 & T2 & T3 & T4); auto.
    { intros c Hc. apply H1, Hc. }
    destruct (T4 H3 H2) as (w' & ts' & ->). eexists. split; [exact T1|]. rewrite <- T2. constructor. exact T3.
  - destruct (lex_quoted (length v') v' rest (le_n _) Hq) as (ts & T1 & T2).
    exists (tQ :: ts ++ [tQ]). split; [|constructor; exact T1]. cbn [app]. rewrite args_toks_special by reflexivity.
    rewrite <- app_assoc. cbn [app]. rewrite T2, <- app_assoc, (args_toks_special QUOTE) by reflexivity. reflexivity.
Qed.

(* r: the comma and the spaces, then r' *)
Inductive after : list token -> list token -> Prop :=
| af_end t : t_type t = T_EOF -> t_value t = [] -> after [t] [t]
| af_comma c t r : t_type t <> T_WHITESPACE -> after (mkToken T_LITERAL [COMMA] c :: t :: r) (t :: r)
| af_space c w d t r : after (mkToken T_LITERAL [COMMA] c :: mkToken T_WHITESPACE w d :: t :: r) (t :: r).
Lemma after_ne r r' : after r r' -> r <> [] /\ r' <> [].
Proof. intros H; inversion H; split; discriminate. Qed.

Definition sep {X} : P X unit := pwith (get_tv T_LITERAL (lit ",")) ;;; pwith (get_ty T_WHITESPACE) ;;; pret tt.
Lemma sep_after {X} r r' (x : X) : after r r' -> sep (r, x) = ((r', x), Ok tt).
Proof.
  intros [[ty v c] H1 H2|c [ty v c'] r0 H1|c w d t r0]; unfold sep.
  - cbn in H1, H2. subst. pev. reflexivity.
  - cbn in H1. pev. change (str_eqb [COMMA] (lit ",")) with true. pev. destruct (tt_eqb_spec ty T_WHITESPACE); [contradiction|]. pev. reflexivity.
  - pev. reflexivity.
Qed.

Lemma token_in_bare t : bare_tok (tv t) -> token_in t ([comma_tok] ++ [EOF_tok]) = false /\ token_eqb t escape_tok = false.
Proof.
  intros ([H|H] & _); cbn in H; unfold token_in, token_eqb; cbn [app existsb]; rewrite H; split; reflexivity.
Qed.
Lemma collect_bare a r r' : Forall bare_tok (map tv a) -> after r r' ->
  collect_list ([comma_tok] ++ [EOF_tok]) false (a ++ r) = Ok (a, r).
Proof.
  intros Ha Hr. induction a as [|t a IH].
  - cbn [app]. destruct Hr as [[ty v c] H1 H2|c t r0 H1|c w d t r0]; [cbn in H1, H2; subst| |]; reflexivity.
  - inversion Ha as [|? ? H1 H2]; subst. specialize (IH H2). destruct (token_in_bare t H1) as [E1 E2].
    cbn [app collect_list]. cbn [app] in E1. rewrite E1, E2. cbn [app] in IH. rewrite IH. reflexivity.
Qed.

Lemma pbind_assoc {X A B C} (m : P X A) (f : A -> P X B) (g : B -> P X C) s :
  pbind (pbind m f) g s = pbind m (fun a => pbind (f a) g) s.
Proof. unfold pbind. destruct (m s) as [s1 [a|]]; reflexivity. Qed.
Lemma pbind_ext {X A B} (m : P X A) (f g : A -> P X B) s : (forall a s', f a s' = g a s') -> pbind m f s = pbind m g s.
Proof. intros H. unfold pbind. destruct (m s) as [s1 [a|]]; [apply H|reflexivity]. Qed.
Lemma ap_value_eq s : ap_value s = (let* t := (let* quoted := is_tv T_LITERAL Q in
             (if quoted : bool then
               get_tv T_LITERAL Q ;;;
               let* t := pcollect_join [quote_tok] [] false in
               get_tv T_LITERAL Q ;;; pret t
             else pcollect_join [comma_tok] [] false)) in sep ;;; pret t) s.
Proof.
  unfold ap_value. rewrite pbind_assoc. apply pbind_ext. intros q s1. apply pbind_ext. intros t s2. unfold sep.
  rewrite pbind_assoc. apply pbind_ext. intros u s3. rewrite pbind_assoc. reflexivity.
Qed.
Lemma ap_value_run ts v a r r' x : vtoks ts v -> map tv a = ts -> after r r' ->
  exists t, ap_value (a ++ r, x) = ((r', x), Ok t) /\ t_value t = v.
Proof.
  intros Hv Ha Hr. destruct Hv as [ts v Hq|w ts Hb].
  - destruct a as [|q1 a]; [discriminate|]. cbn in Ha. injection Ha as Hq1 Hq1' Ha.
    apply map_tv_app in Ha as (a1 & a2 & -> & Ha1 & Ha2). destruct a2 as [|q2 [|]]; try discriminate. cbn in Ha2.
    injection Ha2 as Hq2 Hq2'. destruct q1 as [ty1 v1 c1], q2 as [ty2 v2 c2]. cbn in Hq1, Hq1', Hq2, Hq2'. subst ty1 v1 ty2 v2.
    destruct (collect_quoted ts v Hq a1 (mkToken T_LITERAL [QUOTE] c2) r Ha1 eq_refl) as (c & Hc & Hcv).
    exists (join_tokens c []). split; [|exact Hcv].
    rewrite ap_value_eq. unfold pbind at 1 2, is_tv, peek_is. cbn [app fst peek_tok]. unfold check_token. cbn [t_type t_value].
    change (tt_eqb T_LITERAL T_LITERAL) with true. change (str_eqb [QUOTE] Q) with true. cbn [negb].
    unfold pbind at 1 2 3 4, get_tv, pget_token, peek_tok, check_token. cbn [fst snd t_type t_value].
    change (tt_eqb T_LITERAL T_LITERAL) with true. change (str_eqb [QUOTE] Q) with true. cbn [negb].
    rewrite <- app_assoc. cbn [app].
    assert (En : next_rem (mkToken T_LITERAL [QUOTE] c1 :: a1 ++ mkToken T_LITERAL [QUOTE] c2 :: r) = a1 ++ mkToken T_LITERAL [QUOTE] c2 :: r).
    { unfold next_rem. destruct (a1 ++ mkToken T_LITERAL [QUOTE] c2 :: r) eqn:E; [destruct a1; discriminate|reflexivity]. }
    rewrite En. unfold pcollect_join at 1. unfold pbind at 1, pcollect. cbn [fst snd]. fold qstops. rewrite Hc. unfold pret at 1. cbn [fst snd t_type t_value].
    change (tt_eqb T_LITERAL T_LITERAL) with true. change (str_eqb [QUOTE] Q) with true. cbn [negb]. unfold pret at 1.
    destruct (after_ne _ _ Hr) as [Hr1 _].
    assert (next_rem (mkToken T_LITERAL [QUOTE] c2 :: r) = r) as -> by (destruct r; [congruence|reflexivity]).
    unfold pbind. rewrite (sep_after _ _ _ Hr). reflexivity.
  - apply map_tv_cons in Ha as (c1 & a' & -> & Ha). rename a' into a.
    assert (Hb' : Forall bare_tok (map tv (mkToken T_TEXT w c1 :: a))) by (cbn [map]; rewrite Ha; exact Hb).
    pose proof (collect_bare _ _ _ Hb' Hr) as Hc.
    exists (join_tokens (mkToken T_TEXT w c1 :: a) []). split.
    + rewrite ap_value_eq. unfold pbind at 1 2, is_tv, peek_is. cbn [app fst peek_tok]. unfold check_token. cbn [t_type t_value].
      change (tt_eqb T_TEXT T_LITERAL) with false. cbn [negb].
      unfold pcollect_join, pbind at 1, pcollect. cbn [fst snd]. cbn [app] in Hc |- *. rewrite Hc. unfold pret at 1, pbind.
      rewrite (sep_after _ _ _ Hr). reflexivity.
    + rewrite join_value; [|apply Forall_forall; intros t Ht; rewrite Forall_forall in Hb'; apply (Hb' (tv t)), in_map, Ht].
      rewrite <- Ha. cbn [map snd t_value]. rewrite map_map. reflexivity.
Qed.

(* ------------------------------------------------ one argument *)
Definition atoks (ar : arg) (ts : list (token_type * str)) : Prop :=
  match ar with
  | Pos v => vtoks ts v
  | Key k v => k <> [] /\ exists vs, ts = (T_TEXT, k) :: (T_LITERAL, [EQUALS]) :: vs /\ vtoks vs v
  end.

Lemma lex_arg ar w rest : writes_arg ar w -> stops_bare rest ->
  exists ts, line_toks args_next (w ++ rest) = ts ++ line_toks args_next rest /\ atoks ar ts.
Proof.
  intros [v w' Hw|k v w' [Hk1 Hk2] Hw] Hr.
  - apply lex_value; assumption.
  - destruct (lex_value v w' rest Hw Hr) as (ts & H1 & H2).
    exists ((T_TEXT, k) :: (T_LITERAL, [EQUALS]) :: ts). split; [|cbn; eauto].
    rewrite <- app_assoc. rewrite args_toks_text.
    + cbn [app]. rewrite args_toks_special by reflexivity. rewrite H1. reflexivity.
    + exact Hk1.
    + apply forallb_forall. intros c Hc. apply args_plain_spec. split; apply Hk2, Hc.
    + intros c r E. cbn in E. injection E as <- _. reflexivity.
Qed.

Definition vals (x : ap_state) : bool * list str * dict str :=
  (ap_on x, map t_value (ap_unnamed x), map (fun kv => (fst kv, t_value (snd kv))) (ap_named x)).
Definition put (s : bool * list str * dict str) (ar : arg) : bool * list str * dict str :=
  let '(on, u, n) := s in
  match ar with
  | Pos v => (on, u ++ [v], n)
  | Key k v => (true, u, dset k (strip v) n)
  end.

Lemma map_dset (k : str) (t : token) (d : dict token) :
  map (fun kv => (fst kv, t_value (snd kv))) (dset k t d) = dset k (t_value t) (map (fun kv => (fst kv, t_value (snd kv))) d).
Proof. induction d as [|[a w] d IH]; cbn; [reflexivity|]. destruct (str_eqb k a); cbn; [reflexivity|]. rewrite IH. reflexivity. Qed.

(* an unnamed value is not read as a named argument *)
Lemma not_named ts v a r r' x : vtoks ts v -> map tv a = ts -> after r r' ->
  exists s, ap_named_argument (a ++ r, x) = ((s, x), Exc ExTokenError).
Proof.
  intros Hv Ha Hr. destruct Hv as [ts v Hq|w ts Hb].
  - destruct a as [|[ty1 v1 c1] a]; [discriminate|]. cbn in Ha. injection Ha as E1 E2 Ha. subst.
    eexists. unfold ap_named_argument. cbn [app]. pev. reflexivity.
  - apply map_tv_cons in Ha as (c1 & a' & -> & Ha). rename a' into a.
    assert (Hnext : exists t l, a ++ r = t :: l /\ tv t <> (T_LITERAL, [EQUALS])).
    { destruct a as [|u a].
      - destruct Hr as [[ty' v' c'] H1 H2|c t r0 H1|c w' d t r0]; cbn [app]; do 2 eexists; (split; [reflexivity|]); [cbn in H1; subst; discriminate|discriminate|discriminate].
      - do 2 eexists. split; [reflexivity|]. inversion Hb as [|? ? _ Hb']; subst. cbn in Hb'. inversion Hb' as [|? ? [[K|K] _] _]; subst; cbn in K; unfold tv; rewrite K; discriminate. }
    destruct Hnext as ([ty v c] & l & El & Ht). eexists. unfold ap_named_argument. cbn [app]. rewrite El. pev.
    destruct (tt_eqb_spec ty T_LITERAL) as [->|]; cbn [negb]; [|reflexivity].
    destruct (str_eqb_spec v (lit "=")) as [->|]; cbn [negb]; [destruct Ht; reflexivity|reflexivity].
Qed.

Lemma arg_turn ctx ar ts a r r' x : atoks ar ts -> map tv a = ts -> after r r' ->
  match ar with Pos _ => ap_on x = false | Key _ _ => True end ->
  exists x', ptry (ap_fns ctx) (a ++ r, x) = ((r', x'), Ok true) /\ vals x' = put (vals x) ar.
Proof.
  intros Hat Ha Hr Hx. unfold ap_fns, ptry, pbind, pwith. destruct ar as [v|k v].
  - destruct (not_named ts v a r r' x Hat Ha Hr) as (s & ->). cbn [fst snd].
    unfold ap_unnamed_argument. unfold pbind, pget. cbn [snd]. rewrite Hx.
    destruct (ap_value_run ts v a r r' x Hat Ha Hr) as (t & -> & Ht). cbn. eexists. split; [reflexivity|].
    unfold vals. cbn. rewrite map_app. cbn. rewrite Ht. reflexivity.
  - destruct Hat as (_ & vs & -> & Hv). destruct a as [|[ty1 v1 c1] [|[ty2 v2 c2] a]]; try discriminate.
    cbn in Ha. injection Ha as -> -> -> -> Ha.
    destruct (ap_value_run vs v a r r' x Hv Ha Hr) as (t & E & Ht).
    assert (Hne : exists t l, a ++ r = t :: l).
    { destruct a; [|cbn; eauto]. destruct (after_ne _ _ Hr) as [K _]. destruct r; [congruence|cbn; eauto]. }
    destruct Hne as (t0 & l0 & El).
    unfold ap_named_argument. cbn [app]. rewrite El in E |- *. unfold pbind at 1 2, get_ty, get_tv, pget_token, peek_tok, check_token. cbn [fst snd t_type t_value].
    change (tt_eqb T_TEXT T_TEXT) with true. cbn [negb next_rem]. change (tt_eqb T_LITERAL T_LITERAL) with true. change (str_eqb [EQUALS] (lit "=")) with true. cbn [negb next_rem].
    unfold pbind at 1. cbn [fst snd t_type t_value next_rem]. change (tt_eqb T_LITERAL T_LITERAL) with true. change (str_eqb [EQUALS] (lit "=")) with true. cbn [negb].
    rewrite E. cbn. eexists. split; [reflexivity|]. unfold vals. cbn [ap_on ap_unnamed ap_named put]. rewrite map_dset. cbn [vnode t_value]. rewrite Ht. reflexivity.
Qed.

Definition misplaced_error (ctx : option context) : exn := parser_error "Unnamed arguments after named arguments are forbidden." ctx.
Lemma arg_misplaced ctx v ts a r r' x : vtoks ts v -> map tv a = ts -> after r r' -> ap_on x = true ->
  exists s, ptry (ap_fns ctx) (a ++ r, x) = (s, Exc (misplaced_error ctx)).
Proof.
  intros Hat Ha Hr Hx. unfold ap_fns, ptry, pbind, pwith. destruct (not_named ts v a r r' x Hat Ha Hr) as (s & ->). cbn [fst snd].
  unfold ap_unnamed_argument. unfold pbind, pget. cbn [snd]. rewrite Hx. eexists. reflexivity.
Qed.

(* ------------------------------------------------ all the arguments *)
Fixpoint bad (on : bool) (l : list arg) : bool :=
  match l with
  | [] => false
  | Pos _ :: r => on || bad on r
  | Key _ _ :: r => bad true r
  end.
Lemma bad_true l : bad true l = true <-> exists a w c, l = a ++ Pos w :: c.
Proof.
  induction l as [|[v|k v] l IH]; cbn.
  - split; [discriminate|]. intros ([|] & w & c & H); discriminate.
  - split; [|reflexivity]. intros _. exists [], v, l. reflexivity.
  - rewrite IH. split; intros (a & w & c & H).
    + exists (Key k v :: a), w, c. rewrite H. reflexivity.
    + destruct a as [|b a]; [discriminate|]. injection H as _ H. eauto.
Qed.
Lemma bad_misplaced l : bad false l = true <-> misplaced l.
Proof.
  unfold misplaced. induction l as [|[v|k v] l IH]; cbn.
  - split; [discriminate|]. intros ([|] & k & v & b & w & c & H); discriminate.
  - rewrite IH. split; intros (a & k & v' & b & w & c & H).
    + exists (Pos v :: a), k, v', b, w, c. rewrite H. reflexivity.
    + destruct a as [|b' a]; [discriminate|]. injection H as <- H. eauto 8.
  - rewrite bad_true. split.
    + intros (b & w & c & ->). exists [], k, v, b, w, c. reflexivity.
    + intros (a & k' & v' & b & w & c & H). destruct a as [|b' a].
      * injection H as -> -> H. eauto.
      * injection H as _ H. exists (a ++ Key k' v' :: b), w, c. rewrite H, <- app_assoc. reflexivity.
Qed.

Lemma atoks_hd ar ts : atoks ar ts -> exists t ts', ts = t :: ts' /\ fst t <> T_EOF /\ snd t <> [].
Proof.
  assert (K : forall v, vtoks ts v -> exists t ts', ts = t :: ts' /\ fst t <> T_EOF /\ snd t <> []).
  { intros v [ts' v' Hq|w ts' Hb]; do 2 eexists; (split; [reflexivity|]); [split; discriminate|].
    inversion Hb as [|? ? [_ H] _]; subst. split; [discriminate|exact H]. }
  destruct ar as [v|k v]; [apply K|]. intros (Hk & vs & -> & _). do 2 eexists. split; [reflexivity|]. split; [discriminate|exact Hk].
Qed.

Lemma writes_arg_hd ar w : writes_arg ar w -> exists c r, w = c :: r /\ c <> SP.
Proof.
  assert (K : forall v w, writes v w -> exists c r, w = c :: r /\ c <> SP).
  { intros v w' [v' (_ & H1 & H2 & _)|v' _].
    - destruct v' as [|c r]; [congruence|]. exists c, r. split; [reflexivity|]. cbn in H2. congruence.
    - do 2 eexists. split; [reflexivity|discriminate]. }
  intros [v w' H|k v w' [H1 H2] H]; [eauto|]. destruct k as [|c k]; [congruence|]. do 2 eexists. split; [reflexivity|]. apply (H2 c). left; reflexivity.
Qed.
Lemma writes_args_hd l t : writes_args l t -> exists c r, t = c :: r /\ c <> SP.
Proof.
  intros [a w H|a w n l' t' H _]; destruct (writes_arg_hd a w H) as (c & r & -> & Hc); do 2 eexists; (split; [reflexivity|exact Hc]).
Qed.
Lemma hd_not_sp c r : c <> SP -> all_sp (c :: r) = false.
Proof. intros H. cbn. destruct (N.eqb_spec c SP); [contradiction|reflexivity]. Qed.
Lemma line_toks_not_ws c r : c <> SP -> exists ty w ts, line_toks args_next (c :: r) = (ty, w) :: ts /\ ty <> T_WHITESPACE.
Proof.
  intros H. rewrite (line_toks_eq _ args_next_prefix args_next_type), (hd_not_sp c r H).
  cbn [args_next]. destruct (N.eqb_spec c SP); [contradiction|].
  destruct (mem_chr c args_specials); do 3 eexists; (split; [reflexivity|discriminate]).
Qed.

Lemma args_loop ctx l t : writes_args l t -> forall toks last n x,
  map tv toks = line_toks args_next t ++ [(T_EOF, [])] -> apart toks -> fresh last toks -> length toks <= n ->
  (bad (ap_on x) l = false -> exists s x', ploop n (ap_fns ctx) last (toks, x) = ((s, x'), Ok tt) /\ vals x' = fold_left put l (vals x)) /\
  (bad (ap_on x) l = true -> exists s, ploop n (ap_fns ctx) last (toks, x) = (s, Exc (misplaced_error ctx))).
Proof.
  induction 1 as [ar w Hw|ar w k l t Hw Hl IH]; intros toks last n x Htv Hap Hfr Hn.
  - destruct (lex_arg ar w [] Hw (or_introl eq_refl)) as (ts & T1 & T2). rewrite app_nil_r in T1.
    change (line_toks args_next []) with (@nil (token_type * str)) in T1. rewrite app_nil_r in T1. rewrite T1 in Htv.
    apply map_tv_app in Htv as (a & b & -> & Ha & Hb). apply map_tv_cons in Hb as (ce & b' & -> & Hb). apply map_tv_nil in Hb as ->.
    assert (Haf : after [mkToken T_EOF [] ce] [mkToken T_EOF [] ce]) by (constructor; reflexivity).
    destruct (atoks_hd _ _ T2) as (u & us & Ets & Hu1 & Hu2). rewrite Ets in Ha. destruct a as [|u' a]; [discriminate|].
    assert (Eu : tv u' = u) by (injection Ha; auto). rewrite <- Ets in Ha.
    cbn [app] in *. cbn [length] in Hn. rewrite app_length in Hn. cbn [length] in Hn.
    destruct n as [|[|n]]; [lia|lia|].
    assert (Hne : t_type u' <> T_EOF) by (rewrite <- Eu in Hu1; exact Hu1).
    split; intros Hbad.
    + destruct (arg_turn ctx ar ts (u' :: a) _ _ x T2 Ha Haf) as (x' & E1 & E2).
      { destruct ar; [|exact I]. cbn in Hbad. destruct (ap_on x); [discriminate|reflexivity]. }
      do 2 eexists. rewrite (ploop_step _ _ _ _ _ _ _ Hne (fresh_hd _ _ _ Hfr Hne) E1).
      rewrite ploop_eof by reflexivity. split; [reflexivity|]. exact E2.
    + destruct ar as [v|kk v]; [|discriminate]. cbn in Hbad. rewrite orb_false_r in Hbad.
      destruct (arg_misplaced ctx v ts (u' :: a) _ _ x T2 Ha Haf Hbad) as (s & E1).
      eexists. apply (ploop_exc _ _ _ _ _ _ _ _ Hne (fresh_hd _ _ _ Hfr Hne) E1).
  - destruct (writes_args_hd l t Hl) as (c & tr & Et & Hc).
    destruct (lex_arg ar w (COMMA :: repeat SP k ++ t) Hw) as (ts & T1 & T2); [right; eauto|].
    change ([COMMA] ++ repeat SP k ++ t) with (COMMA :: repeat SP k ++ t) in Htv. rewrite T1 in Htv.
    rewrite args_toks_special in Htv by reflexivity.
    assert (Hsp : exists ws, line_toks args_next (repeat SP k ++ t) = ws ++ line_toks args_next t /\ (ws = [] \/ exists w', ws = [(T_WHITESPACE, w')])).
    { destruct k as [|k]; [exists []; auto|]. eexists. rewrite args_toks_space; [split; [|eauto]; reflexivity| |].
      - intros r E. rewrite Et in E. injection E as -> _. congruence.
      - rewrite Et. apply hd_not_sp, Hc. }
    destruct Hsp as (ws & Ews & Hws). rewrite Ews in Htv. rewrite <- app_assoc in Htv. cbn [app] in Htv. rewrite <- app_assoc in Htv.
    apply map_tv_app in Htv as (a & b & -> & Ha & Hb). apply map_tv_cons in Hb as (cc & b' & -> & Hb).
    apply map_tv_app in Hb as (bw & toks' & -> & Hbw & Htoks').
    destruct (line_toks_not_ws c tr Hc) as (ty0 & w0 & ts0 & E0 & Hty0).
    assert (Hto : exists t0 r0, toks' = t0 :: r0 /\ t_type t0 <> T_WHITESPACE).
    { rewrite Et, E0 in Htoks'. cbn [app] in Htoks'. apply map_tv_cons in Htoks' as (c0 & r0 & -> & _). do 2 eexists. split; [reflexivity|exact Hty0]. }
    assert (Haf : after (mkToken T_LITERAL [COMMA] cc :: bw ++ toks') toks').
    { destruct Hto as (t0 & r0 & -> & Ht0). destruct Hws as [->|[w' ->]].
      - apply map_tv_nil in Hbw as ->. cbn [app]. constructor. exact Ht0.
      - apply map_tv_cons in Hbw as (cw & bw' & -> & Hbw). apply map_tv_nil in Hbw as ->. cbn [app]. constructor. }
    destruct (atoks_hd _ _ T2) as (u & us & Ets & Hu1 & Hu2). rewrite Ets in Ha. destruct a as [|u' a]; [discriminate|].
    assert (Eu : tv u' = u) by (injection Ha; auto). rewrite <- Ets in Ha.
    cbn [app] in *. cbn [length] in Hn. rewrite app_length in Hn. cbn [length] in Hn. rewrite app_length in Hn. cbn [length] in Hn.
    destruct n as [|n]; [lia|].
    assert (Hne : t_type u' <> T_EOF) by (rewrite <- Eu in Hu1; exact Hu1).
    assert (Hfr' : fresh u' toks').
    { apply (fresh_next u' (a ++ mkToken T_LITERAL [COMMA] cc :: bw)); [rewrite <- app_assoc; cbn [app]; exact Hap|]. rewrite <- Eu in Hu2. exact Hu2. }
    assert (Hap' : apart toks').
    { apply (apart_app (u' :: a ++ mkToken T_LITERAL [COMMA] cc :: bw)). cbn [app]. rewrite <- app_assoc. exact Hap. }
    destruct (match ar with Pos _ => ap_on x | Key _ _ => false end) eqn:Enow.
    + destruct ar as [v|]; [|discriminate]. split; intros Hbad; [cbn in Hbad; rewrite Enow in Hbad; discriminate|].
      destruct (arg_misplaced ctx v ts (u' :: a) _ _ x T2 Ha Haf Enow) as (s & E1).
      eexists. apply (ploop_exc _ _ _ _ _ _ _ _ Hne (fresh_hd _ _ _ Hfr Hne) E1).
    + destruct (arg_turn ctx ar ts (u' :: a) _ _ x T2 Ha Haf) as (x' & E1 & E2).
      { destruct ar; [exact Enow|exact I]. }
      cbn [app] in E1.
      assert (Hon : bad (ap_on x) (ar :: l) = bad (ap_on x') l).
      { apply (f_equal (fun p => fst (fst p))) in E2. cbn [vals fst] in E2. rewrite E2. destruct ar; cbn in *; [rewrite Enow|]; reflexivity. }
      destruct (IH toks' u' n x' Htoks' Hap' Hfr' ltac:(lia)) as [IH1 IH2]. rewrite Hon.
      rewrite (ploop_step _ _ _ _ _ _ _ Hne (fresh_hd _ _ _ Hfr Hne) E1). cbn [fold_left]. rewrite <- E2. split; assumption.
Qed.

Lemma no_nl_args l t : writes_args l t -> no_chr NL t.
Proof.
  assert (Hq : forall v, quotable v -> no_chr NL (escape v)).
  { induction v as [|c v IH]; [intros _ []|]. intros (H1 & _ & H2). cbn. destruct (N.eqb_spec c QUOTE).
    - intros [K|[K|K]]; [discriminate|discriminate|exact (IH H2 K)].
    - intros [K|K]; [congruence|exact (IH H2 K)]. }
  assert (Hv : forall v w, writes v w -> no_chr NL w).
  { intros v w [v' (H & _)|v' H].
    - intros K. apply H in K as [_ K]. congruence.
    - intros K. apply in_app_or in K as [[K|[]]|K]; [discriminate|]. apply in_app_or in K as [K|[K|[]]]; [exact (Hq _ H K)|discriminate]. }
  assert (Ha : forall a w, writes_arg a w -> no_chr NL w).
  { intros a w [v w' H|k v w' [_ H1] H]; [exact (Hv _ _ H)|]. intros K. apply in_app_or in K as [K|K].
    - apply H1 in K. intuition congruence.
    - apply in_app_or in K as [[K|[]]|K]; [discriminate|exact (Hv _ _ H K)]. }
  induction 1 as [a w H|a w n l t H _ IH]; [exact (Ha _ _ H)|].
  intros K. apply in_app_or in K as [K|K]; [exact (Ha _ _ H K)|]. apply in_app_or in K as [[K|[]]|K]; [discriminate|].
  apply in_app_or in K as [K|K]; [apply repeat_spec in K; discriminate|exact (IH K)].
Qed.

Lemma run_args l t o : writes_args l t -> exists toks, lex_args (buffer t o) = Ok toks /\
  (exists t0 r, toks = t0 :: r) /\
  let ctx := option_map t_ctx (hd_error toks) in
  (~ misplaced l -> exists x, prun (Ok toks) ap_init (ap_fns ctx) = Ok x /\ vals x = fold_left put l (false, [], [])) /\
  (misplaced l -> prun (Ok toks) ap_init (ap_fns ctx) = Exc (misplaced_error ctx)).
Proof.
  intros Hw. destruct (lexed_text args_next args_lexer_fns lex_args_ok t (o_line o) (o_column o) (o_source o)) as (toks & H1 & [H2 H3]).
  rewrite (line_of_text _ t (no_nl_args l t Hw)) in H2. destruct (writes_args_hd l t Hw) as (c & r & Et & Hc).
  assert (all_sp t = false) as Esp by (rewrite Et; apply hd_not_sp, Hc). rewrite Esp in H2.
  exists toks. split; [exact H1|]. split.
  { destruct (line_toks args_next t) as [|[ty0 w0] ts0]; cbn [app] in H2; apply map_tv_cons in H2 as (c0 & r0 & -> & _); eauto. }
  intros ctx.
  destruct (args_loop ctx l t Hw toks start_token (S (S (2 * length toks))) ap_init H2 H3 (fresh_start _)) as [A B]; [lia|].
  cbn [ap_on ap_init] in A, B. unfold prun, pparse. cbn [rbind fst]. split; intros Hm.
  - destruct (bad false l) eqn:Eb; [apply bad_misplaced in Eb; contradiction|]. destruct (A eq_refl) as (s & x & -> & E2).
    exists x. split; [reflexivity|exact E2].
  - apply bad_misplaced in Hm. destruct (B Hm) as (s & ->). reflexivity.
Qed.

Lemma fold_put l : forall on u n, exists on', fold_left put l (on, u, n) = (on', u ++ unnamed_of l, snd (fold_left put l (on, u, n))).
Proof.
  induction l as [|[v|k v] l IH]; intros on u n; cbn [fold_left put].
  - exists on. unfold unnamed_of. cbn. rewrite app_nil_r. reflexivity.
  - destruct (IH on (u ++ [v]) n) as (on' & E). exists on'. rewrite E at 1. rewrite <- app_assoc. reflexivity.
  - destruct (IH true u (dset k (strip v) n)) as (on' & E). exists on'. rewrite E at 1. reflexivity.
Qed.
Lemma fold_put_named l : forall on u n k,
  dget k (snd (fold_left put l (on, u, n))) = match named_of l k with Some w => Some w | None => dget k n end.
Proof.
  induction l as [|[v|k' v] l IH]; intros on u n k; cbn [fold_left put named_of]; [reflexivity|apply IH|].
  rewrite IH, dget_dset, str_eqb_sym. destruct (named_of l k); [reflexivity|]. destruct (str_eqb k' k); reflexivity.
Qed.
Lemma dget_map_values (k : str) (d : dict token) : dget k (map (fun kv => (fst kv, t_value (snd kv))) d) = option_map t_value (dget k d).
Proof. induction d as [|[a w] d IH]; cbn; [reflexivity|]. destruct (str_eqb k a); [reflexivity|exact IH]. Qed.

(* ------------------------------------------------ prefixes *)
Lemma startswith_mark c v : startswith [c] v = has_mark c v.
Proof. destruct v as [|a v]; [reflexivity|]. cbn. rewrite andb_true_r. apply N.eqb_sym. Qed.
Lemma take_prefix_eq c t : take_prefix [c] t =
  if has_mark c (t_value t) then (true, vnode (skipn 1 (t_value t)) (t_ctx t)) else (false, t).
Proof.
  unfold take_prefix, removeprefix. rewrite startswith_mark. destruct (has_mark c (t_value t)); reflexivity.
Qed.
(* the value a mark stands for *)
Definition unmark (v : str) : str := if plain_value v then v else skipn 1 v.
Lemma mark_eq t : single_mark (t_value t) ->
  mk_tag (mark t) = has_mark HASH (t_value t) /\ mk_subtype (mark t) = has_mark STAR (t_value t) /\
  mk_alias (mark t) = has_mark AT (t_value t) /\ t_value (mk_node (mark t)) = unmark (t_value t).
Proof.
  intros H. unfold mark. change (lit "#") with [HASH]. change (lit "*") with [STAR]. change (lit "@") with [AT].
  unfold unmark, plain_value. rewrite take_prefix_eq. destruct t as [ty v c]. cbn [t_value t_ctx] in *.
  assert (Hp : forall a r, v = a :: r -> In a [HASH; STAR; AT] -> has_mark HASH r = false /\ has_mark STAR r = false /\ has_mark AT r = false).
  { intros a r -> K. specialize (H K). unfold plain_value in H. rewrite negb_true_iff, !orb_false_iff in H. tauto. }
  destruct v as [|a r]; [repeat split; reflexivity|]. specialize (Hp a r eq_refl). cbn [has_mark].
  destruct (N.eqb_spec a HASH) as [->|N1].
  - destruct Hp as (Q1 & Q2 & Q3); [cbn; tauto|]. rewrite take_prefix_eq. cbn [vnode t_value skipn]. rewrite Q2, take_prefix_eq. cbn [vnode t_value]. rewrite Q3. repeat split; reflexivity.
  - rewrite take_prefix_eq. cbn [t_value has_mark]. destruct (N.eqb_spec a STAR) as [->|N2].
    + destruct Hp as (Q1 & Q2 & Q3); [cbn; tauto|]. rewrite take_prefix_eq. cbn [vnode t_value skipn]. rewrite Q3. repeat split; reflexivity.
    + rewrite take_prefix_eq. cbn [t_value has_mark]. destruct (N.eqb_spec a AT) as [->|N3]; repeat split; reflexivity.
Qed.

Lemma select_values (f : marked -> bool) (g : str -> bool) (l : list token) :
  Forall (fun t => f (mark t) = g (t_value t) /\ t_value (mk_node (mark t)) = unmark (t_value t)) l ->
  map t_value (select f (map mark l)) = map unmark (filter g (map t_value l)).
Proof.
  unfold select. induction 1 as [|t l [H1 H2] _ IH]; [reflexivity|]. cbn [map filter]. rewrite H1. destruct (g (t_value t)); [|exact IH].
  cbn [map]. rewrite H2, IH. reflexivity.
Qed.
Lemma marked_unmark c us : In c [HASH; STAR; AT] -> map unmark (filter (has_mark c) us) = marked_with c us.
Proof.
  intros Hc. unfold marked_with. apply map_ext_in. intros v Hv. apply filter_In in Hv as [_ Hv].
  unfold unmark, plain_value. cbn in Hc. assert (has_mark HASH v || has_mark STAR v || has_mark AT v = true) as ->; [|reflexivity].
  rewrite !orb_true_iff. intuition (subst; auto).
Qed.
Lemma plain_unmark us : map unmark (filter plain_value us) = plain_of us.
Proof.
  unfold plain_of. rewrite <- (map_id (filter plain_value us)) at 2. apply map_ext_in. intros v Hv. apply filter_In in Hv as [_ Hv].
  unfold unmark. rewrite Hv. reflexivity.
Qed.
Lemma internal_eq v : startswith internal_prefix v = is_internal v.
Proof.
  unfold is_internal. change internal_prefix with INTERNAL. destruct (str_eqb (firstn 4 v) INTERNAL) eqn:E.
  - apply str_eqb_eq in E. apply startswith_spec. exists (skipn 4 v). rewrite <- E. symmetry; apply firstn_skipn.
  - destruct (startswith INTERNAL v) eqn:S; [|reflexivity]. apply startswith_spec in S as (r & ->). assert (firstn 4 (INTERNAL ++ r) = INTERNAL) as K by reflexivity. rewrite K, str_eqb_refl in E. discriminate.
Qed.

Definition subtype_error ctx : exn := parser_error "Multiple nodes with prefix '*' detected." ctx.
Definition alias_error ctx : exn := parser_error "Multiple nodes with prefix '@' detected." ctx.

(* isolate, in terms of the values *)
Lemma isolate_values e ctx x us : map t_value (ap_unnamed x) = us -> Forall single_mark us ->
  let subs := marked_with STAR us in let als := marked_with AT us in
  (1 < length subs -> isolate e ctx x = Exc (subtype_error ctx)) /\
  (length subs <= 1 -> 1 < length als -> isolate e ctx x = Exc (alias_error ctx)) /\
  (length subs <= 1 -> length als <= 1 -> exists unnamed tags subtype alias,
     map t_value unnamed = plain_of us /\ map t_value tags = marked_with HASH us /\
     option_map t_value subtype = hd_error subs /\ option_map t_value alias = hd_error als /\
     isolate e ctx x = match alias with
       | None => Ok (mkParsed unnamed (ap_named x) tags subtype None)
       | Some al => let? (u, n, s) := expand_alias e ctx al unnamed (ap_named x) subtype in
                    Ok (mkParsed u n tags s (Some al))
       end).
Proof.
  intros Hus Hs subs als. rewrite <- Hus in Hs. rewrite Forall_map in Hs.
  assert (Hsel : forall f g, (forall t, single_mark (t_value t) -> f (mark t) = g (t_value t)) ->
    map t_value (select f (map mark (ap_unnamed x))) = map unmark (filter g us)).
  { intros f g H. rewrite <- Hus. apply select_values. eapply Forall_impl; [|exact Hs]. intros t Ht. cbn in Ht. split; [apply H, Ht|]. apply mark_eq, Ht. }
  pose proof (Hsel mk_tag (has_mark HASH) (fun t H => proj1 (mark_eq t H))) as E1.
  pose proof (Hsel mk_subtype (has_mark STAR) (fun t H => proj1 (proj2 (mark_eq t H)))) as E2.
  pose proof (Hsel mk_alias (has_mark AT) (fun t H => proj1 (proj2 (proj2 (mark_eq t H))))) as E3.
  assert (E4 : map t_value (select (fun m => negb (mk_tag m || mk_subtype m || mk_alias m)) (map mark (ap_unnamed x))) = map unmark (filter plain_value us)).
  { apply Hsel. intros t H. destruct (mark_eq t H) as (-> & -> & -> & _). reflexivity. }
  rewrite marked_unmark in E1, E2, E3 by (cbn; tauto). rewrite plain_unmark in E4. fold subs in E2. fold als in E3.
  unfold isolate. set (S := select mk_subtype _) in *. set (A := select mk_alias _) in *. set (T := select mk_tag _) in *. set (U := select (fun m => negb (mk_tag m || mk_subtype m || mk_alias m)) _) in *.
  assert (L2 : length S = length subs) by (rewrite <- E2, map_length; reflexivity).
  assert (L3 : length A = length als) by (rewrite <- E3, map_length; reflexivity).
  clearbody S A T U. rewrite L2, L3. split; [|split].
  - intros H. apply Nat.ltb_lt in H. rewrite H. reflexivity.
  - intros H H'. apply Nat.ltb_ge in H. apply Nat.ltb_lt in H'. rewrite H, H'. reflexivity.
  - intros H H'. apply Nat.ltb_ge in H, H'. rewrite H, H'. exists U, T, (hd_error S), (hd_error A).
    rewrite E4, E1, <- E2, <- E3. split; [reflexivity|]. split; [reflexivity|]. split; [destruct S; reflexivity|]. split; [destruct A; reflexivity|].
    destruct A as [|al A]; cbn [hd_error]; [reflexivity|]. reflexivity.
Qed.

(* ------------------------------------------------ the theorems *)
Theorem C21_unnamed_after_named e l text o : writes_args l text -> misplaced l ->
  exists ctx, parse_arguments e text o =
    Exc (parser_error "Unnamed arguments after named arguments are forbidden." (Some ctx)).
Proof.
  intros Hw Hm. destruct (run_args l text o Hw) as (toks & H1 & (t0 & r0 & Ht0) & _ & H3). unfold parse_arguments. rewrite H1. cbn [rbind].
  rewrite (H3 Hm). subst. cbn. eexists. reflexivity.
Qed.

(* The arguments that were written, for any marks but an alias. *)
Theorem C22_tags_and_subtype e l text o : writes_args l text -> ~ misplaced l ->
  let us := unnamed_of l in
  Forall single_mark us -> marked_with AT us = [] ->
  if length (marked_with STAR us) <=? 1 then
    exists p, parse_arguments e text o = Ok p /\
      let a := arguments_of p in
      na_unnamed a = plain_of us /\
      (forall k, dget k (na_named a) = named_of l k) /\
      na_tags a = tags_of us /\ na_internal a = internal_tags_of us /\
      na_subtype a = hd_error (marked_with STAR us)
  else exists ctx, parse_arguments e text o = Exc (parser_error "Multiple nodes with prefix '*' detected." (Some ctx)).
Proof.
  intros Hw Hm us Hs Ha. destruct (run_args l text o Hw) as (toks & H1 & (t0 & r0 & Ht0) & H2 & _). unfold parse_arguments. rewrite H1. cbn [rbind].
  destruct (H2 Hm) as (x & -> & Hx). cbn [rbind]. destruct (fold_put l false [] []) as (on & E). pose proof (eq_trans Hx E) as Hx2. clear Hx E. rename Hx2 into Hx. cbn [app] in Hx. fold us in Hx.
  unfold vals in Hx. injection Hx as _ Hu Hn.
  destruct (isolate_values e (option_map t_ctx (hd_error toks)) x us Hu Hs) as (A & _ & B). rewrite Ha in B. cbn [length] in B.
  destruct (Nat.leb_spec (length (marked_with STAR us)) 1) as [L|L].
  - destruct (B L ltac:(lia)) as (unnamed & tags & subtype & alias & U1 & U2 & U3 & U4 & ->). cbn in U4. destruct alias; [discriminate|].
    eexists. split; [reflexivity|]. unfold arguments_of. cbn [pa_unnamed pa_named pa_tags pa_subtype na_unnamed na_named na_tags na_internal na_subtype].
    split; [exact U1|]. split; [intros k; rewrite Hn, fold_put_named; destruct (named_of l k); reflexivity|].
    rewrite U2. split; [|split].
    + unfold tags_of. apply filter_ext. intros v. rewrite internal_eq. reflexivity.
    + unfold internal_tags_of. rewrite (filter_ext _ _ internal_eq). apply map_ext_in. intros v Hv. apply filter_In in Hv as [_ Hv].
      unfold removeprefix. rewrite internal_eq, Hv. reflexivity.
    + exact U3.
  - rewrite (A L), Ht0. eexists. reflexivity.
Qed.

Theorem C22_two_aliases e l text o : writes_args l text -> ~ misplaced l ->
  Forall single_mark (unnamed_of l) -> length (marked_with STAR (unnamed_of l)) <= 1 -> 1 < length (marked_with AT (unnamed_of l)) ->
  exists ctx, parse_arguments e text o = Exc (parser_error "Multiple nodes with prefix '@' detected." (Some ctx)).
Proof.
  intros Hw Hm Hs L1 L2. destruct (run_args l text o Hw) as (toks & H1 & (t0 & r0 & Ht0) & H2 & _). unfold parse_arguments. rewrite H1. cbn [rbind].
  destruct (H2 Hm) as (x & -> & Hx). cbn [rbind]. destruct (fold_put l false [] []) as (on & E). pose proof (eq_trans Hx E) as Hx2. clear Hx E. rename Hx2 into Hx. cbn [app] in Hx.
  unfold vals in Hx. injection Hx as _ Hu Hn.
  destruct (isolate_values e (option_map t_ctx (hd_error toks)) x _ Hu Hs) as (_ & A & _). rewrite (A L1 L2), Ht0. eexists. reflexivity.
Qed.

(* C20: values without marks come back as they were written. *)
Theorem C20_arguments_round_trip e us ns text o :
  writes_args (map Pos us ++ map (fun kv => Key (fst kv) (snd kv)) ns) text ->
  Forall (fun v => plain_value v = true) us ->
  exists p, parse_arguments e text o = Ok p /\
    na_unnamed (arguments_of p) = us /\
    (forall k, dget k (na_named (arguments_of p)) = named_of (map (fun kv => Key (fst kv) (snd kv)) ns) k) /\
    na_tags (arguments_of p) = [] /\ na_internal (arguments_of p) = [] /\ na_subtype (arguments_of p) = None.
Proof.
  intros Hw Hp. set (l := map Pos us ++ _) in *.
  assert (Hu : unnamed_of l = us).
  { unfold l, unnamed_of. rewrite map_app, concat_app, !map_map. cbn.
    assert (E1 : concat (map (fun v : str => [v]) us) = us) by (clear; induction us as [|v us IH]; cbn; [reflexivity|rewrite IH; reflexivity]).
    assert (E2 : concat (map (fun _ : str * str => @nil str) ns) = []) by (clear; induction ns; cbn; auto).
    rewrite E1, E2. apply app_nil_r. }
  assert (Hn : forall k, named_of l k = named_of (map (fun kv => Key (fst kv) (snd kv)) ns) k).
  { intros k. unfold l. clear. induction us as [|v us IH]; [reflexivity|exact IH]. }
  assert (Hm : ~ misplaced l).
  { rewrite <- bad_misplaced. unfold l. clear. induction us as [|v us IH]; [|exact IH]. cbn [map app].
    destruct ns as [|kv ns]; [discriminate|]. cbn. rewrite bad_true. intros (a & w & c & H).
    assert (K : In (Pos w) (map (fun kv => Key (fst kv) (snd kv)) ns)) by (rewrite H; apply in_or_app; right; left; reflexivity).
    apply in_map_iff in K as (? & K & _). discriminate. }
  assert (Hmk : forall c, In c [HASH; STAR; AT] -> marked_with c us = []).
  { intros c Hc. unfold marked_with. assert (filter (has_mark c) us = []) as ->; [|reflexivity].
    clear - Hp Hc. induction Hp as [|v us H _ IH]; [reflexivity|]. cbn [filter]. unfold plain_value in H. rewrite negb_true_iff, !orb_false_iff in H.
    assert (has_mark c v = false) as ->; [cbn in Hc; intuition (subst; auto)|exact IH]. }
  assert (Hs : Forall single_mark us).
  { eapply Forall_impl; [|exact Hp]. intros v Hv. cbn beta in Hv. destruct v as [|a v]; [exact I|]. intros K. exfalso.
    unfold plain_value in Hv. cbn [has_mark] in Hv. rewrite negb_true_iff, !orb_false_iff, !N.eqb_neq in Hv. cbn in K. intuition congruence. }
  pose proof (C22_tags_and_subtype e l text o Hw Hm) as T. cbn zeta in T. rewrite Hu in T.
  specialize (T Hs (Hmk AT ltac:(cbn; tauto))). unfold tags_of, internal_tags_of in T. rewrite (Hmk STAR), (Hmk HASH) in T by (cbn; tauto). cbn [length Nat.leb filter map hd_error] in T.
  destruct T as (p & E & T1 & T2 & T3 & T4 & T5). exists p. split; [exact E|]. split.
  - rewrite T1. unfold plain_of. clear - Hp. induction Hp as [|v us H _ IH]; [reflexivity|]. cbn [filter]. rewrite H, IH. reflexivity.
  - split; [intros k; rewrite T2; apply Hn|auto].
Qed.

(* C23.  [alias_definition e name def]: the alias is defined in the environment. *)
Definition alias_definition (e : env) (name : str) (def : dict env_val) : Prop :=
  exists a d, env_get e (lit "mau.parser.aliases") = FEnv a /\ env_asdict a = Ok d /\ dget name d = Some (EDict def).
Definition alias_unknown (e : env) (name : str) : Prop :=
  env_get e (lit "mau.parser.aliases") = FDefault \/
  exists a d, env_get e (lit "mau.parser.aliases") = FEnv a /\ env_asdict a = Ok d /\ dget name d = None.
(* the default arguments of a definition *)
Definition alias_args (def : dict env_val) : option (dict env_val) :=
  match dget (lit "args") def with None => Some [] | Some (EDict a) => Some a | Some _ => None end.

Lemma set_names_keeps {A} (u : list A) n names k v : dget k n = Some v -> dget k (snd (set_names u n names)) = Some v.
Proof.
  intros H. unfold set_names. cbn [snd]. set (fr := filter _ names). rewrite dget_dupd_rev.
  assert (K : dget k (rev (dupd [] (combine fr u))) = None); [|rewrite K; exact H].
  apply dget_none. unfold keys. rewrite map_rev, <- in_rev. intros Hin.
  change (In k (keys (dupd [] (combine fr u)))) in Hin.
  assert (Hk : forall d (l : list (str * A)), In k (keys (dupd d l)) -> In k (keys d) \/ In k (map fst l)).
  { intros d l. revert d. induction l as [|[a w] l IH]; intros d Hd; [left; exact Hd|]. cbn in Hd. apply IH in Hd as [Hd|Hd].
    - rewrite keys_dset in Hd. destruct (mem_str a (keys d)); [left; exact Hd|]. apply in_app_or in Hd as [Hd|[<-|[]]]; [left; exact Hd|right; left; reflexivity].
    - right; right; exact Hd. }
  apply Hk in Hin as [[]|Hin]. apply in_map_iff in Hin as ([k' w] & E & Hin). cbn in E. subst k'. apply in_combine_l in Hin.
  unfold fr in Hin. apply filter_In in Hin as [_ Hin]. unfold dmem in Hin. rewrite H in Hin. discriminate.
Qed.

Lemma fold_missing (args : dict env_val) al : forall n k,
  (dmem k n = true -> Forall (fun kv : str * env_val => str_eqb k (fst kv) = false) args ->
   dget k (fold_left (fun n (kv : str * env_val) => dset (fst kv) (vnode (py_str (snd kv)) al) n) args n) = dget k n).
Proof.
  induction args as [|[a w] args IH]; intros n k H F; [reflexivity|]. inversion F as [|? ? F1 F2]; subst. cbn [fold_left fst snd] in *.
  rewrite IH; [rewrite dget_dset, F1; reflexivity| |exact F2]. unfold dmem. rewrite dget_dset, F1. exact H.
Qed.
Lemma fold_missing_get (args : dict env_val) al : NoDup (keys args) -> forall n k w, dget k args = Some w ->
  option_map t_value (dget k (fold_left (fun n (kv : str * env_val) => dset (fst kv) (vnode (py_str (snd kv)) al) n) args n)) = Some (py_str w).
Proof.
  induction args as [|[a w'] args IH]; intros Hn n k w H; [discriminate|]. cbn [fold_left fst snd]. inversion Hn as [|? ? N1 N2]; subst. cbn [dget] in H.
  destruct (str_eqb_spec k a) as [->|Hne]; [|apply IH; assumption]. injection H as ->.
  rewrite fold_missing.
  - rewrite dget_dset, str_eqb_refl. reflexivity.
  - unfold dmem. rewrite dget_dset, str_eqb_refl. reflexivity.
  - apply Forall_forall. intros [q x] Hq. cbn. apply str_eqb_neq. intros ->. apply N1. apply (in_map fst) in Hq. exact Hq.
Qed.
Lemma dget_filter {A} (f : str -> bool) k (d : dict A) : dget k (filter (fun kv : str * A => f (fst kv)) d) = if f k then dget k d else None.
Proof.
  induction d as [|[a w] d IH]; cbn; [destruct (f k); reflexivity|]. destruct (f a) eqn:E; cbn.
  - destruct (str_eqb_spec k a) as [->|]; [rewrite E; reflexivity|exact IH].
  - rewrite IH. destruct (str_eqb_spec k a) as [->|]; [rewrite E; reflexivity|reflexivity].
Qed.
Lemma keys_filter {A} (f : str -> bool) (d : dict A) : NoDup (keys d) -> NoDup (keys (filter (fun kv : str * A => f (fst kv)) d)).
Proof.
  induction d as [|[a w] d IH]; intros H; [constructor|]. inversion H as [|? ? N1 N2]; subst. cbn [filter fst].
  destruct (f a); [|apply IH, N2]. cbn. constructor; [|apply IH, N2]. intros K. apply N1.
  apply in_map_iff in K as ([q x] & <- & K). apply filter_In in K as [K _]. apply (in_map fst) in K. exact K.
Qed.

Theorem C23_alias_never_overrides e l text o name def args p :
  writes_args l text -> ~ misplaced l ->
  let us := unnamed_of l in
  Forall single_mark us -> marked_with AT us = [name] ->
  alias_definition e name def -> alias_args def = Some args ->
  parse_arguments e text o = Ok p ->
  let a := arguments_of p in
  (* what the user wrote stays *)
  (forall k v, named_of l k = Some v -> dget k (na_named a) = Some v) /\
  (forall s, hd_error (marked_with STAR us) = Some s -> na_subtype a = Some s) /\
  na_tags a = tags_of us /\ na_internal a = internal_tags_of us /\
  (* the defaults are used for the rest *)
  (NoDup (keys args) -> forall k v, named_of l k = None -> dget k args = Some v -> dget k (na_named a) = Some (py_str v)) /\
  (marked_with STAR us = [] -> forall s, s <> [] -> dget (lit "subtype") def = Some (EStr s) -> na_subtype a = Some s).
Proof.
  intros Hw Hm us Hs Ha (ea & d & D1 & D2 & D3) Hargs.
  destruct (run_args l text o Hw) as (toks & H1 & (t0 & r0 & Ht0) & H2 & _). unfold parse_arguments. rewrite H1. cbn [rbind].
  destruct (H2 Hm) as (x & -> & Hx). cbn [rbind]. destruct (fold_put l false [] []) as (on & E). pose proof (eq_trans Hx E) as Hx2. clear Hx E. rename Hx2 into Hx. cbn [app] in Hx. fold us in Hx.
  unfold vals in Hx. injection Hx as _ Hu Hn.
  destruct (isolate_values e (option_map t_ctx (hd_error toks)) x us Hu Hs) as (A & _ & B). rewrite Ha in B. cbn [length hd_error] in B.
  destruct (Nat.le_gt_cases (length (marked_with STAR us)) 1) as [L|L]; [|rewrite (A L); discriminate].
  destruct (B L ltac:(lia)) as (unnamed & tags & subtype & alias & U1 & U2 & U3 & U4 & ->).
  destruct alias as [al|]; [|discriminate]. cbn in U4. injection U4 as U4.
  unfold expand_alias. rewrite D1, D2. cbn [rbind]. rewrite U4, D3. unfold alias_args in Hargs.
  assert (Harg : match dget (lit "args") def with None => Ok [] | Some (EDict a) => Ok a | Some _ => Exc (ExPy "AttributeError") end = Ok args).
  { destruct (dget (lit "args") def) as [[| | |]|]; try discriminate; injection Hargs as <-; reflexivity. }
  rewrite Harg. cbn [rbind]. set (missing := filter _ args). set (named' := fold_left _ missing _).
  destruct (names_of _) as [names|ex]; [|discriminate]. cbn [rbind].
  pose proof (set_names_keeps unnamed named' names) as Hkeep.
  destruct (set_names unnamed named' names) as [u'' n''] eqn:Esn. cbn [snd] in Hkeep. cbn [rbind]. intros K. injection K as <-.
  unfold arguments_of. cbn [pa_unnamed pa_named pa_tags pa_subtype na_unnamed na_named na_tags na_internal na_subtype].
  assert (Hdn : forall k, option_map t_value (dget k (ap_named x)) = named_of l k).
  { intros k. rewrite <- dget_map_values, Hn, fold_put_named. destruct (named_of l k); reflexivity. }
  split; [|split; [|split; [|split; [|split]]]].
  - intros k v Hv. rewrite dget_map_values. specialize (Hdn k). rewrite Hv in Hdn. destruct (dget k (ap_named x)) as [t|] eqn:Et; [|discriminate].
    cbn in Hdn. injection Hdn as Hdn. rewrite (Hkeep k t).
    { cbn. rewrite Hdn. reflexivity. }
    unfold named'. rewrite fold_missing; [exact Et|unfold dmem; rewrite Et; reflexivity|].
    apply Forall_forall. intros [q w] Hq. unfold missing in Hq. apply filter_In in Hq as [_ Hq]. cbn in *. apply str_eqb_neq. intros <-.
    unfold dmem in Hq. rewrite Et in Hq. discriminate.
  - intros s Hsub. rewrite Hsub in U3. destruct subtype as [st|]; [|discriminate]. exact U3.
  - unfold tags_of. rewrite U2. apply filter_ext. intros v. rewrite internal_eq. reflexivity.
  - unfold internal_tags_of. rewrite U2, (filter_ext _ _ internal_eq). apply map_ext_in. intros v Hv. apply filter_In in Hv as [_ Hv].
    unfold removeprefix. rewrite internal_eq, Hv. reflexivity.
  - intros Hnd k v Hk Hv. rewrite dget_map_values. specialize (Hdn k). rewrite Hk in Hdn. destruct (dget k (ap_named x)) eqn:Ek; [discriminate|].
    assert (Hm1 : dget k missing = Some v).
    { unfold missing. rewrite (dget_filter (fun q => negb (dmem q (ap_named x)))). unfold dmem. rewrite Ek. exact Hv. }
    pose proof (fold_missing_get missing (t_ctx al) (keys_filter (fun q => negb (dmem q (ap_named x))) _ Hnd) (ap_named x) k v Hm1) as F. fold named' in F.
    destruct (dget k named') as [t|] eqn:Et; [|discriminate]. rewrite (Hkeep k t Et). exact F.
  - intros Hno s Hne Hsub. rewrite Hno in U3. destruct subtype; [discriminate|]. rewrite Hsub. cbn [py_str]. destruct s; [congruence|]. reflexivity.
Qed.

Theorem C23_unknown_alias e l text o name : writes_args l text -> ~ misplaced l ->
  Forall single_mark (unnamed_of l) -> length (marked_with STAR (unnamed_of l)) <= 1 -> marked_with AT (unnamed_of l) = [name] ->
  alias_unknown e name ->
  exists ctx, parse_arguments e text o = Exc (parser_error "Alias cannot be found in 'mau.parser.aliases'." (Some ctx)).
Proof.
  intros Hw Hm Hs L Ha Hun. destruct (run_args l text o Hw) as (toks & H1 & (t0 & r0 & Ht0) & H2 & _). unfold parse_arguments. rewrite H1. cbn [rbind].
  destruct (H2 Hm) as (x & -> & Hx). cbn [rbind]. destruct (fold_put l false [] []) as (on & E). pose proof (eq_trans Hx E) as Hx2. clear Hx E. rename Hx2 into Hx. cbn [app] in Hx.
  unfold vals in Hx. injection Hx as _ Hu Hn.
  destruct (isolate_values e (option_map t_ctx (hd_error toks)) x _ Hu Hs) as (_ & _ & B). rewrite Ha in B. cbn [length hd_error] in B.
  destruct (B L ltac:(lia)) as (unnamed & tags & subtype & alias & U1 & U2 & U3 & U4 & ->).
  destruct alias as [al|]; [|discriminate]. cbn in U4. injection U4 as U4. exists (t_ctx t0). rewrite Ht0.
  unfold expand_alias. destruct Hun as [->|(ea & d & -> & -> & D3)]; cbn [rbind]; [reflexivity|].
  rewrite U4, D3. reflexivity.
Qed.

(* ------------------------------------------------ examples *)
Definition origin0 : origin := mkOrigin 0 0 None.
Definition parsed (e : env) (s : string) : res node_args :=
  let? p := parse_arguments e (lit s) origin0 in Ok (arguments_of p).
Definition dq (s : string) : str := [QUOTE] ++ lit s ++ [QUOTE].
Example C20_ex :
  (let? p := parse_arguments env_empty (lit "a b, " ++ [QUOTE] ++ lit "x\" ++ [QUOTE] ++ lit "y, z" ++ [QUOTE] ++ lit ", k=" ++ dq "v=1") origin0 in
   Ok (arguments_of p)) =
  Ok (mkArgs [lit "a b"; lit "x" ++ [QUOTE] ++ lit "y, z"] [(lit "k", lit "v=1")] [] [] None).
Proof. vm_compute. reflexivity. Qed.
Example C20_ex_hyps : writes_args (map Pos [lit "a b"; lit "x" ++ [QUOTE] ++ lit "y, z"] ++ map (fun kv => Key (fst kv) (snd kv)) [(lit "k", lit "v=1")])
  (lit "a b, " ++ [QUOTE] ++ lit "x\" ++ [QUOTE] ++ lit "y, z" ++ [QUOTE] ++ lit ", k=" ++ dq "v=1").
Proof.
  assert (W1 : writes_arg (Pos (lit "a b")) (lit "a b")).
  { constructor. apply w_bare. split; [|repeat split; discriminate]. intros c [<-|[<-|[<-|[]]]]; (split; [|discriminate]); vm_compute; intuition discriminate. }
  assert (W2 : writes_arg (Pos (lit "x" ++ [QUOTE] ++ lit "y, z")) ([QUOTE] ++ escape (lit "x" ++ [QUOTE] ++ lit "y, z") ++ [QUOTE])).
  { constructor. apply w_quoted. vm_compute. intuition discriminate. }
  assert (W3 : writes_arg (Key (lit "k") (lit "v=1")) (lit "k" ++ [EQUALS] ++ [QUOTE] ++ escape (lit "v=1") ++ [QUOTE])).
  { constructor; [|apply w_quoted; vm_compute; intuition discriminate]. split; [discriminate|].
    intros c [<-|[]]. repeat split; try discriminate. vm_compute. intuition discriminate. }
  exact (ws_cons _ _ 1 _ _ W1 (ws_cons _ _ 1 _ _ W2 (ws_one _ _ W3))).
Qed.
Example C21_ex : match parsed env_empty "a, k=1, b" with Exc (ExMau _) => True | _ => False end /\
  parsed env_empty "b, a, k=1, k=2" = Ok (mkArgs [lit "b"; lit "a"] [(lit "k", lit "2")] [] [] None).
Proof. vm_compute. split; reflexivity. Qed.
Example C22_ex : parsed env_empty "a, #t, *sub, #mau:i, b" = Ok (mkArgs [lit "a"; lit "b"] [] [lit "t"] [lit "i"] (Some (lit "sub"))).
Proof. vm_compute. reflexivity. Qed.
(* why single_mark is needed: one value is both a tag and the subtype *)
Example C22_two_marks : parsed env_empty "#*foo" = Ok (mkArgs [] [] [lit "foo"] [] (Some (lit "foo"))).
Proof. vm_compute. reflexivity. Qed.
Definition aliases_env : env := env_from_dict
  [(lit "mau", EDict [(lit "parser", EDict [(lit "aliases", EDict [(lit "src", EDict
    [(lit "args", EDict [(lit "engine", EStr (lit "source")); (lit "lang", EStr (lit "c"))]); (lit "subtype", EStr (lit "code"));
     (lit "names", EList [lit "title"])])])])])] None.
Example C23_ex : parsed aliases_env "@src, T, lang=py" =
  Ok (mkArgs [] [(lit "lang", lit "py"); (lit "engine", lit "source"); (lit "title", lit "T")] [] [] (Some (lit "code"))) /\
  parsed aliases_env "@src, *x" =
  Ok (mkArgs [] [(lit "engine", lit "source"); (lit "lang", lit "c")] [] [] (Some (lit "x"))) /\
  match parsed aliases_env "@none" with Exc (ExMau _) => True | _ => False end.
Proof. vm_compute. repeat split; reflexivity. Qed.
Definition src_def : dict env_val :=
  [(lit "args", EDict [(lit "engine", EStr (lit "source")); (lit "lang", EStr (lit "c"))]); (lit "subtype", EStr (lit "code"));
   (lit "names", EList [lit "title"])].
Definition src_flat : env :=
  [(lit "src.args.engine", EStr (lit "source")); (lit "src.args.lang", EStr (lit "c")); (lit "src.subtype", EStr (lit "code"));
   (lit "src.names", EList [lit "title"])].
Example C23_ex_hyps : alias_definition aliases_env (lit "src") src_def /\
  alias_args src_def = Some [(lit "engine", EStr (lit "source")); (lit "lang", EStr (lit "c"))] /\ alias_unknown aliases_env (lit "none").
Proof.
  assert (E1 : env_get aliases_env (lit "mau.parser.aliases") = FEnv src_flat) by (vm_compute; reflexivity).
  assert (E2 : env_asdict src_flat = Ok [(lit "src", EDict src_def)]) by (vm_compute; reflexivity).
  split; [|split; [vm_compute; reflexivity|]].
  - exists src_flat, [(lit "src", EDict src_def)]. split; [exact E1|]. split; [exact E2|]. vm_compute; reflexivity.
  - right. exists src_flat, [(lit "src", EDict src_def)]. split; [exact E1|]. split; [exact E2|]. vm_compute; reflexivity.
Qed.

Print Assumptions C20_arguments_round_trip.
Print Assumptions C21_unnamed_after_named.
Print Assumptions C22_tags_and_subtype.
Print Assumptions C22_two_aliases.
Print Assumptions C23_alias_never_overrides.
Print Assumptions C23_unknown_alias.
