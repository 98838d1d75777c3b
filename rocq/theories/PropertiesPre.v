(* PropertiesPre.v -- C24, C25, C26: variable replacement *)
From Verif Require Import ParseFacts Preproc SpecPre.

Lemma plain_no_meaning s : no_meaning s -> forallb pre_plain s = true.
Proof.
  intros H. apply forallb_forall. intros c Hc. unfold pre_plain. apply negb_true_iff.
  destruct (mem_chr c pre_specials) eqn:E; [|reflexivity]. apply mem_chr_In in E. destruct (H c Hc) as [K _]. destruct (K E).
Qed.

Lemma join_nil_sep l : join [] l = concat_str l.
Proof.
  induction l as [|a [|b l] IH]; [reflexivity|cbn; rewrite app_nil_r; reflexivity|].
  rewrite (join_cons [] a (b :: l)) by discriminate. rewrite IH. reflexivity.
Qed.

(* ------------------------------------------------ lexing *)
Definition txt (s : str) : list (token_type * str) := match s with [] => [] | _ => [(T_TEXT, s)] end.
Definition L (s : string) : token_type * str := (T_LITERAL, lit s).

Inductive ptoks : piece -> list (token_type * str) -> Prop :=
| pt_ref s : ptoks (Ref s) (L "{" :: txt s ++ [L "}"])
| pt_eo : ptoks (EscapedBrace true) [L "\"; L "{"]
| pt_ec : ptoks (EscapedBrace false) [L "\"; L "}"]
| pt_et : ptoks (EscapedOther true) [L "\"; L "`"]
| pt_eb : ptoks (EscapedOther false) [L "\"; L "\"]
| pt_br s : ptoks (Braced s) (L "{" :: L "{" :: txt s ++ [L "}"; L "}"])
| pt_vb s ts : concat_str (map snd ts) = s ->
    Forall (fun tv => tv <> L "`" /\ tv <> L "\" /\ snd tv <> [] /\ fst tv <> T_EOF) ts ->
    ptoks (Verbatim s) (L "`" :: ts ++ [L "`"]).

Lemma sp_special c s : mem_chr c pre_specials = true -> forall t, all_sp (t ++ c :: s) = false.
Proof.
  intros H t. rewrite all_sp_app. cbn [all_sp]. destruct (N.eqb_spec c SP) as [->|]; [discriminate|]. cbn. apply andb_false_r.
Qed.

Lemma lex_txt t c s : no_meaning t -> mem_chr c pre_specials = true ->
  line_toks pre_next (t ++ c :: s) = txt t ++ line_toks pre_next (c :: s).
Proof.
  intros Ht Hc. destruct t as [|a t]; [reflexivity|]. cbn [txt app].
  change (a :: t ++ c :: s) with ((a :: t) ++ c :: s). apply pre_toks_text.
  - discriminate.
  - apply plain_no_meaning, Ht.
  - right. exists c, s. auto.
  - apply sp_special, Hc.
Qed.

Lemma lex_verb : forall n s rest, length s <= n -> ~ In BS s -> ~ In 96%N s ->
  exists ts, line_toks pre_next (s ++ 96%N :: rest) = ts ++ line_toks pre_next (96%N :: rest) /\
    concat_str (map snd ts) = s /\
    Forall (fun tv => tv <> L "`" /\ tv <> L "\" /\ snd tv <> [] /\ fst tv <> T_EOF) ts.
Proof.
  induction n as [|n IH]; intros s rest Hn Hb Ht.
  - destruct s; [|cbn in Hn; lia]. exists []. repeat split; constructor.
  - destruct s as [|c s]; [exists []; repeat split; constructor|]. cbn [length] in Hn.
    destruct (mem_chr c pre_specials) eqn:E.
    + cbn [app]. rewrite (pre_toks_special c (s ++ 96%N :: rest) E).
      destruct (IH s rest ltac:(lia)) as (ts & H1 & H2 & H3).
      { intros H; apply Hb; right; exact H. } { intros H; apply Ht; right; exact H. }
      exists ((T_LITERAL, [c]) :: ts). rewrite H1. cbn. rewrite H2. repeat split. constructor; [|exact H3].
      repeat split; try discriminate.
      * intros K. injection K as ->. apply Ht; left; reflexivity.
      * intros K. injection K as ->. apply Hb; left; reflexivity.
    + set (w := fst (span pre_plain (c :: s))). set (s' := snd (span pre_plain (c :: s))).
      assert (Hw : c :: s = w ++ s') by (symmetry; apply span_app).
      assert (Hw1 : w = c :: fst (span pre_plain s)).
      { unfold w. apply span_cons. unfold pre_plain. rewrite E. reflexivity. }
      assert (Hlen : length s' <= n).
      { apply (f_equal (@length N)) in Hw. rewrite app_length, Hw1 in Hw. cbn in Hw. lia. }
      rewrite Hw. rewrite <- app_assoc. rewrite pre_toks_text.
      * destruct (IH s' rest Hlen) as (ts & H1 & H2 & H3).
        { intros H. apply Hb. rewrite Hw. apply in_or_app; auto. } { intros H. apply Ht. rewrite Hw. apply in_or_app; auto. }
        exists ((T_TEXT, w) :: ts). rewrite H1. cbn. rewrite H2. repeat split. constructor; [|exact H3].
        repeat split; try discriminate. cbn. rewrite Hw1. discriminate.
      * rewrite Hw1. discriminate.
      * apply span_fst_all.
      * right. destruct s' as [|d s2] eqn:Es; [exists 96%N, rest; auto|]. exists d, (s2 ++ 96%N :: rest). split; [reflexivity|].
        pose proof (span_snd_hd pre_plain (c :: s) d s2 Es) as K. unfold pre_plain in K. apply negb_false_iff in K. exact K.
      * rewrite app_assoc. apply sp_special. reflexivity.
Qed.

Lemma lex_piece p rest : piece_ok p -> exists ts, ptoks p ts /\
  line_toks pre_next (piece_text p ++ rest) = ts ++ line_toks pre_next rest.
Proof.
  destruct p as [s|[]|[]|s|s]; cbn [piece_ok piece_text]; intros Hok.
  - eexists. split; [apply pt_ref|]. change (lit "{") with [123%N]. change (lit "}") with [125%N].
    rewrite <- !app_assoc. cbn [app]. rewrite pre_toks_special by reflexivity.
    rewrite (lex_txt s 125%N rest Hok eq_refl), (pre_toks_special 125%N rest eq_refl). rewrite <- app_assoc. reflexivity.
  - eexists. split; [apply pt_eo|]. change (lit "\{") with [92%N; 123%N]. cbn [app]. rewrite !pre_toks_special by reflexivity. reflexivity.
  - eexists. split; [apply pt_ec|]. change (lit "\}") with [92%N; 125%N]. cbn [app]. rewrite !pre_toks_special by reflexivity. reflexivity.
  - eexists. split; [apply pt_et|]. change (lit "\`") with [92%N; 96%N]. cbn [app]. rewrite !pre_toks_special by reflexivity. reflexivity.
  - eexists. split; [apply pt_eb|]. change (lit "\\") with [92%N; 92%N]. cbn [app]. rewrite !pre_toks_special by reflexivity. reflexivity.
  - eexists. split; [apply pt_br|]. change (lit "{{") with [123%N; 123%N]. change (lit "}}") with [125%N; 125%N].
    rewrite <- !app_assoc. cbn [app]. rewrite !pre_toks_special by reflexivity.
    rewrite (lex_txt s 125%N (125%N :: rest) Hok eq_refl), !pre_toks_special by reflexivity. rewrite <- app_assoc. reflexivity.
  - destruct Hok as (H1 & H2 & _). destruct (lex_verb (length s) s rest (le_n _) H1 H2) as (ts & E & Hc & Hf).
    exists (L "`" :: ts ++ [L "`"]). split; [apply pt_vb; assumption|]. change (lit "`") with [96%N].
    rewrite <- !app_assoc. cbn [app]. rewrite pre_toks_special by reflexivity. rewrite E, pre_toks_special by reflexivity.
    cbn [app]. rewrite <- app_assoc. reflexivity.
Qed.

(* the tokens of a line *)
Inductive ltoks_of : list (str * piece) -> str -> list (token_type * str) -> Prop :=
| lo_nil final : ltoks_of [] final (if all_sp final then [] else [(T_TEXT, final)])
| lo_cons t p r final a b : ptoks p a -> ltoks_of r final b -> ltoks_of ((t, p) :: r) final (txt t ++ a ++ b).

Lemma piece_first p : exists c s, piece_text p = c :: s /\ mem_chr c pre_specials = true.
Proof. destruct p as [s|[]|[]|s|s]; eexists; eexists; (split; [reflexivity|reflexivity]). Qed.

Lemma lex_line ps final : line_ok ps final -> exists ts, ltoks_of ps final ts /\
  line_toks pre_next (line_text ps final) = ts.
Proof.
  intros [H Hf]. induction H as [|[t p] r [Ht Hp] Hr IH].
  - eexists. split; [apply lo_nil|]. unfold line_text. cbn [map concat_str app].
    destruct (all_sp final) eqn:E; [apply pre_toks_end, E|].
    destruct final as [|a f]; [discriminate|]. rewrite <- (app_nil_r (a :: f)) at 1.
    rewrite pre_toks_text; [reflexivity|discriminate|apply plain_no_meaning, Hf|auto|rewrite app_nil_r; exact E].
  - destruct IH as (b & Hb & E). unfold line_text in *. cbn [map concat_str fst snd]. rewrite <- !app_assoc.
    destruct (lex_piece p (concat_str (map (fun tp => fst tp ++ piece_text (snd tp)) r) ++ final) Hp) as (a & Ha & Ea).
    exists (txt t ++ a ++ b). split; [apply lo_cons; assumption|].
    destruct (piece_first p) as (c & s & Ep & Hc).
    rewrite Ep. cbn [app]. rewrite (lex_txt t c _ Ht Hc).
    change (c :: s ++ ?z) with ((c :: s) ++ z). rewrite <- Ep, Ea, E. reflexivity.
Qed.

(* ------------------------------------------------ one turn of the parser *)
Section Turn.
  Variable e : env.
  Definition vars (n : str) : option str := option_map py_str (dget n e).

  Lemma try_text v c r x : r <> [] ->
    ptry (pp_fns e) (mkToken T_TEXT v c :: r, x) = ((r, x ++ [mkToken T_TEXT v c]), Ok true).
  Proof. intros H. destruct r as [|u r]; [congruence|]. reflexivity. Qed.
  Lemma try_eol v c r x : r <> [] ->
    ptry (pp_fns e) (mkToken T_EOL v c :: r, x) = ((r, x ++ [mkToken T_TEXT v c]), Ok true).
  Proof. intros H. destruct r as [|u r]; [congruence|]. reflexivity. Qed.

  Lemma try_escape c d w r x : In w (map L ["{"; "}"; "`"; "\"]%string) -> r <> [] -> exists ctx,
    ptry (pp_fns e) (mkToken T_LITERAL BSL c :: mkToken (fst w) (snd w) d :: r, x) =
    ((r, x ++ [mkToken T_TEXT (if mem_str (snd w) [LB; RB] then snd w else BSL ++ snd w) ctx]), Ok true).
  Proof.
    intros Hw H. destruct r as [|u r]; [congruence|].
    destruct Hw as [<-|[<-|[<-|[<-|[]]]]]; eexists; reflexivity.
  Qed.

  Lemma collect_list_plain stops preserve a u r :
    Forall (fun t => token_in t stops = false /\ token_eqb t escape_tok = false) a -> token_in u stops = true ->
    collect_list stops preserve (a ++ u :: r) = Ok (a, u :: r).
  Proof.
    intros H Hu. induction H as [|t a [H1 H2] H3 IH]; cbn [app collect_list]; [rewrite Hu; reflexivity|].
    rewrite H1, H2, IH. reflexivity.
  Qed.

  Lemma try_verb c d a r x : Forall (fun t => tv t <> L "`" /\ tv t <> L "\" /\ t_value t <> [] /\ t_type t <> T_EOF) a -> r <> [] ->
    exists ctx, ptry (pp_fns e) (mkToken T_LITERAL TICK c :: a ++ mkToken T_LITERAL TICK d :: r, x) =
      ((r, x ++ [mkToken T_TEXT (TICK ++ concat_str (map t_value a) ++ TICK) ctx]), Ok true).
  Proof.
    intros Ha Hr. exists (merge_contexts c d).
    assert (Hc : collect_list ([generate T_LITERAL TICK] ++ [EOF_tok]) true (a ++ mkToken T_LITERAL TICK d :: r) = Ok (a, mkToken T_LITERAL TICK d :: r)).
    { apply collect_list_plain; [|reflexivity]. eapply Forall_impl; [|exact Ha]. clear. intros t (H1 & H2 & H3 & H4).
      unfold token_in. cbn [app existsb]. split.
      - apply orb_false_iff; split; [|apply orb_false_iff; split; [|reflexivity]].
        + destruct (token_eqb t (generate T_LITERAL TICK)) eqn:E; [|reflexivity]. apply token_eqb_spec in E as [E1 E2].
          destruct H1. unfold tv. rewrite E1, E2. reflexivity.
        + destruct (token_eqb t EOF_tok) eqn:E; [|reflexivity]. apply token_eqb_spec in E as [E1 E2]. contradiction.
      - destruct (token_eqb t escape_tok) eqn:E; [|reflexivity]. apply token_eqb_spec in E as [E1 E2].
        destruct H2. unfold tv. rewrite E1, E2. reflexivity. }
    assert (Hj : t_value (join_tokens a []) = concat_str (map t_value a)).
    { destruct a as [|t a]; [reflexivity|]. cbn [join_tokens t_value]. rewrite join_nil_sep. f_equal.
      assert (Hne : Forall (fun v => negb (str_eqb v []) = true) (map t_value (t :: a))).
      { apply Forall_map. eapply Forall_impl; [|exact Ha]. intros u (_ & _ & H & _). apply negb_true_iff, str_eqb_neq, H. }
      revert Hne. generalize (map t_value (t :: a)). clear. induction 1 as [|v l Hv Hl IH]; [reflexivity|]. cbn [filter]. rewrite Hv, IH. reflexivity. }
    destruct (a ++ mkToken T_LITERAL TICK d :: r) as [|u R] eqn:E; [destruct a; discriminate|].
    destruct r as [|u2 r]; [congruence|]. unfold pp_fns, pp_escaped, pp_verbatim, pp_save. pev. rewrite Hc. pev.
    unfold t_value in Hj at 1. rewrite Hj. reflexivity.
  Qed.

  (* tokens of a plain text, maybe none *)
  Lemma txt_collect s a stops d r : map tv a = txt s -> no_meaning s -> stops = [generate T_LITERAL RB] ->
    collect_list (stops ++ [EOF_tok]) false (a ++ mkToken T_LITERAL RB d :: r) = Ok (a, mkToken T_LITERAL RB d :: r) /\
    concat_str (map t_value a) = s /\ Forall (fun t => t_value t <> []) a.
  Proof.
    intros Ha Hs ->. destruct s as [|ch s]; cbn [txt] in Ha.
    - apply map_tv_nil in Ha as ->. repeat split. constructor.
    - apply map_tv_cons in Ha as (c & r' & -> & Ha). apply map_tv_nil in Ha as ->.
      cbn. rewrite app_nil_r. repeat split. constructor; [discriminate|constructor].
  Qed.

  Lemma join_value a : Forall (fun t => t_value t <> []) a -> t_value (join_tokens a []) = concat_str (map t_value a).
  Proof.
    intros Ha. destruct a as [|t a]; [reflexivity|]. cbn [join_tokens t_value]. rewrite join_nil_sep. f_equal.
    assert (Hne : Forall (fun v => negb (str_eqb v []) = true) (map t_value (t :: a))).
    { apply Forall_map. eapply Forall_impl; [|exact Ha]. intros u H. apply negb_true_iff, str_eqb_neq, H. }
    revert Hne. generalize (map t_value (t :: a)). clear. induction 1 as [|v l Hv Hl IH]; [reflexivity|]. cbn [filter]. rewrite Hv, IH. reflexivity.
  Qed.

  Lemma not_brace s : no_meaning s -> startswith LB s = false.
  Proof.
    intros H. destruct s as [|c s]; [reflexivity|]. change LB with [123%N]. cbn [startswith].
    destruct (N.eqb_spec 123 c) as [<-|]; [|reflexivity]. destruct (H 123%N (or_introl eq_refl)) as [K _]. destruct K. cbn. auto.
  Qed.

  Lemma try_ref s c d a r x : map tv a = txt s -> no_meaning s -> r <> [] ->
    match vars s with
    | Some v => exists ctx, ptry (pp_fns e) (mkToken T_LITERAL LB c :: a ++ mkToken T_LITERAL RB d :: r, x) =
        ((r, x ++ [mkToken T_TEXT v ctx]), Ok true)
    | None => exists s' ctx, ptry (pp_fns e) (mkToken T_LITERAL LB c :: a ++ mkToken T_LITERAL RB d :: r, x) =
        (s', Exc (parser_error "Variable has not been defined." (Some ctx)))
    end.
  Proof.
    intros Ha Hs Hr. destruct (txt_collect s a _ d r Ha Hs eq_refl) as (Hc & Hv & Hne).
    pose proof (join_value a Hne) as Hj. rewrite Hv in Hj. unfold t_value in Hj.
    pose proof (not_brace s Hs) as Hb.
    destruct (a ++ mkToken T_LITERAL RB d :: r) as [|u R] eqn:E; [destruct a; discriminate|].
    destruct r as [|u2 r]; [congruence|]. unfold vars.
    destruct (dget s e) as [v|] eqn:Ed; cbn [option_map].
    - eexists. unfold pp_fns, pp_escaped, pp_verbatim, pp_curly, pp_save. pev. rewrite Hc. pev. rewrite Hj, Hb. pev. rewrite Ed. reflexivity.
    - eexists. eexists. unfold pp_fns, pp_escaped, pp_verbatim, pp_curly, pp_save. pev. rewrite Hc. pev. rewrite Hj, Hb. pev. rewrite Ed. reflexivity.
  Qed.

  Lemma try_braced s c c1 d d1 a r x : map tv a = txt s -> no_meaning s -> r <> [] ->
    exists ctx, ptry (pp_fns e) (mkToken T_LITERAL LB c :: mkToken T_LITERAL LB c1 :: a ++ mkToken T_LITERAL RB d :: mkToken T_LITERAL RB d1 :: r, x) =
        ((r, x ++ [mkToken T_TEXT (LB ++ s ++ RB) ctx]), Ok true).
  Proof.
    intros Ha Hs Hr. destruct (txt_collect s a _ d (mkToken T_LITERAL RB d1 :: r) Ha Hs eq_refl) as (Hc & Hv & Hne).
    assert (Hc' : collect_list ([generate T_LITERAL RB] ++ [EOF_tok]) false (mkToken T_LITERAL LB c1 :: a ++ mkToken T_LITERAL RB d :: mkToken T_LITERAL RB d1 :: r) =
      Ok (mkToken T_LITERAL LB c1 :: a, mkToken T_LITERAL RB d :: mkToken T_LITERAL RB d1 :: r)).
    { set (l := a ++ _) in *. change (collect_list ([generate T_LITERAL RB] ++ [EOF_tok]) false (mkToken T_LITERAL LB c1 :: l)) with
        (let? (c, rest) := collect_list ([generate T_LITERAL RB] ++ [EOF_tok]) false l in Ok (mkToken T_LITERAL LB c1 :: c, rest)). rewrite Hc. reflexivity. }
    assert (Hj : t_value (join_tokens (mkToken T_LITERAL LB c1 :: a) []) = LB ++ s).
    { rewrite join_value; [cbn [map concat_str t_value]; rewrite Hv; reflexivity|]. constructor; [discriminate|exact Hne]. }
    unfold t_value in Hj.
    destruct r as [|u2 r]; [congruence|]. eexists.
    unfold pp_fns, pp_escaped, pp_verbatim, pp_curly, pp_save. pev. rewrite Hc'. pev. rewrite Hj.
    rewrite startswith_app. pev. rewrite <- app_assoc. reflexivity.
  Qed.

  Lemma piece_turn p ts a r x : ptoks p ts -> piece_ok p -> map tv a = ts -> r <> [] ->
    match piece_value vars p with
    | Some v => exists ctx, ptry (pp_fns e) (a ++ r, x) = ((r, x ++ [mkToken T_TEXT v ctx]), Ok true)
    | None => exists s' ctx, ptry (pp_fns e) (a ++ r, x) =
        (s', Exc (parser_error "Variable has not been defined." (Some ctx)))
    end /\ exists t a', a = t :: a' /\ t_type t <> T_EOF /\ t_value t <> [].
  Proof.
    intros Hp Hok Ha Hr. destruct Hp as [s| | | | |s|s ts Hs Hts]; cbn [piece_value piece_ok] in *.
    - apply map_tv_cons in Ha as (c & a1 & -> & Ha). apply map_tv_app in Ha as (a2 & a3 & -> & Ha2 & Ha3).
      apply map_tv_cons in Ha3 as (d & a4 & -> & Ha4). apply map_tv_nil in Ha4 as ->.
      split; [|do 2 eexists; repeat split; discriminate]. cbn [app]. rewrite <- app_assoc. cbn [app].
      apply (try_ref s c d a2 r x Ha2 Hok Hr).
    - apply map_tv_cons in Ha as (c & a1 & -> & Ha). apply map_tv_cons in Ha as (d & a2 & -> & Ha). apply map_tv_nil in Ha as ->.
      split; [|do 2 eexists; repeat split; discriminate]. apply (try_escape c d (L "{") r x); [cbn; auto|exact Hr].
    - apply map_tv_cons in Ha as (c & a1 & -> & Ha). apply map_tv_cons in Ha as (d & a2 & -> & Ha). apply map_tv_nil in Ha as ->.
      split; [|do 2 eexists; repeat split; discriminate]. apply (try_escape c d (L "}") r x); [cbn; auto|exact Hr].
    - apply map_tv_cons in Ha as (c & a1 & -> & Ha). apply map_tv_cons in Ha as (d & a2 & -> & Ha). apply map_tv_nil in Ha as ->.
      split; [|do 2 eexists; repeat split; discriminate]. apply (try_escape c d (L "`") r x); [cbn; auto|exact Hr].
    - apply map_tv_cons in Ha as (c & a1 & -> & Ha). apply map_tv_cons in Ha as (d & a2 & -> & Ha). apply map_tv_nil in Ha as ->.
      split; [|do 2 eexists; repeat split; discriminate]. apply (try_escape c d (L "\") r x); [cbn; auto|exact Hr].
    - apply map_tv_cons in Ha as (c & a0 & -> & Ha). apply map_tv_cons in Ha as (c1 & a1 & -> & Ha). apply map_tv_app in Ha as (a2 & a3 & -> & Ha2 & Ha3).
      apply map_tv_cons in Ha3 as (d & a4 & -> & Ha4). apply map_tv_cons in Ha4 as (d1 & a5 & -> & Ha5). apply map_tv_nil in Ha5 as ->.
      split; [|do 2 eexists; repeat split; discriminate]. cbn [app]. rewrite <- app_assoc. cbn [app].
      apply (try_braced s c c1 d d1 a2 r x Ha2 Hok Hr).
    - apply map_tv_cons in Ha as (c & a0 & -> & Ha). apply map_tv_app in Ha as (a2 & a3 & -> & Ha2 & Ha3).
      apply map_tv_cons in Ha3 as (d & a4 & -> & Ha4). apply map_tv_nil in Ha4 as ->.
      split; [|do 2 eexists; repeat split; discriminate]. cbn [app]. rewrite <- app_assoc. cbn [app].
      destruct (try_verb c d a2 r x) as (ctx & Ht); [|exact Hr|].
      { rewrite <- Ha2 in Hts. apply Forall_map in Hts. eapply Forall_impl; [|exact Hts]. intros t H. exact H. }
      exists ctx. etransitivity; [exact Ht|]. rewrite <- Hs, <- Ha2, map_map. reflexivity.
  Qed.
End Turn.

(* ------------------------------------------------ the whole line *)
Section Loop.
  Variable e : env.

  Definition values (x : list token) : str := concat_str (map t_value x).
  Lemma values_snoc x v c : values (x ++ [mkToken T_TEXT v c]) = values x ++ v.
  Proof. unfold values. rewrite map_app, concat_str_app. cbn. rewrite app_nil_r. reflexivity. Qed.

  Lemma eof_loop n fns last (t : token) x : t_type t = T_EOF -> 0 < n ->
    exists s', ploop (X := pp_state) n fns last ([t], x) = (s', Ok tt) /\ snd s' = x.
  Proof. intros H Hn. destruct n; [lia|]. rewrite ploop_eof by exact H. eexists; split; reflexivity. Qed.

  Lemma line_loop ps final ts : ltoks_of ps final ts -> line_ok ps final ->
    forall toks n last x, map tv toks = ts ++ [(T_EOF, [])] -> apart toks -> fresh last toks ->
    2 * length toks <= n ->
    match line_value (vars e) ps (if all_sp final then [] else final) with
    | Some v => exists s', ploop n (pp_fns e) last (toks, x) = (s', Ok tt) /\ values (snd s') = values x ++ v
    | None => exists s' ctx, ploop n (pp_fns e) last (toks, x) =
        (s', Exc (parser_error "Variable has not been defined." (Some ctx)))
    end.
  Proof.
    induction 1 as [final|t p r final a b Hp Hb IH]; intros Hok toks n last x Htv Hap Hfr Hn.
    - cbn [line_value]. destruct (all_sp final) eqn:Es.
      + apply map_tv_cons in Htv as (c & r & -> & Hr). apply map_tv_nil in Hr as ->. cbn in Hn.
        destruct (eof_loop n (pp_fns e) last (mkToken T_EOF [] c) x eq_refl ltac:(lia)) as (s' & E1 & E2).
        exists s'. rewrite app_nil_r, E2. auto.
      + apply map_tv_cons in Htv as (c & r & -> & Hr). apply map_tv_cons in Hr as (d & r2 & -> & Hr2). apply map_tv_nil in Hr2 as ->.
        cbn [length] in Hn. destruct n as [|[|n]]; try lia.
        assert (Hne : t_type (mkToken T_TEXT final c) <> T_EOF) by discriminate.
        rewrite (ploop_step _ _ _ _ _ _ _ Hne (fresh_hd _ _ _ Hfr Hne) (try_text e final c [mkToken T_EOF [] d] x ltac:(discriminate))).
        rewrite ploop_eof by reflexivity. eexists. split; [reflexivity|]. cbn [snd]. apply values_snoc.
    - destruct Hok as [Hok Hf]. inversion Hok as [|? ? [Ht Hpo] Hr]; subst. cbn [fst snd] in *.
      rewrite <- !app_assoc in Htv. apply map_tv_app in Htv as (ta & tr & -> & Hta & Htr).
      apply map_tv_app in Htr as (tp & tb & -> & Htp & Htb).
      assert (Hne : tb <> []) by (intros ->; destruct b; discriminate).
      (* the text before the piece *)
      assert (Htext : exists last' x' n', ploop n (pp_fns e) last (ta ++ tp ++ tb, x) = ploop n' (pp_fns e) last' (tp ++ tb, x') /\
                values x' = values x ++ t /\ fresh last' (tp ++ tb) /\ S (2 * length tb) <= n').
      { rewrite !app_length in Hn. destruct (piece_turn e p a tp tb x Hp Hpo Htp Hne) as [_ (t0 & tp' & -> & _)].
        destruct t as [|ch t]; cbn [txt] in Hta.
        - apply map_tv_nil in Hta as ->. exists last, x, n. rewrite app_nil_r. cbn [app length] in *. repeat split; auto. lia.
        - apply map_tv_cons in Hta as (c & z & -> & Hz). apply map_tv_nil in Hz as ->. cbn [app length] in *.
          destruct n as [|n]; [lia|].
          assert (Hty : t_type (mkToken T_TEXT (ch :: t) c) <> T_EOF) by discriminate.
          rewrite (ploop_step _ _ _ _ _ _ _ Hty (fresh_hd _ _ _ Hfr Hty) (try_text e (ch :: t) c (t0 :: tp' ++ tb) x ltac:(discriminate))).
          exists (mkToken T_TEXT (ch :: t) c), (x ++ [mkToken T_TEXT (ch :: t) c]), n. split; [reflexivity|]. split; [apply values_snoc|].
          split; [|lia]. apply (fresh_next _ [] (t0 :: tp' ++ tb) Hap). discriminate. }
      destruct Htext as (last' & x' & n' & -> & Hx' & Hfr' & Hn').
      assert (Hap' : apart (tp ++ tb)) by (apply apart_app in Hap; exact Hap).
      destruct (piece_turn e p a tp tb x' Hp Hpo Htp Hne) as [Hturn (t0 & tp' & -> & Hty & Hv0)].
      cbn [app] in *. destruct n' as [|n']; [lia|]. cbn [line_value].
      destruct (piece_value (vars e) p) as [pv|].
      + destruct Hturn as (ctx & Hturn). rewrite (ploop_step _ _ _ _ _ _ _ Hty (fresh_hd _ _ _ Hfr' Hty) Hturn).
        assert (Hap2 : apart tb). { apply (apart_app (t0 :: tp')). exact Hap'. }
        specialize (IH (conj Hr Hf) tb n' t0 (x' ++ [mkToken T_TEXT pv ctx]) Htb Hap2 (fresh_next t0 tp' tb Hap' Hv0) ltac:(lia)).
        destruct (line_value (vars e) r _) as [rv|].
        * destruct IH as (s' & E & Hs'). exists s'. split; [exact E|]. rewrite Hs', values_snoc, Hx', <- !app_assoc. reflexivity.
        * exact IH.
      + destruct Hturn as (s' & ctx & Hturn). rewrite (ploop_exc _ _ _ _ _ _ _ _ Hty (fresh_hd _ _ _ Hfr' Hty) Hturn). eauto.
  Qed.
End Loop.

Lemma from_list_value x : t_value (from_token_list x []) = values x.
Proof. destruct x as [|t x]; [reflexivity|]. cbn [from_token_list t_value]. apply join_nil_sep. Qed.

Lemma line_value_final vars ps f g v : line_value vars ps f = Some v -> exists w, v = w ++ f /\ line_value vars ps g = Some (w ++ g).
Proof.
  revert v; induction ps as [|[t p] r IH]; intros v; cbn [line_value].
  - intros H. injection H as <-. exists []. auto.
  - destruct (piece_value vars p) as [a|]; [|discriminate]. destruct (line_value vars r f) as [b|]; [|discriminate].
    destruct (IH b eq_refl) as (w & -> & ->). intros H. injection H as <-. exists (t ++ a ++ w). rewrite <- !app_assoc. auto.
Qed.

Lemma no_nl_line ps final : line_ok ps final -> no_chr NL (line_text ps final).
Proof.
  intros [H Hf]. unfold line_text. unfold no_chr. rewrite in_app_iff. intros [K|K]; [|destruct (Hf NL K); congruence].
  induction H as [|[t p] r [Ht Hp] Hr IH]; [exact K|]. cbn [map concat_str fst snd] in K. rewrite !in_app_iff in K.
  destruct K as [[K|K]|K]; [destruct (Ht NL K); congruence| |exact (IH K)].
  destruct p as [s|[]|[]|s|s]; cbn [piece_text piece_ok fst snd] in *; rewrite ?in_app_iff in K; vm_compute in K;
    repeat match goal with H : _ \/ _ |- _ => destruct H end; try discriminate; try contradiction.
  - destruct (Hp NL H); congruence.
  - destruct (Hp NL H); congruence.
  - destruct Hp as (_ & _ & Hp). contradiction.
Qed.

(* The outcome of preprocessing any line made of plain text, references, escapes,
   double braces and verbatim. *)
Theorem C25_variable_replacement e ps final o : line_ok ps final ->
  match line_value (vars e) ps (final_value ps final) with
  | Some v => exists t, preprocess e (line_text ps final) o = Ok t /\ t_value t = v
  | None => exists ctx, preprocess e (line_text ps final) o =
      Exc (parser_error "Variable has not been defined." (Some ctx))
  end.
Proof.
  intros Hok. unfold preprocess, buffer.
  destruct (lexed_text pre_next pre_lexer_fns lex_pre_ok (line_text ps final) (o_line o) (o_column o) (o_source o)) as (toks & Hl & Htv & Hap).
  unfold lex_pre. rewrite Hl. rewrite (line_of_text _ _ (no_nl_line _ _ Hok)) in Htv.
  destruct (lex_line ps final Hok) as (ts & Hts & Elex).
  unfold prun. cbn [rbind]. unfold pparse. cbn [fst].
  destruct (all_sp (line_text ps final)) eqn:Esp.
  - (* a blank line *)
    assert (ps = []) as ->.
    { destruct ps as [|[t p] r]; [reflexivity|]. exfalso. unfold line_text in Esp. cbn [map concat_str fst snd] in Esp.
      destruct (piece_first p) as (c & s & Ep & Hc). rewrite Ep in Esp. rewrite <- !app_assoc in Esp. cbn [app] in Esp.
      rewrite (sp_special c _ Hc t) in Esp. discriminate. }
    cbn [line_text map concat_str app] in *. unfold line_text in *. cbn [map concat_str app] in *.
    cbn [line_value final_value]. destruct final as [|ch final].
    + apply map_tv_cons in Htv as (c & r & -> & Hr). apply map_tv_nil in Hr as ->. rewrite ploop_eof by reflexivity.
      cbn [rbind snd]. eexists. split; reflexivity.
    + apply map_tv_cons in Htv as (c & r & -> & Hr). apply map_tv_cons in Hr as (d & r2 & -> & Hr2). apply map_tv_nil in Hr2 as ->.
      assert (Hne : t_type (mkToken T_EOL (ch :: final) c) <> T_EOF) by discriminate.
      cbn [length Nat.mul Nat.add].
      rewrite (ploop_step _ _ _ _ _ _ _ Hne (start_token_same _ Hne) (try_eol e _ c [mkToken T_EOF [] d] [] ltac:(discriminate))).
      rewrite ploop_eof by reflexivity. cbn [rbind snd app]. eexists. split; [reflexivity|]. reflexivity.
  - rewrite Elex in Htv.
    pose proof (line_loop e ps final ts Hts Hok toks (S (S (2 * length toks))) start_token [] Htv Hap (fresh_start toks) ltac:(lia)) as H.
    assert (Hfin : final_value ps final = if all_sp final then [] else final).
    { destruct ps as [|]; [|reflexivity]. cbn [final_value]. unfold line_text in Esp. cbn [map concat_str app] in Esp. rewrite Esp. reflexivity. }
    rewrite Hfin. destruct (line_value (vars e) ps _) as [v|].
    + destruct H as (s' & -> & Hs'). cbn [rbind]. eexists. split; [reflexivity|]. rewrite from_list_value, Hs'. reflexivity.
    + destruct H as (s' & ctx & ->). cbn [rbind]. eauto.
Qed.

(* Without variable syntax nothing changes. *)
Theorem C24_plain_text_untouched e text o : no_meaning text ->
  exists t, preprocess e text o = Ok t /\ t_value t = text.
Proof.
  intros H. pose proof (C25_variable_replacement e [] text o (conj (Forall_nil _) H)) as K.
  cbn [line_value final_value] in K. exact K.
Qed.

(* Nothing in the line is a reference: the environment does not matter, and the
   pieces become what the specification says. *)
Definition protected (p : piece) : Prop := match p with Ref _ => False | _ => True end.
Theorem C26_protected_from_replacement ps final : line_ok ps final -> Forall (fun tp => protected (snd tp)) ps ->
  exists v, line_value (fun _ => None) ps (final_value ps final) = Some v /\
    forall e o, exists t, preprocess e (line_text ps final) o = Ok t /\ t_value t = v.
Proof.
  intros Hok Hp.
  assert (H : forall vs f, exists v, line_value vs ps f = Some v /\ forall vs', line_value vs' ps f = Some v).
  { clear Hok. intros vs f. induction Hp as [|[t p] r Hp Hr IH]; [exists f; auto|]. destruct IH as (v & _ & IH).
    cbn [line_value]. destruct p as [s|[]|[]|s|s]; [contradiction| | | | | |]; cbn [piece_value]; rewrite (IH vs); eexists;
      (split; [reflexivity|]); intros vs'; rewrite (IH vs'); reflexivity. }
  destruct (H (fun _ => None) (final_value ps final)) as (v & Hv & Hall). exists v. split; [exact Hv|].
  intros e o. pose proof (C25_variable_replacement e ps final o Hok) as K. rewrite (Hall (vars e)) in K. exact K.
Qed.

Example C25_ex :
  let e := env_from_dict [(lit "name", EStr (lit "Mau")); (lit "app", EDict [(lit "v", EOther (lit "5"))])] None in
  let ps := [(lit "Hi ", Ref (lit "name")); (lit " v", Ref (lit "app.v")); (lit " ", EscapedBrace true); (lit "x", EscapedBrace false);
             ([], Braced (lit "name")); ([], Verbatim (lit "{no}"))] in
  line_text ps (lit "!") = lit "Hi {name} v{app.v} \{x\}{{name}}`{no}`!" /\
  line_value (vars e) ps (lit "!") = Some (lit "Hi Mau v5 {x}{name}`{no}`!") /\
  match preprocess e (lit "Hi {name} v{app.v} \{x\}{{name}}`{no}`!") (mkOrigin 0 0 None) with
  | Ok t => t_value t = lit "Hi Mau v5 {x}{name}`{no}`!" | _ => False end /\
  match preprocess e (lit "Hi {nobody}") (mkOrigin 0 0 None) with Exc (ExMau _) => True | _ => False end.
Proof. vm_compute. repeat split. Qed.

Print Assumptions C24_plain_text_untouched.
Print Assumptions C25_variable_replacement.
Print Assumptions C26_protected_from_replacement.
