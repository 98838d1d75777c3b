(* TextFacts.v -- the tokens of a text and the steps of the text parser *)
From Verif Require Export ParseFacts TextParser SpecText SpecArgs PropertiesPre PropertiesArgs.

(* ------------------------------------------------ the tokens *)
Fixpoint tk (s : str) : list (token_type * str) :=
  match s with
  | [] => []
  | c :: r =>
      if N.eqb c SP then (T_TEXT, [SP]) :: tk r
      else if mem_chr c text_specials then (T_LITERAL, [c]) :: tk r
      else match r with
           | d :: _ => if text_plain d then match tk r with (ty, v) :: t => (ty, c :: v) :: t | [] => [] end
                       else (T_TEXT, [c]) :: tk r
           | [] => [(T_TEXT, [c])]
           end
  end.

Definition not_plain_hd (s : str) : Prop := forall c r, s = c :: r -> text_plain c = false.

Lemma text_plain_spec c : text_plain c = true <-> N.eqb c SP = false /\ mem_chr c text_specials = false.
Proof. unfold text_plain; cbn [mem_chr]. rewrite negb_true_iff, orb_false_iff. tauto. Qed.

Lemma tk_run u v : u <> [] -> forallb text_plain u = true -> not_plain_hd v -> tk (u ++ v) = (T_TEXT, u) :: tk v.
Proof.
  intros Hne Hu Hv. induction u as [|c u IH]; [congruence|]. cbn in Hu. apply andb_prop in Hu as [Hc Hu].
  apply text_plain_spec in Hc as [E1 E2]. cbn [app tk]. rewrite E1, E2. destruct u as [|d u].
  - cbn [app]. destruct v as [|d v]; [reflexivity|]. rewrite (Hv d v eq_refl). reflexivity.
  - cbn [app]. assert (Hd : text_plain d = true) by (cbn in Hu; apply andb_prop in Hu; tauto). rewrite Hd.
    change (d :: u ++ v) with ((d :: u) ++ v). rewrite IH by (auto; discriminate). reflexivity.
Qed.

Lemma tk_ne c r : exists ty v t, tk (c :: r) = (ty, c :: v) :: t.
Proof.
  revert c; induction r as [|d r IH]; intros c; cbn [tk].
  - destruct (N.eqb_spec c SP) as [->|]; [eauto|]. destruct (mem_chr c text_specials); eauto.
  - destruct (N.eqb_spec c SP) as [->|]; [eauto|]. destruct (mem_chr c text_specials); [eauto|].
    destruct (text_plain d); [|eauto]. destruct (IH d) as (ty & v & t & E). cbn [tk] in E. rewrite E. eauto.
Qed.
Lemma tk_plain_hd c r : text_plain c = true -> exists v t, tk (c :: r) = (T_TEXT, c :: v) :: t.
Proof.
  revert c; induction r as [|d r IH]; intros c Hc; apply text_plain_spec in Hc as [E1 E2]; cbn [tk]; rewrite E1, E2; [eauto|].
  destruct (text_plain d) eqn:Ed; [|eauto]. destruct (IH d Ed) as (v & t & E). cbn [tk] in E. rewrite E. eauto.
Qed.

Lemma tk_app a b : not_plain_hd b -> tk (a ++ b) = tk a ++ tk b.
Proof.
  intros Hb. induction a as [|c a IH]; [reflexivity|]. cbn [app tk]. rewrite IH.
  destruct (N.eqb c SP); [reflexivity|]. destruct (mem_chr c text_specials); [reflexivity|].
  destruct a as [|d a]; cbn [app].
  - destruct b as [|d b]; [reflexivity|]. rewrite (Hb d b eq_refl). reflexivity.
  - destruct (text_plain d); [|reflexivity]. destruct (tk_ne d a) as (ty & v & t & ->). reflexivity.
Qed.
Lemma tk_special c s : mem_chr c text_specials = true -> tk (c :: s) = (T_LITERAL, [c]) :: tk s.
Proof.
  intros H. cbn [tk]. assert (N.eqb c SP = false) as -> by (destruct (N.eqb_spec c SP) as [->|]; [discriminate|reflexivity]).
  rewrite H. reflexivity.
Qed.
Lemma special_not_plain c r : mem_chr c text_specials = true -> not_plain_hd (c :: r).
Proof. intros H a b E. injection E as <- _. unfold text_plain; cbn [mem_chr]. rewrite H, orb_true_r. reflexivity. Qed.
Lemma tk_wrap a c b : mem_chr c text_specials = true -> tk (a ++ c :: b) = tk a ++ (T_LITERAL, [c]) :: tk b.
Proof. intros H. rewrite tk_app by (apply special_not_plain, H). rewrite tk_special by exact H. reflexivity. Qed.

Lemma tk_values s : concat_str (map snd (tk s)) = s.
Proof.
  induction s as [|c s IH]; [reflexivity|]. cbn [tk].
  destruct (N.eqb_spec c SP) as [->|]; [cbn; rewrite IH; reflexivity|].
  destruct (mem_chr c text_specials); [cbn; rewrite IH; reflexivity|].
  destruct s as [|d s]; [reflexivity|]. destruct (text_plain d); [|cbn [map snd concat_str app]; rewrite IH; reflexivity].
  destruct (tk_ne d s) as (ty & v & t & E). rewrite E in *. cbn in *. rewrite IH. reflexivity.
Qed.
Lemma tk_tok s : Forall (fun t => snd t <> [] /\ ((fst t = T_TEXT) \/ exists c, t = (T_LITERAL, [c]) /\ mem_chr c text_specials = true)) (tk s).
Proof.
  induction s as [|c s IH]; [constructor|]. cbn [tk].
  destruct (N.eqb c SP); [constructor; [split; [discriminate|auto]|exact IH]|].
  destruct (mem_chr c text_specials) eqn:E; [constructor; [split; [discriminate|right; eauto]|exact IH]|].
  destruct s as [|d s]; [repeat constructor; discriminate|].
  destruct (text_plain d) eqn:Ed; [|constructor; [split; [discriminate|auto]|exact IH]].
  destruct (tk_plain_hd d s Ed) as (v & t & E'). rewrite E' in *. inversion IH; subst. constructor; [split; [discriminate|auto]|assumption].
Qed.
Lemma tk_in s ty v c : In (ty, v) (tk s) -> In c v -> In c s.
Proof.
  intros H Hc. rewrite <- (tk_values s). revert H. generalize (tk s). intros l. induction l as [|[a b] l IH]; [contradiction|].
  cbn. rewrite in_app_iff. intros [E|H]; [injection E as -> ->; auto|auto].
Qed.

(* The tokens of a line: the spaces at the end are dropped. *)
Definition no_space_end (s : str) : Prop := hd_error (rev s) <> Some SP.
Lemma no_space_end_tl c s : s <> [] -> no_space_end (c :: s) -> no_space_end s.
Proof.
  unfold no_space_end. intros Hne. cbn [rev]. destruct (rev s) eqn:E.
  - apply (f_equal (@rev N)) in E. rewrite rev_involutive in E. contradiction.
  - cbn [app hd_error]. auto.
Qed.
Lemma all_sp_hd_rev s : all_sp s = true -> s <> [] -> hd_error (rev s) = Some SP.
Proof.
  intros H Hne. apply all_sp_repeat in H. rewrite H. destruct (length s) eqn:E; [destruct s; [congruence|discriminate]|].
  assert (rev (repeat SP (S n)) = SP :: repeat SP n) as ->; [|reflexivity].
  clear. induction n as [|n IH]; [reflexivity|]. change (repeat SP (S (S n))) with (SP :: repeat SP (S n)). cbn [rev]. cbn [rev] in IH.
  rewrite IH. cbn. f_equal. symmetry. exact (repeat_cons n SP).
Qed.
Lemma text_toks w k : no_space_end w -> line_toks text_next (w ++ repeat SP k) = tk w.
Proof.
  remember (length w) as n eqn:Hn. revert w Hn. induction n as [n IH] using lt_wf_ind. intros w Hn He. subst n.
  destruct w as [|c w].
  { cbn [app]. rewrite (line_toks_eq _ text_next_prefix text_next_type).
    assert (all_sp (repeat SP k) = true) as ->; [|reflexivity]. clear. induction k; [reflexivity|exact IHk]. }
  assert (Hsp : all_sp (c :: w) = false).
  { destruct (all_sp (c :: w)) eqn:E; [|reflexivity]. apply all_sp_hd_rev in E; [contradiction|discriminate]. }
  assert (Hsp' : forall x, all_sp ((c :: w) ++ x) = false) by (intros x; rewrite all_sp_app, Hsp; reflexivity).
  assert (Htl : no_space_end w) by (destruct w; [discriminate|eapply no_space_end_tl; [discriminate|exact He]]).
  cbn [tk]. destruct (N.eqb_spec c SP) as [->|Hc].
  - change ((SP :: w) ++ repeat SP k) with ([SP] ++ (w ++ repeat SP k)).
    rewrite (line_toks_head _ text_next_prefix text_next_type [SP] (w ++ repeat SP k) T_TEXT (Hsp' _) eq_refl).
    rewrite (IH (length w)) by (cbn; auto; lia). reflexivity.
  - destruct (mem_chr c text_specials) eqn:Es.
    + change ((c :: w) ++ repeat SP k) with ([c] ++ (w ++ repeat SP k)).
      rewrite (line_toks_head _ text_next_prefix text_next_type [c] (w ++ repeat SP k) T_LITERAL).
      * rewrite (IH (length w)) by (cbn; auto; lia). reflexivity.
      * exact (Hsp' _).
      * unfold text_next. cbn [app]. destruct (N.eqb_spec c SP); [contradiction|]. rewrite Es. reflexivity.
    + fold tk. assert (Hpl : text_plain c = true) by (apply text_plain_spec; split; [destruct (N.eqb_spec c SP); [contradiction|reflexivity]|exact Es]).
      pose proof (span_app text_plain (c :: w)) as Hspan. pose proof (span_fst_all text_plain (c :: w)) as Hall.
      pose proof (span_snd_hd text_plain (c :: w)) as Hhd.
      assert (Hune : fst (span text_plain (c :: w)) <> []) by (rewrite span_cons by exact Hpl; discriminate).
      set (u := fst (span text_plain (c :: w))) in *. set (v := snd (span text_plain (c :: w))) in *.
      assert (Hv : not_plain_hd v) by (intros a b E; exact (Hhd a b E)).
      transitivity (tk (u ++ v)); [|rewrite Hspan; cbn [tk]; destruct (N.eqb_spec c SP); [contradiction|]; rewrite Es; reflexivity].
      rewrite tk_run by assumption. rewrite <- Hspan, <- app_assoc.
      rewrite (line_toks_head _ text_next_prefix text_next_type u (v ++ repeat SP k) T_TEXT).
      * rewrite (IH (length v)); [reflexivity| |reflexivity|].
        -- rewrite <- Hspan, app_length. destruct u; [congruence|cbn; lia].
        -- destruct v as [|d v']; [discriminate|]. unfold no_space_end in *. rewrite <- Hspan in He. rewrite rev_app_distr in He.
           destruct (rev (d :: v')) eqn:E; [discriminate|]. exact He.
      * rewrite app_assoc, Hspan. apply Hsp'.
      * unfold text_next. rewrite app_assoc, Hspan. cbn [app]. destruct (N.eqb_spec c SP); [contradiction|]. rewrite Es. f_equal.
        change (c :: w ++ repeat SP k) with ((c :: w) ++ repeat SP k). rewrite <- Hspan, <- app_assoc.
        rewrite (span_all text_plain u (v ++ repeat SP k) Hall); [reflexivity|].
        intros a b E. destruct v as [|d v']; cbn [app] in E.
        -- destruct k; [discriminate|]. cbn in E. injection E as <- _. reflexivity.
        -- injection E as <- _. apply (Hv d v' eq_refl).
Qed.

(* ------------------------------------------------ the steps of the parser *)
Definition prepend (ns : list inode) (out : (list token * tx) * res (list inode)) : (list token * tx) * res (list inode) :=
  (fst out, rmap (app ns) (snd out)).
Lemma prepend_app a b out : prepend a (prepend b out) = prepend (a ++ b) out.
Proof. destruct out as [s [r|]]; unfold prepend; cbn; [rewrite app_assoc|]; reflexivity. Qed.
Lemma prepend_nil out : prepend [] out = out.
Proof. destruct out as [s [r|]]; reflexivity. Qed.

Lemma words_step e nest n stops t r x s' ns : token_in t stops = false -> ns <> [] ->
  tp_item e nest (tp_words e nest n) (t :: r, x) = (s', Ok ns) ->
  tp_words e nest (S n) stops (t :: r, x) = prepend ns (tp_words e nest n stops s').
Proof.
  intros H1 H2 H3. cbn [tp_words]. unfold pbind at 1, ppeek. cbn [fst peek_tok check_token]. rewrite H1.
  unfold pbind at 1. rewrite H3. destruct ns; [congruence|]. unfold pbind, pret, prepend.
  destruct (tp_words e nest n stops s') as [s2 [r2|ex]]; reflexivity.
Qed.
Lemma words_stop e nest n stops t r x : token_in t stops = true ->
  tp_words e nest (S n) stops (t :: r, x) = ((t :: r, x), Ok []).
Proof. intros H. cbn [tp_words]. unfold pbind, ppeek. cbn [fst peek_tok check_token]. rewrite H. reflexivity. Qed.

Lemma words_cons e nest n stops t r x s' a ns out : tp_words e nest n stops s' = prepend ns out -> token_in t stops = false ->
  tp_item e nest (tp_words e nest n) (t :: r, x) = (s', Ok [a]) ->
  tp_words e nest (S n) stops (t :: r, x) = prepend (a :: ns) out.
Proof. intros H1 H2 H3. rewrite (words_step e nest n stops t r x s' [a] H2 ltac:(discriminate) H3), H1, prepend_app. reflexivity. Qed.

(* tp_first *)
Lemma first_next f fs last s s' : f s = (s', Exc ExTokenError) -> snd s' = snd s -> tp_first (f :: fs) last s = tp_first fs last s.
Proof. intros H E. cbn [tp_first]. unfold pbind, pwith. rewrite H, E. destruct s; reflexivity. Qed.
Lemma first_ok f fs last s s' a : f s = (s', Ok a) -> tp_first (f :: fs) last s = (s', Ok a).
Proof. intros H. cbn [tp_first]. unfold pbind, pwith. rewrite H. reflexivity. Qed.

(* ------------------------------------------------ the items *)
Section Items.
  Variables (e : env) (nest : nest_fn).
  Notation item words := (tp_item e nest words).

  Lemma item_backslash words c0 t r x : r <> [] ->
    item words (mkToken T_LITERAL [BS] c0 :: t :: r, x) = ((r, x), Ok [NWord (t_value t) (merge_contexts c0 (t_ctx t))]).
  Proof.
    intros Hr. destruct r as [|u r]; [congruence|]. unfold tp_item. apply first_ok. unfold tp_backslash.
    change BSL with [BS]. pev. reflexivity.
  Qed.

  (* the functions that look for another first token *)
  Lemma skip_backslash fs last t r x : tv t <> (T_LITERAL, [BS]) ->
    tp_first (tp_backslash :: fs) last (t :: r, x) = tp_first fs last (t :: r, x).
  Proof.
    intros H. eapply first_next with (s' := (t :: r, x)); [|reflexivity]. unfold tp_backslash, pbind, get_tv, pget_token.
    cbn [fst peek_tok]. unfold check_token. destruct t as [ty v c]. unfold tv in H. cbn [t_type t_value] in H |- *.
    destruct (tt_eqb_spec ty T_LITERAL) as [->|]; cbn [negb]; [|reflexivity].
    destruct (str_eqb_spec v BSL) as [->|]; cbn [negb]; [|reflexivity]. exfalso. apply H. reflexivity.
  Qed.
  Lemma skip_macro fs last t r x : tv t <> (T_LITERAL, lit "[") ->
    tp_first (tp_macro e nest :: fs) last (t :: r, x) = tp_first fs last (t :: r, x).
  Proof.
    intros H. eapply first_next with (s' := (t :: r, x)); [|reflexivity]. unfold tp_macro, pbind, get_tv, pget_token.
    cbn [fst peek_tok]. unfold check_token. destruct t as [ty v c]. unfold tv in H. cbn [t_type t_value] in H |- *.
    destruct (tt_eqb_spec ty T_LITERAL) as [->|]; cbn [negb]; [|reflexivity].
    destruct (str_eqb_spec v (lit "[")) as [->|]; cbn [negb]; [|reflexivity]. exfalso. apply H. reflexivity.
  Qed.
  Lemma skip_verbatim fs last t r x : tv t <> (T_LITERAL, TICK) ->
    tp_first (tp_verbatim :: fs) last (t :: r, x) = tp_first fs last (t :: r, x).
  Proof.
    intros H. eapply first_next with (s' := (t :: r, x)); [|reflexivity]. unfold tp_verbatim, pbind, get_tv, pget_token.
    cbn [fst peek_tok]. unfold check_token. destruct t as [ty v c]. unfold tv in H. cbn [t_type t_value] in H |- *.
    destruct (tt_eqb_spec ty T_LITERAL) as [->|]; cbn [negb]; [|reflexivity].
    destruct (str_eqb_spec v TICK) as [->|]; cbn [negb]; [|reflexivity]. exfalso. apply H. reflexivity.
  Qed.
  Lemma skip_escaped fs last t r x : (t_type t = T_LITERAL -> is_escape_mark (t_value t) = false) ->
    tp_first (tp_escaped :: fs) last (t :: r, x) = tp_first fs last (t :: r, x).
  Proof.
    intros H. eapply first_next with (s' := (t :: r, x)); [|reflexivity]. unfold tp_escaped, pbind, pget_token.
    cbn [fst peek_tok]. unfold check_token. destruct t as [ty v c]. cbn [t_type t_value] in H |- *.
    destruct (tt_eqb_spec ty T_LITERAL) as [->|]; cbn [negb]; [|reflexivity]. rewrite (H eq_refl). reflexivity.
  Qed.
  Lemma skip_style words fs last t r x : (t_type t = T_LITERAL -> dmem (t_value t) map_styles = false) ->
    tp_first (tp_style words :: fs) last (t :: r, x) = tp_first fs last (t :: r, x).
  Proof.
    intros H. eapply first_next with (s' := (t :: r, x)); [|reflexivity]. unfold tp_style, pbind, pget_token.
    cbn [fst peek_tok]. unfold check_token. destruct t as [ty v c]. cbn [t_type t_value] in H |- *.
    destruct (tt_eqb_spec ty T_LITERAL) as [->|]; cbn [negb]; [|reflexivity]. rewrite (H eq_refl). reflexivity.
  Qed.

  (* a token that starts no markup is a word *)
  Definition dull (t : token_type * str) : Prop := fst t = T_TEXT \/ exists c, t = (T_LITERAL, [c]) /\ ~ In c MARKUP.
  Lemma item_word words t r x : dull (tv t) -> r <> [] -> item words (t :: r, x) = ((r, x), Ok [NWord (t_value t) (t_ctx t)]).
  Proof.
    intros Hd Hr. unfold tp_item. destruct t as [ty v c]. unfold dull, tv in Hd. cbn [t_type t_value fst] in Hd.
    assert (Hlit : forall m, In m MARKUP -> (ty, v) <> (T_LITERAL, [m])).
    { intros m Hm K. destruct Hd as [K'|(d & K' & Hd)]; [congruence|]. rewrite K' in K. injection K as ->. contradiction. }
    rewrite skip_backslash by (apply Hlit; cbn; tauto).
    rewrite skip_macro by (apply Hlit; cbn; tauto).
    rewrite skip_verbatim by (apply Hlit; cbn; tauto).
    rewrite skip_escaped, skip_style.
    - cbn [tp_first]. unfold tp_word, pbind, get_tok, pget_token. cbn [fst snd peek_tok check_token next_rem]. destruct r; [congruence|reflexivity].
    - cbn [t_type t_value]. intros ->. destruct Hd as [K|(d & K & Hd)]; [discriminate|]. injection K as ->.
      destruct (dmem [d] map_styles) eqn:E; [|reflexivity]. exfalso. apply Hd. revert E. clear.
      unfold dmem, map_styles, dget. change (lit "_") with [95%N]. change (lit "*") with [42%N]. change (lit "^") with [94%N]. change (lit "~") with [126%N].
      destruct (str_eqb_spec [d] [95%N]) as [K|_]; [injection K as ->; intros _; cbn; tauto|].
      destruct (str_eqb_spec [d] [42%N]) as [K|_]; [injection K as ->; intros _; cbn; tauto|].
      destruct (str_eqb_spec [d] [94%N]) as [K|_]; [injection K as ->; intros _; cbn; tauto|].
      destruct (str_eqb_spec [d] [126%N]) as [K|_]; [injection K as ->; intros _; cbn; tauto|]. discriminate.
    - cbn [t_type t_value]. intros ->. destruct Hd as [K|(d & K & Hd)]; [discriminate|]. injection K as ->.
      destruct (is_escape_mark [d]) eqn:E; [|reflexivity]. exfalso. unfold is_escape_mark in E. apply mem_str_In in E.
      cbn in E. destruct E as [E|[E|[E|[E|[]]]]]; try discriminate; injection E as <-; apply Hd; cbn; tauto.
  Qed.
End Items.

(* ------------------------------------------------ between two marks *)
Definition inline_tok (t : token_type * str) : Prop := (fst t = T_TEXT \/ fst t = T_LITERAL) /\ snd t <> [].
Lemma tk_inline s : Forall inline_tok (tk s).
Proof. eapply Forall_impl; [|apply tk_tok]. intros t [H1 [H2|(c & -> & _)]]; split; cbn; auto. Qed.

Section Inside.
  Variable m : N.
  Hypotheses (Hm : mem_chr m text_specials = true) (Hmb : m <> BS).
  Let tM : token_type * str := (T_LITERAL, [m]).

  Inductive itoks : list (token_type * str) -> str -> Prop :=
  | it_nil : itoks [] []
  | it_tok t ts v : inline_tok t -> t <> tM -> t <> tB -> itoks ts v -> itoks (t :: ts) (snd t ++ v)
  | it_esc ts v : itoks ts v -> itoks (tB :: tM :: ts) (m :: v)
  | it_pair t ts v : inline_tok t -> t <> tM -> itoks ts v -> itoks (tB :: t :: ts) (BS :: snd t ++ v).

  Lemma inside_app a b : inside m (a ++ b) = inside m a ++ inside m b.
  Proof. induction a as [|c a IH]; [reflexivity|]. cbn. destruct (N.eqb c m); cbn; rewrite IH; reflexivity. Qed.
  Lemma inside_none w : ~ In m w -> inside m w = w.
  Proof.
    induction w as [|c w IH]; intros H; [reflexivity|]. cbn. destruct (N.eqb_spec c m) as [->|]; [destruct H; left; reflexivity|].
    rewrite IH; [reflexivity|]. intros K; apply H; right; exact K.
  Qed.
  Lemma can_be_inside_app a b : can_be_inside m (a ++ b) -> can_be_inside m b.
  Proof. induction a as [|c a IH]; [auto|]. cbn. intros (_ & _ & H). auto. Qed.
  Lemma inside_not_plain v : not_plain_hd v -> not_plain_hd (inside m v).
  Proof.
    intros H c r E. destruct v as [|d v]; [discriminate|]. cbn in E. destruct (N.eqb d m); injection E as <- _; [reflexivity|].
    exact (H d v eq_refl).
  Qed.

  Lemma next_inside d v : d <> m -> exists ty w v', d :: v = w ++ v' /\ w <> [] /\
    tk (inside m (d :: v)) = (ty, w) :: tk (inside m v') /\ inline_tok (ty, w) /\ (ty, w) <> tM /\ ((ty, w) = tB -> d = BS).
  Proof.
    intros Hd. assert (Hi : inside m (d :: v) = d :: inside m v) by (cbn; destruct (N.eqb_spec d m); [contradiction|reflexivity]).
    destruct (text_plain d) eqn:Ep.
    - pose proof (span_app text_plain (d :: v)) as Hspan. pose proof (span_fst_all text_plain (d :: v)) as Hall.
      pose proof (span_snd_hd text_plain (d :: v)) as Hhd.
      assert (Hune : fst (span text_plain (d :: v)) <> []) by (rewrite span_cons by exact Ep; discriminate).
      set (u := fst (span text_plain (d :: v))) in *. set (v' := snd (span text_plain (d :: v))) in *.
      assert (Hnm : ~ In m u). { intros K. rewrite forallb_forall in Hall. apply Hall in K. unfold text_plain in K; cbn [mem_chr] in K. rewrite Hm, orb_true_r in K. discriminate. }
      exists T_TEXT, u, v'. repeat split; try discriminate; auto.
      rewrite <- Hspan, inside_app, (inside_none u Hnm). apply tk_run; auto. apply inside_not_plain. intros a b E. exact (Hhd a b E).
    - assert (Ht : exists ty, tk (inside m (d :: v)) = (ty, [d]) :: tk (inside m v) /\ inline_tok (ty, [d]) /\ (ty, [d]) <> tM).
      { rewrite Hi. cbn [tk]. destruct (N.eqb_spec d SP) as [->|Hs].
        - exists T_TEXT. repeat split; try discriminate. auto.
        - destruct (mem_chr d text_specials) eqn:Es.
          + exists T_LITERAL. repeat split; try discriminate; auto. intros K. injection K as K. contradiction.
          + exfalso. assert (text_plain d = true); [|congruence]. apply text_plain_spec. split; [destruct (N.eqb_spec d SP); [contradiction|reflexivity]|exact Es]. }
      destruct Ht as (ty & E1 & E2 & E3). exists ty, [d], v. repeat split; try discriminate; auto; try apply E2. intros K. injection K as _ K. exact K.
  Qed.

  Lemma lex_inside : forall n v, length v <= n -> can_be_inside m v -> itoks (tk (inside m v)) v.
  Proof.
    induction n as [|n IH]; intros v Hn Hq; [destruct v; [constructor|cbn in Hn; lia]|].
    destruct v as [|c v]; [constructor|]. cbn [length] in Hn. destruct Hq as (Hnl & Hbs & Hq).
    destruct (N.eq_dec c m) as [->|Hc].
    { cbn [inside]. rewrite N.eqb_refl. rewrite tk_special by reflexivity. rewrite tk_special by exact Hm. apply it_esc. apply IH; [lia|exact Hq]. }
    destruct (N.eq_dec c BS) as [->|Hb].
    - destruct (Hbs eq_refl) as [Hne Hnq]. destruct v as [|d v]; [congruence|]. cbn in Hnq. assert (Hdm : d <> m) by congruence.
      destruct (next_inside d v Hdm) as (ty & w & v' & E1 & E2 & E3 & E4 & E5 & _).
      assert (Hlen : length v' <= n). { apply (f_equal (@length N)) in E1. rewrite app_length in E1. destruct w; [congruence|]. cbn in E1, Hn. lia. }
      assert (Hi : inside m (BS :: d :: v) = BS :: inside m (d :: v)) by (cbn [inside]; destruct (N.eqb_spec BS m); [congruence|reflexivity]).
      rewrite Hi, tk_special by reflexivity. rewrite E3, E1. apply (it_pair (ty, w)); auto.
      apply IH; [exact Hlen|]. rewrite E1 in Hq. apply can_be_inside_app in Hq. exact Hq.
    - destruct (next_inside c v Hc) as (ty & w & v' & E1 & E2 & E3 & E4 & E5 & E6).
      assert (Hlen : length v' <= n). { apply (f_equal (@length N)) in E1. rewrite app_length in E1. destruct w; [congruence|]. cbn in E1, Hn. lia. }
      rewrite E3, E1. apply (it_tok (ty, w)); auto. apply IH; [exact Hlen|]. apply (can_be_inside_app w). rewrite <- E1. cbn. auto.
  Qed.

  Variable stops : list token.
  Hypothesis stop_m : forall c, token_in (mkToken T_LITERAL [m] c) stops = true.
  Hypothesis no_stop : forall t, inline_tok (tv t) -> tv t <> tM -> token_in t stops = false.

  Lemma collect_inside ts v : itoks ts v -> forall a q r, map tv a = ts -> tv q = tM ->
    exists c, collect_list stops false (a ++ q :: r) = Ok (c, q :: r) /\ t_value (join_tokens c []) = v.
  Proof.
    intros Hq a q r Ha Hqt.
    assert (K : exists c, collect_list stops false (a ++ q :: r) = Ok (c, q :: r) /\
      concat_str (map t_value c) = v /\ Forall (fun t => t_value t <> []) c).
    2:{ destruct K as (c & H1 & H2 & H3). exists c. split; [exact H1|]. rewrite join_value by exact H3. exact H2. }
    assert (Hqs : token_in q stops = true).
    { destruct q as [ty v' c]. unfold tv, tM in Hqt. cbn in Hqt. injection Hqt as -> ->. apply stop_m. }
    assert (Hbs : forall c, token_in (mkToken T_LITERAL [BS] c) stops = false).
    { intros c. apply no_stop; [split; [auto|discriminate]|]. unfold tM, tv. intros K. injection K as K. exact (Hmb (eq_sym K)). }
    revert a Ha. induction Hq as [|t ts v Ho Hn Hb Hq IH|ts v Hq IH|t ts v Ho Hn Hq IH]; intros a Ha.
    - apply map_tv_nil in Ha as ->. exists []. cbn [app collect_list]. rewrite Hqs. repeat split. constructor.
    - destruct a as [|u a]; [discriminate|]. cbn in Ha. injection Ha as <- Ha. destruct (IH a Ha) as (c & H1 & H2 & H3).
      exists (u :: c). cbn [app collect_list].
      rewrite (no_stop u Ho Hn), (tv_in_stop u T_LITERAL [BS] Hb : token_eqb u escape_tok = false).
      rewrite H1. cbn [rbind map concat_str]. rewrite H2. split; [reflexivity|]. split; [reflexivity|].
      constructor; [|exact H3]. exact (proj2 Ho).
    - destruct a as [|b [|u a]]; try discriminate. cbn in Ha. injection Ha as Hb1 Hb2 Hu1 Hu2 Ha. destruct (IH a Ha) as (c & H1 & H2 & H3).
      exists (u :: c). destruct b as [bt bv bc], u as [ut uv uc]. cbn in Hb1, Hb2, Hu1, Hu2. subst.
      cbn [app collect_list]. rewrite Hbs, stop_m. change (token_eqb (mkToken T_LITERAL [BS] bc) escape_tok) with true. cbv iota.
      destruct (a ++ q :: r) as [|y ys] eqn:E; [destruct a; discriminate|]. rewrite H1. cbn [rbind negb orb app map concat_str t_value].
      repeat split. constructor; [discriminate|exact H3].
    - destruct a as [|b [|u a]]; try discriminate. cbn in Ha. injection Ha as Hb1 Hb2 Hu Ha. destruct (IH a Ha) as (c & H1 & H2 & H3).
      subst t. exists (b :: u :: c). destruct b as [bt bv bc]. cbn in Hb1, Hb2. subst.
      cbn [app collect_list]. rewrite Hbs. change (token_eqb (mkToken T_LITERAL [BS] bc) escape_tok) with true.
      rewrite (no_stop u Ho Hn). cbv iota.
      destruct (a ++ q :: r) as [|y ys] eqn:E; [destruct a; discriminate|]. rewrite H1. cbn [rbind negb orb app map concat_str t_value].
      repeat split. constructor; [discriminate|]. constructor; [exact (proj2 Ho)|exact H3].
  Qed.
End Inside.

(* the stop tokens of verbatim and escaped text *)
Lemma inline_not_end t ty : inline_tok (tv t) -> ty = T_EOF \/ ty = T_EOL -> token_eqb t (generate ty []) = false.
Proof.
  intros [H _] Hty. apply tv_in_stop. unfold tv in *. cbn in H. intros K. injection K as K _. rewrite K in H.
  destruct Hty as [-> | ->]; destruct H; discriminate.
Qed.
Lemma marker_in m c : token_in (mkToken T_LITERAL [m] c) (marker_stops [m] ++ [EOF_tok]) = true.
Proof. unfold token_in, marker_stops. cbn [app existsb]. unfold token_eqb at 1. cbn. rewrite N.eqb_refl. reflexivity. Qed.
Lemma marker_not t m : inline_tok (tv t) -> tv t <> (T_LITERAL, [m]) -> token_in t (marker_stops [m] ++ [EOF_tok]) = false.
Proof.
  intros H1 H2. unfold token_in, marker_stops. cbn [app existsb]. rewrite (tv_in_stop t T_LITERAL [m] H2).
  unfold EOF_tok, EOL_tok. rewrite !inline_not_end by auto. reflexivity.
Qed.

Section Items2.
  Variables (e : env) (nest : nest_fn).
  Notation item words := (tp_item e nest words).

  Lemma peek_hd {X} t r (x : X) ty v f : peek_tok (fst (t :: r, x)) ty v f = check_token t ty v f.
  Proof. reflexivity. Qed.
  Lemma get_lit {X} v c r (x : X) : r <> [] -> get_tv T_LITERAL v (mkToken T_LITERAL v c :: r, x) = ((r, x), Ok (mkToken T_LITERAL v c)).
  Proof.
    intros Hr. unfold get_tv, pget_token. rewrite peek_hd. unfold check_token. cbn [t_type t_value]. rewrite tt_eqb_refl, str_eqb_refl.
    cbn [negb fst snd next_rem]. destruct r; [congruence|reflexivity].
  Qed.
  Lemma get_type {X} ty v c r (x : X) : r <> [] -> get_ty ty (mkToken ty v c :: r, x) = ((r, x), Ok (mkToken ty v c)).
  Proof.
    intros Hr. unfold get_ty, pget_token. rewrite peek_hd. unfold check_token. cbn [t_type t_value]. rewrite tt_eqb_refl.
    cbn [negb fst snd next_rem]. destruct r; [congruence|reflexivity].
  Qed.

  Lemma item_verbatim words s o a q r x : can_be_inside (chr "`") s -> map tv a = tk (inside (chr "`") s) -> r <> [] ->
    exists c, item words (mkToken T_LITERAL TICK o :: a ++ mkToken T_LITERAL TICK q :: r, x) = ((r, x), Ok [NVerbatim s c]).
  Proof.
    intros Hs Ha Hr. unfold tp_item. rewrite skip_backslash by discriminate. rewrite skip_macro by discriminate.
    pose proof (lex_inside (chr "`") eq_refl ltac:(discriminate) _ s (le_n _) Hs) as Hi. rewrite <- Ha in Hi.
    destruct (collect_inside (chr "`") ltac:(discriminate) (marker_stops TICK ++ [EOF_tok]) (marker_in (chr "`"))
      (fun t H1 H2 => marker_not t (chr "`") H1 H2) _ s Hi a (mkToken T_LITERAL TICK q) r eq_refl eq_refl) as (c & H1 & H2).
    eexists. apply first_ok. unfold tp_verbatim.
    unfold pbind at 1. rewrite get_lit by (destruct a; discriminate).
    unfold pbind at 1. unfold pcollect_join, pcollect. unfold pbind at 1. cbn [fst snd]. unfold tick_stops.
    change [generate T_LITERAL TICK; EOL_tok] with (marker_stops TICK). rewrite H1. unfold pret at 1.
    unfold pbind. rewrite get_lit by exact Hr. rewrite H2. reflexivity.
  Qed.

  Lemma item_escaped words m s o a q r x : m = chr "$" \/ m = chr "%" -> can_be_inside m s -> map tv a = tk (inside m s) -> r <> [] ->
    exists c, item words (mkToken T_LITERAL [m] o :: a ++ mkToken T_LITERAL [m] q :: r, x) = ((r, x), Ok [NText s c]).
  Proof.
    intros Hm Hs Ha Hr. assert (Hmb : m <> BS /\ mem_chr m text_specials = true) by (destruct Hm as [-> | ->]; split; [discriminate|reflexivity|discriminate|reflexivity]).
    unfold tp_item. rewrite skip_backslash by (destruct Hm as [-> | ->]; discriminate).
    rewrite skip_macro by (destruct Hm as [-> | ->]; discriminate). rewrite skip_verbatim by (destruct Hm as [-> | ->]; discriminate).
    pose proof (lex_inside m (proj2 Hmb) (proj1 Hmb) _ s (le_n _) Hs) as Hi. rewrite <- Ha in Hi.
    destruct (collect_inside m (proj1 Hmb) (marker_stops [m] ++ [EOF_tok]) (marker_in m)
      (fun t H1 H2 => marker_not t m H1 H2) _ s Hi a (mkToken T_LITERAL [m] q) r eq_refl eq_refl) as (c & H1 & H2).
    eexists. apply first_ok. unfold tp_escaped.
    unfold pbind at 1. unfold pget_token at 1. rewrite peek_hd. unfold check_token at 1. cbn [t_type t_value]. rewrite tt_eqb_refl. cbn [negb].
    assert (is_escape_mark [m] = true) as -> by (destruct Hm as [-> | ->]; reflexivity). cbn [negb fst snd next_rem].
    assert (Hne : a ++ mkToken T_LITERAL [m] q :: r <> []) by (destruct a; discriminate).
    destruct (a ++ mkToken T_LITERAL [m] q :: r) as [|y ys] eqn:E; [congruence|]. cbv iota.
    unfold pbind at 1. unfold pcollect_join, pcollect. unfold pbind at 1. cbn [fst snd t_value]. rewrite H1. unfold pret at 1.
    unfold pbind. cbn [t_value]. rewrite get_lit by exact Hr. rewrite H2. reflexivity.
  Qed.

  Lemma item_style words st o rest s' q r x ns x' :
    words (style_stops [mark_of st]) (rest, x) = ((mkToken T_LITERAL [mark_of st] q :: r, x'), Ok ns) ->
    rest <> [] -> r <> [] -> s' = (r, x') ->
    item words (mkToken T_LITERAL [mark_of st] o :: rest, x) = (s', Ok [NStyle (style_name st) (group_words [] ns) (merge_contexts o q)]).
  Proof.
    intros Hw Hre Hr ->. unfold tp_item. rewrite skip_backslash by (destruct st; discriminate).
    rewrite skip_macro by (destruct st; discriminate). rewrite skip_verbatim by (destruct st; discriminate).
    rewrite skip_escaped by (destruct st; reflexivity).
    apply first_ok. unfold tp_style. unfold pbind at 1, pget_token at 1. rewrite peek_hd. unfold check_token at 1. cbn [t_type t_value].
    rewrite tt_eqb_refl. cbn [negb]. assert (dmem [mark_of st] map_styles = true) as -> by (destruct st; reflexivity). cbn [negb fst snd next_rem].
    destruct rest as [|y ys]; [congruence|]. unfold pbind at 1. cbn [t_value]. rewrite Hw. unfold pbind. cbn [t_value]. rewrite get_lit by exact Hr.
    unfold pret. do 3 f_equal. f_equal. destruct st; reflexivity.
  Qed.

  (* names *)
  Lemma mention_bare n : mention_name n -> bare_ok n.
  Proof.
    intros (H1 & H2 & H3). unfold bare_ok. repeat split.
    - intros K. apply (H2 c H). unfold args_meaning in K. cbn in K |- *. tauto.
    - intros ->. apply (H2 NL H). cbn. tauto.
    - exact H1.
    - destruct n as [|c r]; [discriminate|]. intros K. cbn in K. injection K as ->. apply (H2 SP); [left; reflexivity|]. cbn. tauto.
    - intros K. destruct (rev n) as [|c r] eqn:E; [discriminate|]. cbn in K. injection K as ->. apply (H2 SP); [|cbn; tauto].
      apply in_rev. rewrite E. left; reflexivity.
  Qed.
  Lemma take_prefix_no p v c : p <> [] -> (forall a r, v = a :: r -> hd_error p <> Some a) -> take_prefix p (vnode v c) = (false, vnode v c).
  Proof.
    intros Hp H. unfold take_prefix. cbn [vnode t_value]. destruct p as [|d p]; [congruence|]. destruct v as [|a v]; [reflexivity|].
    cbn [startswith]. destruct (N.eqb_spec d a) as [->|]; [|reflexivity]. destruct (H a v eq_refl). reflexivity.
  Qed.
  Lemma mention_args n c : mention_name n -> exists u, t_value u = n /\ process_arguments e (mkToken T_TEXT n c) = Ok (mkParsed [u] [] [] None None).
  Proof.
    intros Hn. destruct (run_args [Pos n] n (origin_of (mkToken T_TEXT n c))) as (toks & H1 & (t0 & r0 & ->) & H2).
    { constructor. constructor. constructor. apply mention_bare, Hn. }
    cbv zeta in H2. destruct H2 as [H2 _]. destruct H2 as (x & H2 & H3).
    { intros (a & k & v & b & w & d & K). destruct a as [|? [|]]; discriminate. }
    unfold process_arguments, parse_arguments. cbn [t_value]. rewrite H1. cbn [rbind]. rewrite H2. cbn [rbind].
    unfold vals in H3. cbn [fold_left put] in H3. injection H3 as H4 H5 H6.
    destruct x as [on us nm]. cbn [ap_on ap_unnamed ap_named] in *. destruct nm; [|discriminate].
    destruct us as [|[ty v c'] [|]]; try discriminate. cbn in H5. injection H5 as ->.
    unfold isolate. cbn [ap_unnamed ap_named map]. unfold mark.
    assert (Hf : forall a r, n = a :: r -> ~ In a (lit "#*@")) by (apply Hn).
    assert (Hu : take_prefix (lit "#") (mkToken ty n c') = (false, mkToken ty n c')).
    { unfold take_prefix. cbn [t_value]. change (lit "#") with [35%N]. destruct n as [|a r]; [reflexivity|]. cbn [startswith].
      destruct (N.eqb_spec 35 a) as [<-|]; [exfalso; apply (Hf _ _ eq_refl); cbn; tauto|reflexivity]. }
    assert (Hv : take_prefix (lit "*") (mkToken ty n c') = (false, mkToken ty n c')).
    { unfold take_prefix. cbn [t_value]. change (lit "*") with [42%N]. destruct n as [|a r]; [reflexivity|]. cbn [startswith].
      destruct (N.eqb_spec 42 a) as [<-|]; [exfalso; apply (Hf _ _ eq_refl); cbn; tauto|reflexivity]. }
    assert (Hw : take_prefix (lit "@") (mkToken ty n c') = (false, mkToken ty n c')).
    { unfold take_prefix. cbn [t_value]. change (lit "@") with [64%N]. destruct n as [|a r]; [reflexivity|]. cbn [startswith].
      destruct (N.eqb_spec 64 a) as [<-|]; [exfalso; apply (Hf _ _ eq_refl); cbn; tauto|reflexivity]. }
    rewrite Hu, Hv, Hw. exists (mkToken ty n c'). split; reflexivity.
  Qed.

  (* the text between the brackets, when it has no quotes and no escapes *)
  Definition bare_args (w : str) : Prop := forall c, In c w -> ~ In c (lit ")\" ++ [QUOTE]).
  Lemma mstops_in c : token_in (mkToken T_LITERAL (lit ")") c) (macro_stops ++ [EOF_tok]) = true.
  Proof. reflexivity. Qed.
  Lemma bare_not_stop w t : bare_args w -> In (tv t) (tk w) ->
    token_in t (macro_stops ++ [EOF_tok]) = false /\ token_eqb t escape_tok = false /\ t_value t <> [] /\ t_type t <> T_EOF /\
    tv t <> (T_LITERAL, lit ")") /\ tv t <> tQ.
  Proof.
    intros Hw Ht. pose proof (tk_tok w) as Hk. rewrite Forall_forall in Hk. specialize (Hk _ Ht) as [Hne Hk].
    assert (K : forall c, In c (lit ")\" ++ [QUOTE]) -> tv t <> (T_LITERAL, [c])).
    { intros c Hc K. rewrite K in Ht. apply (Hw c); [|exact Hc]. apply (tk_in w T_LITERAL [c] c Ht). left; reflexivity. }
    assert (Kc : tv t <> (T_LITERAL, [COMMA])).
    { intros K'. rewrite K' in Hk. destruct Hk as [Hk|(c & Hk & Hs)]; [discriminate|]. injection Hk as <-. discriminate. }
    assert (Kt : t_type t = T_TEXT \/ t_type t = T_LITERAL).
    { destruct Hk as [Hk|(c & Hk & _)]; [left; exact Hk|right]. unfold tv in Hk. injection Hk as Hk _. exact Hk. }
    assert (Ke : token_eqb t EOF_tok = false). { apply tv_in_stop. unfold tv. intros E. injection E as E _. rewrite E in Kt. destruct Kt; discriminate. }
    split; [|split; [|split; [exact Hne|split; [|split]]]].
    - unfold token_in, macro_stops. cbn [app existsb]. rewrite (tv_in_stop t T_LITERAL [COMMA] Kc : token_eqb t comma_tok = false).
      rewrite (tv_in_stop t T_LITERAL (lit ")") (K 41%N ltac:(cbn; tauto)) : token_eqb t rpar_tok = false). rewrite Ke. reflexivity.
    - apply (tv_in_stop t T_LITERAL [BS]). apply K. cbn; tauto.
    - destruct Kt as [-> | ->]; discriminate.
    - apply (K 41%N). cbn; tauto.
    - apply (K QUOTE). cbn; tauto.
  Qed.
  Lemma collect_none stops a q r : (forall t, In t a -> token_in t stops = false /\ token_eqb t escape_tok = false) ->
    token_in q stops = true -> collect_list stops false (a ++ q :: r) = Ok (a, q :: r).
  Proof.
    intros Ha Hq. induction a as [|t a IH]; cbn [app collect_list]; [rewrite Hq; reflexivity|].
    destruct (Ha t (or_introl eq_refl)) as [E1 E2]. rewrite E1, E2, IH; [reflexivity|]. intros u Hu. apply Ha. right; exact Hu.
  Qed.
  Lemma is_tv_no {X} t ty v r (x : X) : tv t <> (ty, v) -> is_tv ty v (t :: r, x) = ((t :: r, x), Ok false).
  Proof.
    intros H. unfold is_tv, peek_is. rewrite peek_hd. unfold check_token. unfold tv in H.
    destruct (tt_eqb_spec (t_type t) ty) as [E|]; cbn [negb]; [|reflexivity].
    destruct (str_eqb_spec (t_value t) v) as [E'|]; cbn [negb]; [|reflexivity]. destruct H. congruence.
  Qed.
  Lemma is_tv_yes {X} t ty v r (x : X) : tv t = (ty, v) -> is_tv ty v (t :: r, x) = ((t :: r, x), Ok true).
  Proof.
    intros H. unfold is_tv, peek_is. rewrite peek_hd. unfold check_token. unfold tv in H. injection H as -> ->. rewrite tt_eqb_refl, str_eqb_refl. reflexivity.
  Qed.
  Lemma is_ty_no {X} t ty r (x : X) : t_type t <> ty -> is_ty ty (t :: r, x) = ((t :: r, x), Ok false).
  Proof.
    intros H. unfold is_ty, peek_is. rewrite peek_hd. unfold check_token. destruct (tt_eqb_spec (t_type t) ty); [contradiction|reflexivity].
  Qed.

  Lemma macro_args_bare w a q r x : bare_args w -> w <> [] -> map tv a = tk w ->
    exists c, tp_macro_args (a ++ mkToken T_LITERAL (lit ")") q :: r, x) = ((mkToken T_LITERAL (lit ")") q :: r, x), Ok (mkToken T_TEXT w c)).
  Proof.
    intros Hw Hne Ha. destruct w as [|c0 w0]; [congruence|]. destruct (tk_ne c0 w0) as (ty & v & ts & Et). rewrite Et in Ha.
    apply map_tv_cons in Ha as (tc & a' & -> & Ha'). set (w := c0 :: w0) in *. set (t := mkToken ty (c0 :: v) tc) in *.
    assert (Hall : forall u, In u (t :: a') -> In (tv u) (tk w)).
    { intros u Hu. rewrite Et. destruct Hu as [<-|Hu]; [left; reflexivity|right]. rewrite <- Ha'. apply in_map, Hu. }
    assert (Hts : forall u, In u (t :: a') -> _) by (intros u Hu; exact (bare_not_stop w u Hw (Hall u Hu))).
    assert (Hco := collect_none (macro_stops ++ [EOF_tok]) (t :: a') (mkToken T_LITERAL (lit ")") q) r
      (fun u Hu => conj (proj1 (Hts u Hu)) (proj1 (proj2 (Hts u Hu)))) eq_refl).
    destruct (Hts t (or_introl eq_refl)) as (_ & _ & _ & H4 & H5 & H6).
    unfold tp_macro_args. cbn [fst]. cbn [length]. rewrite app_length. cbn [length]. rewrite Nat.add_succ_r.
    set (n := length a' + length r).
    assert (Hv : t_value (join_tokens (t :: a') []) = w).
    { rewrite join_value.
      - transitivity (concat_str (map snd (tk w))); [|apply tk_values]. rewrite Et. cbn [map]. rewrite <- Ha', map_map. reflexivity.
      - apply Forall_forall. intros u Hu. apply (Hts u Hu). }
    cbn [tp_args_loop app]. unfold pbind at 1. unfold pbind at 1. rewrite (is_tv_no t T_LITERAL (lit ")") _ x H5).
    unfold pbind at 1. rewrite (is_ty_no t T_EOF _ x H4). cbn [orb].
    unfold pbind at 1. rewrite (is_tv_no t T_LITERAL Q _ x H6).
    unfold pbind at 1. unfold pcollect_join at 1, pcollect at 1. unfold pbind at 1. cbn [fst snd]. cbn [app] in Hco. rewrite Hco. unfold pret at 1.
    unfold pbind at 1. cbn [tp_args_loop]. unfold pbind at 1. rewrite (is_tv_yes (mkToken T_LITERAL (lit ")") q) T_LITERAL (lit ")") r x eq_refl).
    unfold pbind at 1. rewrite (is_ty_no (mkToken T_LITERAL (lit ")") q) T_EOF r x ltac:(discriminate)). cbn [orb]. unfold pret, pbind.
    eexists. unfold from_token_list. cbn [map join]. rewrite Hv. reflexivity.
  Qed.

  Lemma mention_bare_args n : mention_name n -> bare_args n.
  Proof. intros (_ & H & _) c Hc K. apply (H c Hc). cbn in K |- *. tauto. Qed.

  Definition macro_toks (name : str) (o1 c1 o2 o3 : context) (rest : list token) : list token :=
    mkToken T_LITERAL (lit "[") o1 :: mkToken T_TEXT name c1 :: mkToken T_LITERAL (lit "]") o2 :: mkToken T_LITERAL (lit "(") o3 :: rest.

  Lemma macro_mention name n o1 c1 o2 o3 a q r x : mention_name n -> map tv a = tk n -> r <> [] ->
    exists u c, t_value u = n /\ tp_macro e nest (macro_toks name o1 c1 o2 o3 (a ++ mkToken T_LITERAL (lit ")") q :: r), x) =
      (let p := mkParsed [u] [] [] None None in
       if startswith (lit "if") name then tp_control e nest (mkToken T_TEXT name c1) p c
       else if str_eqb name (lit "link") then tp_link nest p c
       else if str_eqb name (lit "header") then tp_header_link nest p c
       else if str_eqb name (lit "mailto") then tp_mailto nest p c
       else if str_eqb name (lit "image") then tp_image p c
       else if str_eqb name (lit "footnote") then tp_footnote p c
       else if str_eqb name (lit "class") then tp_class nest p c
       else if str_eqb name (lit "unicode") then tp_unicode p c
       else if str_eqb name (lit "raw") then tp_raw p c
       else pret [NMacro name (arguments_of p) c]) (r, x).
  Proof.
    intros Hn Ha Hr. destruct (macro_args_bare n a q r x (mention_bare_args n Hn) (proj1 Hn) Ha) as (c & H).
    destruct (mention_args n c Hn) as (u & Hu & Hp). exists u. eexists. split; [exact Hu|].
    unfold macro_toks, tp_macro. unfold pbind at 1. rewrite get_lit by discriminate.
    unfold pbind at 1. rewrite get_type by discriminate.
    unfold pbind at 1. rewrite get_lit by discriminate.
    unfold pbind at 1. rewrite get_lit by (destruct a; discriminate).
    unfold pbind at 1. rewrite H. unfold pbind at 1. rewrite get_lit by exact Hr.
    unfold pbind at 1. unfold plift at 1. rewrite Hp. cbv zeta. cbn [t_value t_ctx]. reflexivity.
  Qed.

  Definition reg_foot (x : tx) (n : str) (c : context) : tx :=
    mkTx (tx_nodes x) (tx_foot x ++ [NFootnote (tx_next x) n c]) (tx_links x) (S (tx_next x)).
  Definition reg_link (x : tx) (n : str) (c : context) : tx :=
    mkTx (tx_nodes x) (tx_foot x) (tx_links x ++ [NHeaderLink (tx_next x) n [] c]) (S (tx_next x)).

  Lemma item_foot words n o1 c1 o2 o3 a q r x : mention_name n -> map tv a = tk n -> r <> [] ->
    exists c, item words (macro_toks (lit "footnote") o1 c1 o2 o3 (a ++ mkToken T_LITERAL (lit ")") q :: r), x) =
      ((r, reg_foot x n c), Ok [NFootnote (tx_next x) n c]).
  Proof.
    intros Hn Ha Hr. unfold tp_item. unfold macro_toks at 1. rewrite skip_backslash by discriminate.
    destruct (macro_mention (lit "footnote") n o1 c1 o2 o3 a q r x Hn Ha Hr) as (u & c & Hu & H). exists c. apply first_ok.
    etransitivity; [exact H|]. subst n. reflexivity.
  Qed.
  Lemma item_head words n o1 c1 o2 o3 a q r x : mention_name n -> map tv a = tk n -> r <> [] ->
    exists c, item words (macro_toks (lit "header") o1 c1 o2 o3 (a ++ mkToken T_LITERAL (lit ")") q :: r), x) =
      ((r, reg_link x n c), Ok [NHeaderLink (tx_next x) n [] c]).
  Proof.
    intros Hn Ha Hr. unfold tp_item. unfold macro_toks at 1. rewrite skip_backslash by discriminate.
    destruct (macro_mention (lit "header") n o1 c1 o2 o3 a q r x Hn Ha Hr) as (u & c & Hu & H). exists c. apply first_ok.
    etransitivity; [exact H|]. subst n. reflexivity.
  Qed.
End Items2.
