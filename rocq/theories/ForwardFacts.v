(* ForwardFacts.v -- a document made of well formed elements is read without error (C86) *)
From Verif Require Export DocFacts.
From Verif Require Import LexerThms ParseFacts LineFacts PropertiesLexer PropertiesLines PropertiesGrammar.
#[local] Notation length := List.length.

(* ------------------------------------------------ tokens that are not the same *)
(* the first token of an element: it has some text, or it is the end of a line *)
Definition visible (t : token) : Prop := t_value t <> [] \/ t_type t = T_EOL.
Fixpoint spaced (toks : list token) : Prop :=
  match toks with [] => True | t :: r => (visible t -> fresh t r) /\ spaced r end.
Lemma spaced_app a b : spaced (a ++ b) -> spaced b.
Proof. induction a as [|t a IH]; [auto|]. cbn [app spaced]. intros [_ H]. auto. Qed.
Notation on_line t := (c_start_line (t_ctx t)).
Fixpoint eol_last (toks : list token) : Prop :=
  match toks with [] => True | t :: r => (t_type t = T_EOL -> Forall (fun u => on_line t < on_line u) r) /\ eol_last r end.
Lemma spaced_of toks : apart toks -> eol_last toks -> spaced toks.
Proof.
  induction toks as [|t toks IH]; [auto|]. intros [A1 A2] [B1 B2]. split; [|auto]. intros [V|V].
  - eapply Forall_impl; [|exact (A1 V)]. auto.
  - eapply Forall_impl; [|exact (B1 V)]. cbv beta. intros u Hu. right. destruct (same_token u t) eqn:E; [|reflexivity].
    apply same_start in E as [E _]. lia.
Qed.
Lemma spaced_snoc body eof : spaced body -> t_type eof = T_EOF -> spaced (body ++ [eof]).
Proof.
  intros H E. induction body as [|t body IH]; [split; [constructor|exact I]|]. destruct H as [H1 H2]. split; [|auto].
  intros V. apply Forall_app. split; [exact (H1 V)|]. constructor; [auto|constructor].
Qed.

Lemma no_eol_last ts : Forall (fun t => t_type t <> T_EOL) ts -> eol_last ts.
Proof. induction 1 as [|t ts H _ IH]; [exact I|]. split; [congruence|exact IH]. Qed.
Lemma eol_last_app a b k : eol_last a -> eol_last b -> Forall (fun t => on_line t <= k) a -> Forall (fun t => k < on_line t) b -> eol_last (a ++ b).
Proof.
  intros Ha Hb Hk Hb'. induction a as [|t a IH]; [exact Hb|]. destruct Ha as [A1 A2]. inversion Hk as [|? ? K1 K2]; subst. cbn [app eol_last]. split; [|auto].
  intros E. apply Forall_app. split; [auto|]. eapply Forall_impl; [|exact Hb']. cbv beta. intros u Hu. lia.
Qed.
Lemma eol_last_plain a b : Forall (fun t => t_type t <> T_EOL) a -> eol_last b -> eol_last (a ++ b).
Proof. intros Ha Hb. induction Ha as [|t a H _ IH]; [exact Hb|]. split; [congruence|exact IH]. Qed.

Lemma reads_eol l ts : reads l ts -> (exists n, l = sps n /\ ts = [(T_EOL, sps n)]) \/ Forall (fun p => fst p <> T_EOL) ts.
Proof.
  intros H. inversion H; subst; try (left; eauto; fail); right; cbn; try (destruct s; cbn); repeat constructor; discriminate.
Qed.
Lemma tv_types (ts : list token) : Forall (fun p => fst p <> T_EOL) (map tv ts) -> Forall (fun t => t_type t <> T_EOL) ts.
Proof. intros H. induction ts as [|t ts IH]; [constructor|]. cbn [map] in H. inversion H; subst. constructor; auto. Qed.
Lemma tokens_in_line lines sl sc src toks p q : tokens_in lines sl sc src toks p q -> Forall (fun t => sl + fst p <= on_line t) toks.
Proof.
  intros H. apply Forall_forall. intros t Ht. destruct (tokens_in_starts _ _ _ _ _ _ _ _ H Ht) as (a & Ha & E).
  unfold shifted in E. destruct a as [a b]. cbn in E. injection E as E _. unfold pos_le in Ha. cbn in Ha. lia.
Qed.

Section Spaced.
  Context (lines : list str) (sl sc : nat) (src : option str).
  Lemma lexed_steps ls r : SpecGrammar.lexed ls r -> forall ts u, r = inl ts -> Forall (no_chr NL) ls -> rest u = ls -> bol u -> wf lines sl sc src u ->
    exists toks v, dsteps u toks v /\ tb_eof v = true /\ map tv toks ++ [(T_EOF, [])] = ts /\ eol_last toks /\ Forall (fun t => sl + tb_line u <= on_line t) toks.
  Proof.
    intros H. induction H as [| |l lts ls r Hrd Hne H IH|c content ls r Hc Ha H IH|content ls r Ha H IH|c ls Hc Ha|ls Ha]; intros ts u E Hn Hr Hb Hw; try discriminate E.
    - assert (ts = [(T_EOF, [])]) as -> by congruence. exists [], u. split; [constructor|]. split; [rewrite (rest_eof _ Hb), Hr; reflexivity|]. split; [reflexivity|]. split; [exact I|constructor].
    - assert (ts = [(T_EOF, [])]) as -> by congruence. exists [], u. split; [constructor|]. split; [rewrite (rest_eof _ Hb), Hr; reflexivity|]. split; [reflexivity|]. split; [exact I|constructor].
    - inversion Hn as [|? ? Hl Hn']; subst. destruct r as [r|r]; [|discriminate E]. assert (ts = lts ++ r) as -> by (cbn in E; congruence).
      destruct (line_step l lts ls u Hrd Hl Hb Hr Hne) as (toks & v & R & He & Ht & Hbv & Hv).
      destruct (doc_good lines sl sc src u toks v (proj1 Hb) Hw He R) as ((W & A & T & _) & C).
      destruct (IH r v eq_refl Hn' Hv Hbv W) as (toks2 & w & S2 & E2 & M2 & L2 & K2). exists (toks ++ toks2), w.
      assert (Hlt : tb_line u < tb_line v) by (destruct A as [[A _]|[_ A]]; [exact A|rewrite C in A; lia]).
      pose proof (tokens_in_line _ _ _ _ _ _ _ T) as TL. cbn [raw fst] in TL.
      split; [econstructor; eassumption|]. split; [exact E2|]. split; [rewrite map_app, <- app_assoc, M2; congruence|]. split.
      + destruct (reads_eol _ _ Hrd) as [(n & Esp & En)|Hno]; [|apply eol_last_plain; [apply tv_types; rewrite Ht; exact Hno|exact L2]].
        rewrite En in Ht. destruct toks as [|t [|]]; try discriminate Ht. 
        split; [|exact L2]. intros _. cbn [app]. eapply Forall_impl; [|exact K2]. cbv beta. intros a Ha.
        (* the token starts on the line of u *)
        assert (on_line t = sl + tb_line u); [|lia].
        destruct (rest_cons _ _ _ Hr) as (Hcl & _ & _).
        rewrite (run_base _ _ He) in R. assert (Ea : all_sp (sps n) = true) by (rewrite all_sp_repeat; unfold sps; rewrite repeat_length; reflexivity). rewrite Hcl, Esp, Ea in R. clear -R Ht Hw Hb. unfold create_token in R. cbn [fst snd] in R.
        apply Ok_inv in R. apply (f_equal fst) in R. cbn [fst] in R. injection R as <-. cbn [t_ctx]. destruct Hw as (_ & W2 & _). cbn. lia.
      + apply Forall_app. split; [exact TL|]. eapply Forall_impl; [|exact K2]. cbv beta. intros; lia.
    - apply Forall_cons_iff in Hn as [_ Hn]. apply Forall_app in Hn as [_ Hn]. apply Forall_cons_iff in Hn as [_ Hn].
      destruct r as [r|r]; [|discriminate E]. assert (ts = block_shape (fence c) content ++ r) as -> by (cbn [prepend] in E; congruence).
      destruct (step_block c content ls u Hc Ha Hb Hr) as (toks & v & R & He & Ht & Hbv & Hv).
      destruct (doc_good lines sl sc src u toks v (proj1 Hb) Hw He R) as ((W & A & T & _) & C).
      destruct (IH r v eq_refl Hn Hv Hbv W) as (toks2 & w & S2 & E2 & M2 & L2 & K2). exists (toks ++ toks2), w.
      assert (Hlt : tb_line u < tb_line v) by (destruct A as [[A _]|[_ A]]; [exact A|rewrite C in A; lia]).
      pose proof (tokens_in_line _ _ _ _ _ _ _ T) as TL. cbn [raw fst] in TL.
      split; [econstructor; eassumption|]. split; [exact E2|]. split; [rewrite map_app, <- app_assoc, M2; congruence|]. split.
      + apply eol_last_plain; [apply tv_types; rewrite Ht; unfold block_shape; destruct content; repeat constructor; discriminate|exact L2].
      + apply Forall_app. split; [exact TL|]. eapply Forall_impl; [|exact K2]. cbv beta. intros; lia.
    - apply Forall_cons_iff in Hn as [_ Hn]. apply Forall_app in Hn as [_ Hn]. apply Forall_cons_iff in Hn as [_ Hn].
      destruct (step_section content ls u Ha Hb Hr) as (v & R & He & Hbv & Hv).
      destruct (doc_good lines sl sc src u [] v (proj1 Hb) Hw He R) as ((W & A & T & _) & C).
      destruct (IH ts v E Hn Hv Hbv W) as (toks2 & w & S2 & E2 & M2 & L2 & K2). exists ([] ++ toks2), w.
      assert (Hlt : tb_line u < tb_line v) by (destruct A as [[A _]|[_ A]]; [exact A|rewrite C in A; lia]).
      split; [econstructor; eassumption|]. split; [exact E2|]. split; [exact M2|]. split; [exact L2|].
      eapply Forall_impl; [|exact K2]. cbv beta. intros; lia.
  Qed.
End Spaced.

Lemma lexed_tokens text o ts : SpecGrammar.lexed (text_lines text) (inl ts) ->
  exists toks, lex_document (buffer text o) = Ok toks /\ map tv toks = ts /\ doc_tokens toks /\ spaced toks.
Proof.
  intros H. unfold buffer. set (sl := o_line o). set (sc := o_column o). set (src := o_source o).
  destruct (lexed_steps (text_lines text) sl sc src _ _ H ts (start_tb (text_lines text) sl sc src) eq_refl (text_lines_no_nl text) eq_refl)
    as (body & v & S1 & E1 & M1 & L1 & _); [split; [reflexivity|cbn; lia]|apply start_wf|].
  rewrite lex_document_init, (lex_lines_eof _ _ _ _ _ _ S1 E1). exists (body ++ [eof_token v]). split; [reflexivity|].
  destruct (steps_facts _ _ _ _ _ _ S1) as (_ & _ & T & Ne).
  split; [rewrite map_app; exact M1|]. split; [exists body, (eof_token v); auto|].
  apply spaced_snoc; [|reflexivity]. apply spaced_of; [eapply tokens_in_apart; exact T|exact L1].
Qed.

(* ------------------------------------------------ the elements, in turn *)
Section Forward.
  Context (cf : config) (run : run_fn).

  Lemma read_forward el rest x x' : doc_tokens (tokens_of el ++ rest) -> shaped el -> maximal el rest -> (forall items, el <> EItems items) ->
    runs (do_element cf run el) x true x' ->
    fn_of cf run el (tokens_of el ++ rest, x) = ((rest, x'), Ok true).
  Proof.
    intros Hd Hs Hm Hl Hact. rewrite <- (Hact rest).
    assert (Hr : forall t r, doc_tokens (t :: r) -> t_type t <> T_EOF -> doc_tokens r) by (intros t r H H1; apply (doc_tokens_cons t r H H1)).
    destruct el as [t|t|o n c [v|]|p t|o op c|o t c|h t|o [t|] c|o ty [[c t]|]|items|ls]; cbn [fn_of tokens_of do_element shaped app opt_list] in *; unfold is_tok, is_literal, is_type in *.
    - unfold dp_eol. rewrite get_ty_ok; [reflexivity|exact Hs|exact Hd|discriminate].
    - unfold dp_rule. rewrite get_ty_ok; [reflexivity|exact Hs|exact Hd|discriminate].
    - destruct Hs as ((H1 & H1') & H2 & (H3 & H3') & H4). inversion H4 as [|? ? H4' _]; subst.
      assert (D1 := Hr _ _ Hd ltac:(congruence)). assert (D2 := Hr _ _ D1 ltac:(congruence)). assert (D3 := Hr _ _ D2 ltac:(congruence)). assert (D4 := Hr _ _ D3 ltac:(congruence)).
      unfold dp_variable. rewrite get_tv_ok by (assumption || discriminate). rewrite get_ty_ok by (assumption || discriminate). rewrite get_tv_ok by (assumption || discriminate).
      rewrite peek_now, H4'. cbn [tt_eqb]. destruct rest; [destruct (doc_tokens_ne _ D4 eq_refl)|]. reflexivity.
    - destruct Hs as ((H1 & H1') & H2 & (H3 & H3') & H4).
      assert (D1 := Hr _ _ Hd ltac:(congruence)). assert (D2 := Hr _ _ D1 ltac:(congruence)). assert (D3 := Hr _ _ D2 ltac:(congruence)).
      unfold dp_variable. rewrite get_tv_ok by (assumption || discriminate). rewrite get_ty_ok by (assumption || discriminate). rewrite get_tv_ok by (assumption || discriminate).
      destruct rest as [|u rest]; [destruct (doc_tokens_ne _ D3 eq_refl)|]. rewrite peek_now. destruct (tt_eqb_spec (t_type u) T_TEXT) as [Eu|_]; [|reflexivity]. destruct Hm. exists u, rest. auto.
    - destruct Hs as (H1 & H2). assert (D1 := Hr _ _ Hd ltac:(congruence)). unfold dp_label. rewrite !get_ty_ok by (assumption || discriminate). reflexivity.
    - destruct Hs as ((H1 & H1') & H2 & H3). assert (D1 := Hr _ _ Hd ltac:(congruence)). assert (D2 := Hr _ _ D1 ltac:(congruence)).
      unfold dp_control. rewrite get_tv_ok by (assumption || discriminate). rewrite !get_ty_ok by (assumption || discriminate). reflexivity.
    - destruct Hs as ((H1 & H1') & H2 & (H3 & H3')). assert (D1 := Hr _ _ Hd ltac:(congruence)). assert (D2 := Hr _ _ D1 ltac:(congruence)).
      unfold dp_arguments. rewrite get_tv_ok by (assumption || discriminate). rewrite get_ty_ok by (assumption || discriminate). rewrite get_tv_ok by (assumption || discriminate). reflexivity.
    - destruct Hs as (H1 & H2). assert (D1 := Hr _ _ Hd ltac:(congruence)). unfold dp_header. rewrite !get_ty_ok by (assumption || discriminate). reflexivity.
    - destruct Hs as (H1 & H2 & H3). inversion H2 as [|? ? H2' _]; subst. assert (D1 := Hr _ _ Hd ltac:(congruence)). assert (D2 := Hr _ _ D1 ltac:(congruence)).
      unfold dp_block. rewrite get_ty_ok by (assumption || discriminate). rewrite peek_now, H2', tt_eqb_refl.
      assert (K : (let* t0 := get_ty T_TEXT in pret (Some t0)) (t :: c :: rest, x) = ((c :: rest, x), Ok (Some t))) by (rewrite get_ty_ok by (assumption || discriminate); reflexivity).
      rewrite (bind_ok _ _ _ _ _ K). rewrite get_ty_ok by (assumption || discriminate). reflexivity.
    - destruct Hs as (H1 & H2 & H3). assert (D1 := Hr _ _ Hd ltac:(congruence)).
      unfold dp_block. rewrite get_ty_ok by (assumption || discriminate). rewrite peek_now, H3. change (tt_eqb T_BLOCK T_TEXT) with false. cbv iota.
      change (pbind (pret None)) with (fun f : option token -> D bool => f None). cbv beta. rewrite get_ty_ok by (assumption || discriminate). reflexivity.
    - destruct Hs as (H1 & H2 & (H3 & H3') & H4). assert (D1 := Hr _ _ Hd ltac:(congruence)). assert (D2 := Hr _ _ D1 ltac:(congruence)). assert (D3 := Hr _ _ D2 ltac:(congruence)).
      unfold dp_include. rewrite !get_ty_ok by (assumption || discriminate). cbv zeta. rewrite !(runs_bind _ _ _ _ _ _ (pop_opt_run x)). rewrite is_tv_now, H3, H3', tt_eqb_refl, str_eqb_refl. cbn [andb].
      destruct (dx_args x) eqn:Hargs; [|unfold pbind at 1; rewrite get_tv_ok by (assumption || discriminate); rewrite get_ty_ok by (assumption || discriminate); reflexivity].
      exfalso. specialize (Hact rest). cbn [do_element] in Hact. rewrite (runs_bind _ _ _ _ _ _ (pop_opt_run x)) in Hact. rewrite Hargs in Hact. apply (f_equal snd) in Hact. discriminate Hact.
    - destruct Hs as (H1 & H2 & _). assert (D1 := Hr _ _ Hd ltac:(congruence)). assert (D2 := Hr _ _ D1 ltac:(congruence)).
      unfold dp_include. rewrite !get_ty_ok by (assumption || discriminate). cbv zeta. unfold dp_pop_args. rewrite !(runs_bind _ _ _ _ _ _ (pop_opt_run x)).
      destruct rest as [|u rest]; [destruct (doc_tokens_ne _ D2 eq_refl)|]. rewrite is_tv_now.
      destruct (tt_eqb_spec (t_type u) T_LITERAL) as [Eu|_]; [destruct (str_eqb_spec (t_value u) (lit ":")) as [Ev|_]|]; [destruct Hm; exists u, rest; split; [reflexivity|split; assumption]| |];
        cbn [andb]; unfold pbind, dp_pop_args_opt, pget, pmod, pret; reflexivity.
    - destruct (Hl items eq_refl).
    - destruct Hs as [H1 H2]. unfold dp_paragraph. destruct (lines_read (S (length (ls ++ rest))) (ls ++ rest) x Hd ltac:(lia)) as (ls' & rest' & E & A1 & A2 & A3 & A4).
      cbn [fst]. rewrite (bind_ok _ _ _ _ _ A4).
      assert (K : ls' = ls /\ rest' = rest).
      { clear - H2 A2 A3 E Hm. revert ls' A2 E. induction ls as [|t ls IH]; intros [|t' ls'] A2 E; cbn in E.
        - split; [reflexivity|]. symmetry. exact E.
        - exfalso. apply Hm. exists t', (ls' ++ rest'). inversion A2; subst. auto.
        - exfalso. apply A3. exists t, (ls ++ rest). inversion H2; subst. auto.
        - injection E as <- E. inversion H2 as [|? ? _ Q1]; inversion A2 as [|? ? _ Q2]; subst. destruct (IH Q1 Hm ls' Q2 E) as [-> ->]. auto. }
      destruct K as [-> ->]. reflexivity.
  Qed.

  (* the items of a list *)
  Lemma reads_items_split its1 its2 : forall items x x', reads_items cf items x (its1 ++ its2) x' ->
    exists a b y, items = a ++ b /\ reads_items cf a x its1 y /\ reads_items cf b y its2 x'.
  Proof.
    induction its1 as [|i its1 IH]; intros items x x' H; [exists [], items, x; split; [reflexivity|]; split; [constructor|exact H]|].
    inversion H as [|h t r x0 n x1 its x2 Hr Hrest E1 E2]; subst. destruct (IH _ _ _ Hrest) as (a & b & y & -> & H1 & H2).
    exists ((h, t) :: a), b, y. split; [reflexivity|]. split; [econstructor; eassumption|exact H2].
  Qed.
  Lemma list_not_stop t : t_type t = T_LIST -> token_in t list_stops = false.
  Proof. intros H. unfold token_in, list_stops. cbn [existsb]. unfold token_eqb. rewrite H. reflexivity. Qed.
  Lemma item_forward h t r x n x1 : t_type h = T_LIST -> t_type t = T_TEXT -> doc_tokens (h :: t :: r) -> runs (dp_do_item cf h t) x n x1 ->
    dp_item cf (h :: t :: r, x) = ((r, x1), Ok n).
  Proof.
    intros H1 H2 Hd R. unfold dp_item. rewrite get_ty_ok by (assumption || discriminate).
    destruct (doc_tokens_cons _ _ Hd) as [D1 _]; [congruence|]. rewrite get_ty_ok by (assumption || discriminate). apply R.
  Qed.
  Lemma items_forward l its nodes : nested l its nodes -> forall items x x' rest n, reads_items cf items x its x' -> Forall pair_types items ->
    list_ends l rest -> doc_tokens (flat_map pair_tokens items ++ rest) -> length (flat_map pair_tokens items ++ rest) < n ->
    dp_items cf n l (flat_map pair_tokens items ++ rest, x) = ((rest, x'), Ok nodes).
  Proof.
    induction 1 as [l|l i its nodes Hl Hn IH|l i subs its inner nodes Hl Hge Hfirst Hin IHin Hn IH]; intros items x x' rest n Hr Hp He Hd Hlt.
    - inversion Hr; subst. cbn [flat_map app] in *. destruct n as [|n]; [lia|]. cbn [dp_items].
      destruct He as (t & r & -> & He). rewrite peek_now. destruct (token_in t list_stops) eqn:Es; [reflexivity|].
      destruct He as [He|[Ht He]]; [congruence|]. rewrite is_ty_now, Ht. cbn [negb tt_eqb]. change (tt_eqb T_LIST T_LIST) with true. cbn [negb].
      destruct (Nat.eqb_spec (length (t_value t)) l); [lia|]. destruct (Nat.ltb_spec l (length (t_value t))); [lia|reflexivity].
    - inversion Hr as [|h t r x0 nd x1 its0 x2 Hrun Hrest E1 E2]; subst. inversion Hp as [|? ? [P1 P2] Hp']; subst. cbn [fst snd] in P1, P2.
      cbn [flat_map pair_tokens fst snd app] in *. destruct n as [|n]; [lia|]. cbn [dp_items]. rewrite peek_now, (list_not_stop _ P1), is_ty_now, P1.
      change (tt_eqb T_LIST T_LIST) with true. cbn [negb]. unfold level, level_of. cbn [fst]. rewrite Nat.eqb_refl.
      rewrite (bind_ok _ _ _ _ _ (item_forward _ _ _ _ _ _ P1 P2 Hd Hrun)).
      destruct (doc_tokens_cons _ _ Hd) as [D1 _]; [congruence|]. destruct (doc_tokens_cons _ _ D1) as [D2 _]; [congruence|].
      rewrite (bind_ok _ _ _ _ _ (IH r x1 x' rest n Hrest Hp' He D2 ltac:(cbn [length] in Hlt; lia))). reflexivity.
    - inversion Hr as [|h t r x0 nd x1 its0 x2 Hrun Hrest E1 E2]; subst. inversion Hp as [|? ? [P1 P2] Hp']; subst. cbn [fst snd] in P1, P2.
      cbn [flat_map pair_tokens fst snd app] in *. destruct n as [|n]; [lia|]. cbn [dp_items]. rewrite peek_now, (list_not_stop _ P1), is_ty_now, P1.
      change (tt_eqb T_LIST T_LIST) with true. cbn [negb]. unfold level, level_of in Hl. cbn [fst] in Hl.
      destruct (Nat.eqb_spec (length (t_value h)) l); [lia|]. destruct (Nat.ltb_spec l (length (t_value h))); [|lia].
      rewrite (bind_ok _ _ _ _ _ (item_forward _ _ _ _ _ _ P1 P2 Hd Hrun)).
      destruct (doc_tokens_cons _ _ Hd) as [D1 _]; [congruence|]. destruct (doc_tokens_cons _ _ D1) as [D2 _]; [congruence|].
      destruct (reads_items_split _ _ _ _ _ Hrest) as (a & b & y & -> & R1 & R2). rewrite flat_map_app, <- app_assoc in *. apply Forall_app in Hp' as [Pa Pb].
      assert (He' : list_ends (length (t_value h)) (flat_map pair_tokens b ++ rest)).
      { inversion R2 as [|h2 t2 r2 x3 n2 x4 its2 x5 _ _ F1 F2]; subst.
        - cbn. destruct He as (u & v & -> & He). exists u, v. split; [reflexivity|]. destruct He as [He|[E He]]; [left; exact He|right; split; [exact E|lia]].
        - inversion Pb as [|? ? [Q1 _] _]; subst. exists h2. eexists. split; [reflexivity|]. right. split; [exact Q1|]. exact (Hfirst _ _ eq_refl). }
      assert (Db : doc_tokens (flat_map pair_tokens b ++ rest)).
      { clear -D2 Pa. induction Pa as [|[u v] a [A1 A2] _ IH]; [exact D2|]. cbn [flat_map pair_tokens fst snd app] in *.
        destruct (doc_tokens_cons _ _ D2) as [D1 _]; [congruence|]. destruct (doc_tokens_cons _ _ D1) as [D0 _]; [congruence|]. auto. }
      assert (Hl1 : length (flat_map pair_tokens a ++ flat_map pair_tokens b ++ rest) < n) by (cbn [length] in Hlt; lia).
      assert (Hl2 : length (flat_map pair_tokens b ++ rest) < n) by (rewrite app_length in Hl1; lia).
      rewrite (bind_ok _ _ _ _ _ (IHin a x1 y _ n R1 Pa He' D2 Hl1)). cbv zeta.
      rewrite (bind_ok _ _ _ _ _ (IH b y x' rest n R2 Pb He Db Hl2)). reflexivity.
  Qed.
  Lemma list_forward items rest x x' : doc_tokens (tokens_of (EItems items) ++ rest) -> shaped (EItems items) -> maximal (EItems items) rest ->
    acts cf run (EItems items) x x' -> dp_list cf (tokens_of (EItems items) ++ rest, x) = ((rest, x'), Ok true).
  Proof.
    intros Hd [_ Hs] (it & its0 & -> & _ & He) (i & its & nodes & x1 & Hr & Hn & Hl).
    inversion Hr as [|h t r x0 nd x2 its1 x3 Hrun Hrest E1 E2]; subst. inversion Hs as [|? ? [P1 P2] Hp']; subst. cbn [fst snd] in P1, P2. unfold is_type in P1, P2.
    rewrite tokens_of_list in *. cbn [flat_map pair_tokens fst snd app] in *. unfold dp_list.
    assert (P : forall A (g : token -> D A) r, pbind (ppeek (Some T_LIST) None None) g (h :: r, x) = g h (h :: r, x)).
    { intros A g r. unfold pbind, ppeek. cbn [fst peek_tok]. rewrite check_ty, P1, tt_eqb_refl. reflexivity. }
    rewrite P. rewrite (bind_ok _ _ _ _ _ (item_forward _ _ _ _ _ _ P1 P2 Hd Hrun)).
    destruct (doc_tokens_cons _ _ Hd) as [D1 _]; [congruence|]. destruct (doc_tokens_cons _ _ D1) as [D2 _]; [congruence|].
    unfold level_of in He. cbn [fst] in He. unfold level, level_of in Hn. cbn [fst] in Hn.
    assert (Hlen : length (flat_map pair_tokens its0 ++ rest) < S (length (fst (h :: t :: flat_map pair_tokens its0 ++ rest, x)))) by (cbn [fst length]; lia).
    rewrite (bind_ok _ _ _ _ _ (items_forward _ _ _ Hn _ _ _ rest _ Hrest Hp' He D2 Hlen)). apply Hl.
  Qed.

  (* the function of the element is the first one that does not give up *)
  Ltac up := intros ?; first [ (unfold dp_eol; apply get_ty_no; congruence) | (unfold dp_rule; apply get_ty_no; congruence)
    | (unfold dp_variable; apply get_tv_no; intros [? _]; congruence) | (unfold dp_label; apply get_ty_no; congruence)
    | (unfold dp_control; apply get_tv_no; intros [? _]; congruence) | (unfold dp_arguments; apply get_tv_no; intros [? _]; congruence)
    | (unfold dp_header; apply get_ty_no; congruence) | (unfold dp_block; apply get_ty_no; congruence)
    | (unfold dp_include; apply get_ty_no; congruence) ].
  Ltac ups := repeat (apply Forall_cons; [first [ up | (apply list_up; congruence) ]|]); apply Forall_nil.
  Lemma element_forward el rest x x' : doc_tokens (tokens_of el ++ rest) -> shaped el -> maximal el rest -> acts cf run el x x' ->
    ptry (dp_fns cf run) (tokens_of el ++ rest, x) = ((rest, x'), Ok true).
  Proof.
    intros Hd Hs Hm Ha.
    assert (Hfn : fn_of cf run el (tokens_of el ++ rest, x) = ((rest, x'), Ok true)).
    { destruct el; try (apply read_forward; [assumption|assumption|assumption|discriminate|exact Ha]). apply list_forward; assumption. }
    destruct (tokens_of el ++ rest) as [|t r] eqn:E; [destruct (doc_tokens_ne _ Hd eq_refl)|]. pose proof (head_typed el rest t r Hs (eq_sym E)) as Ht.
    unfold dp_fns. destruct el; cbn [fn_of head_type] in Hfn, Ht.
    - apply ptry_hit, Hfn.
    - refine (eq_trans (skip_all [dp_eol] _ t r x _) _); [ups|apply ptry_hit, Hfn].
    - refine (eq_trans (skip_all [dp_eol; dp_rule] _ t r x _) _); [ups|apply ptry_hit, Hfn].
    - refine (eq_trans (skip_all [dp_eol; dp_rule; dp_variable] _ t r x _) _); [ups|apply ptry_hit, Hfn].
    - refine (eq_trans (skip_all [dp_eol; dp_rule; dp_variable; dp_label cf] _ t r x _) _); [ups|apply ptry_hit, Hfn].
    - refine (eq_trans (skip_all [dp_eol; dp_rule; dp_variable; dp_label cf; dp_control] _ t r x _) _); [ups|apply ptry_hit, Hfn].
    - refine (eq_trans (skip_all [dp_eol; dp_rule; dp_variable; dp_label cf; dp_control; dp_arguments] _ t r x _) _); [ups|apply ptry_hit, Hfn].
    - refine (eq_trans (skip_all [dp_eol; dp_rule; dp_variable; dp_label cf; dp_control; dp_arguments; dp_header cf] _ t r x _) _); [ups|apply ptry_hit, Hfn].
    - refine (eq_trans (skip_all [dp_eol; dp_rule; dp_variable; dp_label cf; dp_control; dp_arguments; dp_header cf; dp_block run] _ t r x _) _); [ups|apply ptry_hit, Hfn].
    - refine (eq_trans (skip_all [dp_eol; dp_rule; dp_variable; dp_label cf; dp_control; dp_arguments; dp_header cf; dp_block run; dp_include cf run] _ t r x _) _); [ups|apply ptry_hit, Hfn].
    - refine (eq_trans (skip_all [dp_eol; dp_rule; dp_variable; dp_label cf; dp_control; dp_arguments; dp_header cf; dp_block run; dp_include cf run; dp_list cf] _ t r x _) _); [ups|apply ptry_hit, Hfn].
  Qed.

  (* the first token of the element *)
  Definition starts_visible (el : element) : Prop := forall t r, tokens_of el = t :: r -> visible t.
  Lemma loop_forward toks els : made_of toks els -> forall n last x x', doc_tokens toks -> spaced toks -> fresh last toks ->
    Forall starts_visible els -> act_all cf run els x x' -> length toks < n ->
    exists rem, ploop n (dp_fns cf run) last (toks, x) = ((rem, x'), Ok tt).
  Proof.
    induction 1 as [eof He|el rest els Hs Hm Hmade IH]; intros n last x x' Hd Hsp Hf Hv Ha Hn; (destruct n as [|n]; [lia|]).
    - inversion Ha; subst. exists [eof]. apply ploop_eof, He.
    - inversion Ha as [|el0 els0 x0 y z A1 A2]; subst. inversion Hv as [|? ? V1 V2]; subst.
      pose proof (element_forward el rest x y Hd Hs Hm A1) as Hp. pose proof (tokens_of_ne el Hs) as Hne.
      assert (Hcl : ~ exists a, In a (tokens_of el) /\ t_type a = T_EOF).
      { intros (a & Hin & Ea). destruct Hd as (b & e & E & Hb & _). 
        assert (Hr : rest <> []) by (inversion Hmade; [discriminate|]; subst; pose proof (tokens_of_ne _ H); destruct (tokens_of el0); [congruence|discriminate]).
        destruct (exists_last Hr) as (r' & e' & ->). rewrite app_assoc in E. apply app_inj_tail in E as [<- _].
        apply Forall_app in Hb as [Hb _]. exact (proj1 (Forall_forall _ _) Hb a Hin Ea). }
      destruct (tokens_of el) as [|t ts] eqn:Et; [congruence|]. cbn [app] in *.
      assert (Htype : t_type t <> T_EOF) by (intros E; apply Hcl; exists t; split; [left; reflexivity|exact E]).
      rewrite (ploop_step n _ last t _ x _ Htype (fresh_hd _ _ _ Hf Htype) Hp).
      assert (Dr : doc_tokens rest).
      { clear -Hd Hcl. change (t :: ts ++ rest) with ((t :: ts) ++ rest) in Hd. induction (t :: ts) as [|a l IH]; [exact Hd|].
        cbn [app] in Hd. destruct (doc_tokens_cons _ _ Hd) as [D1 _]; [intros E; apply Hcl; exists a; split; [left; reflexivity|exact E]|].
        apply IH; [exact D1|intros (b & B1 & B2); apply Hcl; exists b; split; [right; exact B1|exact B2]]. }
      destruct Hsp as [S1 S2]. apply (IH n t y x' Dr); [apply (spaced_app ts), S2|apply (fresh_app _ ts), S1, (V1 t ts Et)|exact V2|exact A2|].
      cbn [length] in Hn. rewrite app_length in Hn. lia.
  Qed.
  Lemma prun_forward toks els x x' : made_of toks els -> doc_tokens toks -> spaced toks -> Forall starts_visible els -> act_all cf run els x x' ->
    prun (Ok toks) x (dp_fns cf run) = Ok x'.
  Proof.
    intros Hm Hd Hs Hv Ha. unfold prun, pparse. cbn [rbind fst].
    destruct (loop_forward toks els Hm (S (S (2 * length toks))) start_token x x' Hd Hs (fresh_start toks) Hv Ha ltac:(lia)) as [rem ->]. reflexivity.
  Qed.
End Forward.
