(* PropertiesCases.v -- C87: conditions inside a text *)
From Verif Require Import SpecLines LineFacts SpecCases PropertiesCond PropertiesText ParseFacts.
#[local] Notation length := List.length.

Lemma args_cases s no p : cases_written s no p ->
  exists vs, vs = s :: match no with Some s' => [s'] | None => [] end /\ args_read p /\ writes_args (map Pos vs) p /\ Forall (fun v => plain_value v = true) vs /\ no_chr NL p.
Proof.
  assert (R : forall last s p, case_written last s p -> writes s p /\ plain_value s = true /\ no_chr NL p).
  { intros last t q H. destruct H as [t H|t H _].
    - split; [apply w_bare, value_bare, H|]. split; [apply value_plain, H|apply nl_value, H].
    - split; [|split; [apply text_plain_value, H|apply nl_quoted, H]]. pose proof (w_quoted t) as W. rewrite escape_same in W by apply H. apply W. apply inside_quotable, H. }
  intros H. destruct H as [s p H|s p s' p' H H'].
  - exists [s]. split; [reflexivity|]. destruct (R _ _ _ H) as (W & P & N). split; [|split; [apply ws_one, wa_pos, W|split; [constructor; [exact P|constructor]|exact N]]].
    destruct H as [s H|s H _].
    + exact (values_args [s] ltac:(discriminate) (Forall_cons _ H (Forall_nil _))).
    + apply (read_quoted s []); [apply H|apply inside_quotable, H|split; [intros a []|discriminate]].
  - exists [s; s']. split; [reflexivity|]. destruct (R _ _ _ H) as (W & P & N). destruct (R _ _ _ H') as (W' & P' & N').
    assert (C' : no_close p').
    { destruct H' as [s' H'|s' H' L]; [apply value_closed, H'|]. specialize (L eq_refl) as [_ L]. repeat apply no_close_app; [intros a [<-|[]] K; cbn in K; intuition discriminate|exact L|intros a [<-|[]] K; cbn in K; intuition discriminate]. }
    assert (C : no_close (lit ", ")) by (intros a [<-|[<-|[]]] K; cbn in K; intuition discriminate).
    split; [|split; [|split; [repeat constructor; assumption|repeat apply nl_app; [exact N|apply nl_lit; reflexivity|exact N']]]].
    + destruct H as [s H|s H _].
      * pose proof (value_hd s H) as K. pose proof (value_closed s H) as Q. destruct H as (E & _). destruct s as [|c s]; [congruence|]. apply read_rest; [|discriminate]. split; [|exact K]. apply no_close_app; [exact Q|]. apply no_close_app; assumption.
      * replace (([QUOTE] ++ s ++ [QUOTE]) ++ lit ", " ++ p') with ([QUOTE] ++ s ++ [QUOTE] ++ (lit ", " ++ p')) by (rewrite <- !app_assoc; reflexivity).
        apply read_quoted; [apply H|apply inside_quotable, H|]. split; [apply no_close_app; assumption|discriminate].
    + apply (ws_cons (Pos s) p 1 [Pos s'] p'); [apply wa_pos, W|]. apply ws_one, wa_pos, W'.
Qed.

Lemma colon_name c : name_char c -> c <> chr ":".
Proof. intros H ->. vm_compute in H. intuition discriminate. Qed.
Lemma test_colon v equal w : test_ok v equal w -> ~ In (chr ":") (condition_text v [] equal [] w).
Proof.
  intros ((_ & Hv) & _ & _ & Hw) K. unfold condition_text in K. rewrite !in_app_iff in K. destruct K as [K|[[]|[K|[[]|K]]]].
  - exact (colon_name _ (Hv _ K) eq_refl).
  - destruct equal; cbn in K; intuition discriminate.
  - exact (Hw K).
Qed.
Lemma test_name eval v equal w : test_ok v equal w -> macro_name (test_text eval v equal w).
Proof.
  intros (_ & _ & [_ H] & _). split; [destruct eval; discriminate|]. unfold test_text. intros c Hc. rewrite !in_app_iff in Hc. destruct Hc as [Hc|[[<-|[]]|Hc]]; [|split; [|split; discriminate]|exact (H c Hc)].
  - assert (K : forallb (fun a => negb (mem_chr a (SP :: NL :: SPECIAL))) (if eval then lit "ifeval" else lit "if") = true) by (destruct eval; reflexivity).
    apply (proj1 (forallb_forall _ _) K) in Hc. apply negb_true_iff in Hc. repeat split; intros G; rewrite <- not_true_iff_false in Hc; apply Hc, mem_chr_In; [right; right; exact G|left; congruence|right; left; congruence].
  - intros K. vm_compute in K. intuition discriminate.
Qed.
Lemma test_split eval v equal w : test_ok v equal w -> split_on (chr ":") (test_text eval v equal w) = [if eval then lit "ifeval" else lit "if"; condition_text v [] equal [] w].
Proof.
  intros H. unfold test_text. cbn [app]. rewrite (split_on_app (chr ":") (if eval then lit "ifeval" else lit "if")) by (destruct eval; vm_compute; intuition discriminate).
  rewrite split_on_none; [reflexivity|apply test_colon, H].
Qed.

(* what is after the name of a macro *)
Lemma macro_run e nest name w vs o1 c1 o2 o3 a q r x :
  args_read w -> writes_args (map Pos vs) w -> Forall (fun v => plain_value v = true) vs -> map tv a = tk w -> r <> [] ->
  exists p c, map t_value (pa_unnamed p) = vs /\ pa_named p = [] /\
    tp_macro e nest (macro_toks name o1 c1 o2 o3 (a ++ mkToken T_LITERAL (lit ")") q :: r), x) = dispatch e nest (mkToken T_TEXT name c1) p c (r, x).
Proof.
  intros Hr Hw Hp Ha Hne. destruct (Hr a q r x Ha) as (cw & E).
  destruct (values_read e vs w (origin_of (mkToken T_TEXT w cw)) Hw Hp) as (p & P1 & P2 & P3 & P4).
  exists p, (merge_contexts o1 q). split; [exact P2|]. split; [exact P3|].
  unfold macro_toks, tp_macro. unfold pbind at 1. rewrite get_lit by discriminate.
  unfold pbind at 1. rewrite get_type by discriminate.
  unfold pbind at 1. rewrite get_lit by discriminate.
  unfold pbind at 1. rewrite get_lit by (destruct a; discriminate).
  unfold pbind at 1. rewrite E. unfold pbind at 1. rewrite get_lit by exact Hne.
  unfold pbind at 1. unfold plift at 1. unfold process_arguments. cbn [t_value]. rewrite P1. reflexivity.
Qed.
Lemma item_run e nest words o1 name c1 o2 o3 l x s' out : tp_macro e nest (macro_toks name o1 c1 o2 o3 l, x) = (s', Ok out) ->
  tp_item e nest words (macro_toks name o1 c1 o2 o3 l, x) = (s', Ok out).
Proof. intros H. unfold tp_item. unfold macro_toks at 1. rewrite skip_backslash by discriminate. apply first_ok. exact H. Qed.

(* the nodes of the case *)
Definition plain_nodes (ns : list inode) : Prop := Forall (fun n => is_word n = false) ns.
Lemma same_plain ns l : same_all ns l -> plain_nodes ns.
Proof.
  revert l. induction ns as [|n ns IH]; intros l H; [constructor|]. inversion H; subst. constructor; [|eapply IH; eassumption]. destruct n; try reflexivity. match goal with K : same (NWord _ _) _ |- _ => inversion K end.
Qed.
Lemma same_nonempty ns l : same_all ns l -> l <> [] -> ns <> [].
Proof. intros H K ->. inversion H; subst; congruence. Qed.
Lemma same_app a b l m : same_all a l -> same_all b m -> same_all (a ++ b) (l ++ m).
Proof.
  intros H K. revert l H. induction a as [|n a IH]; intros l H; inversion H; subst; [exact K|]. cbn [app]. constructor; [assumption|apply IH; assumption].
Qed.
Lemma group_mid a : forall g n b, is_word n = false -> group_words g (a ++ n :: b) = group_words g a ++ n :: group_words [] b.
Proof.
  induction a as [|m a IH]; intros g n b H; cbn [app group_words]; [rewrite H; reflexivity|]. destruct (is_word m); [apply IH, H|].
  rewrite IH by exact H. rewrite <- app_assoc. reflexivity.
Qed.
Lemma group_plain ns b : plain_nodes ns -> group_words [] (ns ++ b) = ns ++ group_words [] b.
Proof. induction 1 as [|n ns H _ IH]; [reflexivity|]. cbn [app group_words]. rewrite H, IH. reflexivity. Qed.
Lemma group_around a ns b : plain_nodes ns -> ns <> [] -> group_words [] (a ++ ns ++ b) = group_words [] a ++ ns ++ group_words [] b.
Proof.
  intros H K. destruct H as [|n ns H H']; [congruence|]. cbn [app]. rewrite group_mid by exact H. rewrite group_plain by exact H'. reflexivity.
Qed.

Lemma control_run d e V eval v equal w p c yes no b l c1 r x : (forall k, dget k e = V k) -> test_ok v equal w -> holds V v equal w b -> shown_case V eval b yes no l ->
  map t_value (pa_unnamed p) = yes :: match no with Some s => [s] | None => [] end -> pa_named p = [] ->
  exists ns k, dispatch e (nested (S d) e) (mkToken T_TEXT (test_text eval v equal w) c1) p c (r, x) = ((r, mkTx (tx_nodes x) (tx_foot x) (tx_links x) k), Ok ns) /\ same_all ns l.
Proof.
  intros HV T (x0 & Hx & Hb) S P1 P2. pose proof T as (Tv & Tw & _). rewrite <- HV in Hx.
  assert (Sw : startswith (lit "if") (test_text eval v equal w) = true) by (destruct eval; reflexivity).
  unfold dispatch. cbn [t_value]. rewrite Sw. unfold tp_control. cbn [t_value]. rewrite test_split by exact T.
  replace (mem_str (if eval then lit "ifeval" else lit "if") [lit "if"; lit "ifeval"]) with true by (destruct eval; reflexivity). cbn [negb].
  cbv zeta. destruct (parse_condition_line v [] equal [] w (mkOrigin (c_start_line (t_ctx (mkToken T_TEXT (test_text eval v equal w) c1))) (c_start_column (t_ctx (mkToken T_TEXT (test_text eval v equal w) c1)) + 4) (c_source (t_ctx (mkToken T_TEXT (test_text eval v equal w) c1))))
     Tv (fun _ F => match F with end) (fun _ F => match F with end) Tw) as (cx & Pc).
  rewrite Pc. unfold pbind at 1. unfold pret at 1. cbn [cn_variable cn_comparison cn_value].
  assert (Nc : forall cc, new_control (lit "if") v (op_text equal) w cc = Ok (mkControl v equal w cc)) by (intros cc; destruct equal; reflexivity).
  unfold pbind at 1. unfold plift at 1. rewrite Nc.
  assert (Rc : forall cc, run_control e (mkControl v equal w cc) = Ok b).
  { intros cc. unfold run_control. cbn [ct_variable ct_equal ct_value]. rewrite Hx. f_equal.
    assert (K : value_is x0 w = true <-> x0 = EStr w).
    { destruct x0 as [s| | |]; cbn; try (split; discriminate). rewrite str_eqb_eq. split; congruence. }
    destruct equal; destruct b; destruct (value_is x0 w); cbn [negb]; try reflexivity; exfalso; intuition congruence. }
  assert (St : exists t, dget (lit "true_case") (pa_named (pa_set_names p [lit "true_case"; lit "false_case"])) = Some t /\ t_value t = yes /\
     match no with
     | None => dget (lit "false_case") (pa_named (pa_set_names p [lit "true_case"; lit "false_case"])) = None
     | Some s => exists u, dget (lit "false_case") (pa_named (pa_set_names p [lit "true_case"; lit "false_case"])) = Some u /\ t_value u = s
     end).
  { destruct no as [s|].
    - destruct (set_two p yes s P1 P2) as (t & u & Et & Eu & E). rewrite E by discriminate. exists t. split; [reflexivity|]. split; [exact Et|]. exists u. split; [reflexivity|exact Eu].
    - destruct (set_one p yes [lit "true_case"; lit "false_case"] P1 P2 ltac:(discriminate)) as (t & Et & E). rewrite E. exists t. split; [reflexivity|]. split; [exact Et|reflexivity]. }
  destruct St as (t & Et & Ev & En). unfold needed, named_arg. rewrite Et. unfold pbind at 1. unfold pret at 1.
  unfold pbind at 1. unfold plift at 1. rewrite Rc.
  assert (Go : forall s lm ctx, markup s lm -> exists ns k, nested (Datatypes.S d) e s ctx (r, x) = ((r, mkTx (tx_nodes x) (tx_foot x) (tx_links x) k), Ok ns) /\ same_all ns lm).
  { intros s lm ctx (M1 & M2 & M3 & _). exact (nested_reads d e lm s ctx r x M1 M2 M3). }
  assert (Ge : forall u lm, case_means V eval (t_value u) lm -> exists ns k,
    (let* result := (if str_eqb (if eval then lit "ifeval" else lit "if") (lit "ifeval")
        then let* v0 := plift (ifeval_text e (t_value u) c) in pret (Some (vnode v0 (t_ctx u))) else pret (Some u)) in
     match result with Some t0 => nested (Datatypes.S d) e (t_value t0) (origin_of t0) | None => pret [] end) (r, x) = ((r, mkTx (tx_nodes x) (tx_foot x) (tx_links x) k), Ok ns) /\ same_all ns lm).
  { intros u lm M. destruct eval; cbn [case_means] in M.
    - destruct M as (tx & Ex & M). rewrite <- HV in Ex. change (str_eqb (lit "ifeval") (lit "ifeval")) with true. cbn [case_means].
      unfold ifeval_text, env_get. rewrite Ex. unfold pbind, plift, pret. cbn [vnode t_value]. apply Go, M.
    - change (str_eqb (lit "if") (lit "ifeval")) with false. unfold pbind, pret. apply Go, M. }
  destruct S as [s no l M|s s' l M|s Hf].
  - subst s. exact (Ge t l M).
  - destruct En as (u & Eu & <-). rewrite Eu. exact (Ge u l M).
  - rewrite En. subst eval. exists [], (tx_next x). split; [|constructor]. destruct x. reflexivity.
Qed.

(* the loop over a sentence: it ends early after a case that shows nothing *)
Section Sentence.
  Variables (e : env) (d : nat) (V : world) (ok : list itree -> Prop) (HV : forall k, dget k e = V k).
  (* The cases have no mentions. *)
  Definition silent : Prop := forall l ns, ok l -> same_all ns l -> all_foots ns = [] /\ all_heads ns = [].
  Notation nest := (nested (S d) e).
  Notation words := (tp_words e nest).
  Lemma conditional_nil_text o l w : written o l w -> w = [] -> l = [].
  Proof.
    destruct 1; intros E; try discriminate; [reflexivity|]. apply app_eq_nil in E as [E _]. destruct H0; [congruence|discriminate..].
  Qed.
  Lemma conditional_nil l w : conditional V ok l w -> w = [] -> l = [].
  Proof.
    destruct 1 as [l w H|]; intros E; [eapply conditional_nil_text; eassumption|]. apply app_eq_nil in E as [_ E]. discriminate.
  Qed.
  Lemma tk_cases eval v equal w p w2 : test_ok v equal w -> tk (cases_text eval v equal w p ++ w2) =
    [(T_LITERAL, lit "["); (T_TEXT, test_text eval v equal w); (T_LITERAL, lit "]"); (T_LITERAL, lit "(")] ++ tk p ++ (T_LITERAL, lit ")") :: tk w2.
  Proof.
    intros H. unfold cases_text. rewrite <- !app_assoc. exact (tk_macro _ p w2 (test_name eval v equal w H)).
  Qed.

  Lemma registered_app x y z a b : registered x y a -> registered y z b -> registered x z (a ++ b).
  Proof.
    intros (A & B & C) (A' & B' & C'). unfold registered, all_foots, all_heads in *. rewrite !concat_map_app, A', B', C', A, B, C, !app_assoc. auto.
  Qed.
  Lemma sentence_run l w : conditional V ok l w -> forall toks E x n, map tv toks = tk w -> t_type E = T_EOF -> t_value E = [] -> length (toks ++ [E]) < n ->
    exists ns l1 l2 w2 pre toks2 x1, words n text_stops (toks ++ [E], x) = ((toks2 ++ [E], x1), Ok ns) /\ l = l1 ++ l2 /\ same_all (group_words [] ns) l1 /\
      conditional V ok l2 w2 /\ map tv toks2 = tk w2 /\ (tx_nodes x1 = tx_nodes x /\ (silent -> registered x x1 ns)) /\ toks = pre ++ toks2 /\ (toks2 = [] \/ pre <> []).
  Proof.
    assert (HE : forall E, t_type E = T_EOF -> t_value E = [] -> token_in E text_stops = true).
    { intros [ty v c] H1 H2. cbn in H1, H2. subst. reflexivity. }
    assert (HR : reads_texts nest) by apply nested_reads.
    induction 1 as [l w H|l1 w1 eval v equal w yes no p b l l2 w2 H1 Ht Hp Hb Hs Hok H2 IH]; intros toks E x n Htv ET EV Hn.
    - destruct (words_written e nest None l w H (fun _ => HR) toks [E] x n Htv ltac:(discriminate) Hn) as (ns & n' & x' & N & R & S & X).
      cbn [length] in N. destruct n' as [|n']; [lia|]. cbn [stops_of] in R. change [EOF_tok; EOL_tok] with text_stops in R. rewrite words_stop in R by (apply HE; assumption).
      unfold TextFacts.prepend in R. cbn [fst snd rmap] in R. rewrite app_nil_r in R.
      exists ns, l, [], [], toks, [], x'. rewrite !app_nil_r. split; [exact R|]. split; [reflexivity|]. split; [apply spells_group, S|]. split; [apply cn_text; constructor|]. split; [reflexivity|]. split; [split; [exact (proj1 X)|intros _; exact X]|]. split; [reflexivity|]. left; reflexivity.
    - rewrite tk_app in Htv by (apply special_not_plain; reflexivity). apply map_tv_app in Htv as (ta & t1 & -> & Ha & Htv).
      rewrite (tk_cases eval v equal w p w2 Ht) in Htv. cbn [app] in Htv. apply map_tv_cons in Htv as (o1 & t2 & -> & Htv). apply map_tv_cons in Htv as (o2 & t3 & -> & Htv).
      apply map_tv_cons in Htv as (o3 & t4 & -> & Htv). apply map_tv_cons in Htv as (o4 & t5 & -> & Htv).
      apply map_tv_app in Htv as (tp & t6 & -> & Hpp & Htv). apply map_lit in Htv as (o5 & tb & -> & Hb2).
      rewrite <- app_assoc in *. set (R := _ ++ [E]) in *.
      destruct (words_written e nest None l1 w1 H1 (fun _ => HR) ta R x n Ha ltac:(discriminate) Hn) as (ns1 & n' & x' & N & Run & Sp & X).
      assert (ER : R = macro_toks (test_text eval v equal w) o1 o2 o3 o4 (tp ++ mkToken T_LITERAL (lit ")") o5 :: (tb ++ [E]))).
      { unfold R, macro_toks. cbn [app]. rewrite <- app_assoc. reflexivity. }
      destruct (args_cases _ _ _ Hp) as (vs & Evs & Q1 & Q2 & Q3 & _).
      destruct (macro_run e nest (test_text eval v equal w) p vs o1 o2 o3 o4 tp o5 (tb ++ [E]) x' Q1 Q2 Q3 Hpp ltac:(destruct tb; discriminate)) as (pa & c & P1 & P2 & Rm).
      rewrite <- ER in Rm. rewrite Evs in P1.
      destruct (control_run d e V eval v equal w pa c yes no b l o2 (tb ++ [E]) x' HV Ht Hb Hs P1 P2) as (ns & k & Cr & Cs). rewrite Cr in Rm.
      destruct n' as [|n']; [lia|].
      assert (It : tp_item e nest (words n') (R, x') = ((tb ++ [E], mkTx (tx_nodes x') (tx_foot x') (tx_links x') k), Ok ns)).
      { rewrite ER in *. apply item_run. exact Rm. }
      assert (Lb : length (tb ++ [E]) < n'). { rewrite ER in N. unfold macro_toks in N. cbn [length] in N. rewrite app_length in N. cbn [length] in N. lia. }
      cbn [stops_of] in Run. change [EOF_tok; EOL_tok] with text_stops in Run.
      rewrite ER in It, Run. unfold macro_toks in It, Run.
      destruct ns as [|nd ns].
      + inversion Cs; subst l. exists ns1, l1, l2, w2, (ta ++ mkToken T_LITERAL (lit "[") o1 :: mkToken T_TEXT (test_text eval v equal w) o2 :: mkToken T_LITERAL (lit "]") o3 :: mkToken T_LITERAL (lit "(") o4 :: tp ++ [mkToken T_LITERAL (lit ")") o5]), tb, (mkTx (tx_nodes x') (tx_foot x') (tx_links x') k).
        split.
        { rewrite ER. unfold macro_toks. rewrite Run. cbn [tp_words]. unfold pbind at 1, ppeek. cbn [fst peek_tok check_token]. change (token_in (mkToken T_LITERAL (lit "[") o1) text_stops) with false. cbv iota.
          unfold pbind at 1. rewrite It. unfold pret, TextFacts.prepend. cbn [fst snd rmap]. rewrite app_nil_r. reflexivity. }
        split; [reflexivity|]. split; [apply spells_group, Sp|]. split; [exact H2|]. split; [exact Hb2|]. split; [split; [exact (proj1 X)|intros _; exact X]|]. split.
        { rewrite <- !app_assoc. cbn [app]. rewrite <- app_assoc. reflexivity. }
        right. destruct ta; discriminate.
      + destruct (IH tb E (mkTx (tx_nodes x') (tx_foot x') (tx_links x') k) n' Hb2 ET EV Lb) as (ns2 & la & lb & w3 & pre & toks2 & x2 & I1 & I2 & I3 & I4 & I5 & I6 & I7 & I8).
        exists (ns1 ++ (nd :: ns) ++ ns2), (l1 ++ l ++ la), lb, w3, (ta ++ mkToken T_LITERAL (lit "[") o1 :: mkToken T_TEXT (test_text eval v equal w) o2 :: mkToken T_LITERAL (lit "]") o3 :: mkToken T_LITERAL (lit "(") o4 :: tp ++ mkToken T_LITERAL (lit ")") o5 :: pre), toks2, x2.
        split.
        { rewrite ER. unfold macro_toks. rewrite Run.
          rewrite (words_step e nest n' text_stops (mkToken T_LITERAL (lit "[") o1) _ x' _ (nd :: ns) eq_refl ltac:(discriminate) It). rewrite I1.
          unfold TextFacts.prepend. cbn [fst snd rmap]. reflexivity. }
        split; [rewrite I2, !app_assoc; reflexivity|]. split.
        { rewrite group_around; [|eapply same_plain; exact Cs|discriminate]. apply same_app; [apply spells_group, Sp|]. apply same_app; [exact Cs|exact I3]. }
        split; [exact I4|]. split; [exact I5|]. split.
        { split; [rewrite (proj1 I6); exact (proj1 X)|]. intros Q. destruct (Q l (nd :: ns) Hok Cs) as [Z1 Z2]. pose proof (proj2 I6 Q) as Y.
          apply (registered_app _ _ _ _ _ X). apply (registered_app x' (mkTx (tx_nodes x') (tx_foot x') (tx_links x') k)); [|exact Y].
          unfold registered. rewrite Z1, Z2, !app_nil_r. repeat split. }
        split.
        { rewrite I7. rewrite <- !app_assoc. cbn [app]. rewrite <- app_assoc. reflexivity. }
        right. destruct ta; discriminate.
  Qed.

  Lemma apart_app a b : apart (a ++ b) -> apart b.
  Proof. induction a as [|t a IH]; [auto|]. intros [_ H]. exact (IH H). Qed.
  Lemma sentences_run m : forall toks l w x last fuel E, length toks <= m -> conditional V ok l w -> map tv toks = tk w -> t_type E = T_EOF -> t_value E = [] -> apart (toks ++ [E]) ->
    (forall t r, toks = t :: r -> same_token t last = false) -> length toks < fuel ->
    exists s' x', ploop fuel [tp_sentence e nest] last (toks ++ [E], x) = ((s', x'), Ok tt) /\ exists ns, tx_nodes x' = tx_nodes x ++ ns /\ same_all ns l /\
      (silent -> tx_foot x' = tx_foot x ++ all_foots ns /\ tx_links x' = tx_links x ++ all_heads ns).
  Proof.
    induction m as [|m IH]; intros toks l w x last fuel E L H Htv ET EV A Sf F; (destruct fuel as [|fuel]; [lia|]).
    all: destruct toks as [|t toks].
    1,3: cbn [app]; rewrite ploop_eof by exact ET; exists [E], x; split; [reflexivity|]; exists []; rewrite app_nil_r; split; [reflexivity|];
      assert (w = []) as Ew by (destruct w as [|c w]; [reflexivity|]; destruct (tk_ne c w) as (a1 & a2 & a3 & E3); rewrite E3 in Htv; discriminate);
      rewrite (conditional_nil _ _ H Ew); split; [constructor|intros _; unfold all_foots, all_heads; cbn; rewrite !app_nil_r; auto].
    - cbn in L. lia.
    - destruct (sentence_run l w H (t :: toks) E x (S (length ((t :: toks) ++ [E]))) Htv ET EV (Nat.lt_succ_diag_r _)) as (ns & l1 & l2 & w2 & pre & toks2 & x1 & I1 & -> & I3 & I4 & I5 & I6 & I7 & I8).
      pose proof (tk_inline w) as Ti. rewrite <- Htv in Ti. inversion Ti as [|? ? [Tt Tn] Ti']; subst.
      assert (Ht : t_type t <> T_EOF). { unfold tv in Tt. cbn in Tt. destruct Tt as [K|K]; rewrite K; discriminate. }
      change ((t :: toks) ++ [E]) with (t :: (toks ++ [E])) in *.
      rewrite (ploop_step fuel [tp_sentence e nest] last t (toks ++ [E]) x (toks2 ++ [E], mkTx (tx_nodes x1 ++ group_words [] ns) (tx_foot x1) (tx_links x1) (tx_next x1)) Ht (Sf t toks eq_refl)).
      + assert (L2 : length toks2 <= m /\ length toks2 < fuel).
        { destruct pre as [|t' pre]; [destruct I8 as [->|]; [cbn; cbn in F, L; lia|congruence]|]. cbn [app] in I7. injection I7 as _ I7. cbn in L, F. rewrite I7, app_length in L, F. lia. }
        assert (A2 : apart (toks2 ++ [E])). { apply (apart_app pre). rewrite app_assoc, <- I7. exact A. }
        destruct (IH toks2 l2 w2 (mkTx (tx_nodes x1 ++ group_words [] ns) (tx_foot x1) (tx_links x1) (tx_next x1)) t fuel E (proj1 L2) I4 I5 ET EV A2) as (s' & x' & J1 & ns2 & J2 & J3 & J4).
        * intros t2 r E2. destruct A as [A _]. specialize (A Tn). destruct I8 as [->|I8]; [discriminate|]. destruct pre as [|t' pre]; [congruence|]. cbn [app] in I7. injection I7 as _ I7.
          rewrite Forall_forall in A. apply A. apply in_or_app. left. rewrite I7, E2. apply in_or_app. right. left. reflexivity.
        * apply L2.
        * exists s', x'. split; [exact J1|]. exists (group_words [] ns ++ ns2). cbn [tx_nodes] in J2. rewrite J2, (proj1 I6), app_assoc. split; [reflexivity|]. split; [apply same_app; assumption|].
          intros Q. destruct (J4 Q) as [Y1 Y2]. destruct (proj2 I6 Q) as (_ & Z1 & Z2). cbn [tx_foot tx_links] in Y1, Y2.
          destruct (foots_group ns []) as [G1 G2]. unfold all_foots, all_heads in *. rewrite !concat_map_app, Y1, Y2, Z1, Z2, G1, G2, !app_assoc. auto.
      + cbn [ptry]. unfold pbind at 1, pwith. unfold tp_sentence. cbn [fst]. unfold pbind at 1. rewrite I1. unfold pbind, pmod, pret. cbn [fst snd]. reflexivity.
  Qed.
End Sentence.

Lemma nl_cases s no p : cases_written s no p -> no_chr NL p.
Proof. intros H. destruct (args_cases _ _ _ H) as (vs & _ & _ & _ & _ & N). exact N. Qed.
Lemma nl_conditional V ok l w : conditional V ok l w -> no_chr NL w.
Proof.
  induction 1 as [l w H|l1 w1 eval v equal w yes no p b l l2 w2 H1 Ht Hp Hb Hs Hok H2 IH]; [eapply nl_written; exact H|].
  apply nl_app; [eapply nl_written; exact H1|]. apply nl_app; [|exact IH]. unfold cases_text.
  apply nl_app; [apply nl_lit; reflexivity|]. apply nl_app; [apply nl_name, test_name, Ht|]. apply nl_app; [apply nl_lit; reflexivity|]. apply nl_app; [eapply nl_cases; exact Hp|apply nl_lit; reflexivity].
Qed.

Lemma conditional_run d e V ok o next l w k : (forall j, dget j e = V j) -> conditional V ok l w -> no_space_end w -> (w = [] -> k = 0) ->
  exists x, tp_run (S (S d)) e (w ++ repeat SP k) o next = Ok x /\ same_all (tx_nodes x) l /\
    (silent ok -> tx_foot x = all_foots (tx_nodes x) /\ tx_links x = all_heads (tx_nodes x)).
Proof.
  intros HV H Hend Hk. destruct (lex_line w k o (nl_conditional _ _ _ _ H) Hend Hk) as (toks & c & Hlex & Htv).
  assert (A : apart (toks ++ [mkToken T_EOF [] c])).
  { destruct (lexed_text text_next text_lexer_fns lex_text_ok (w ++ repeat SP k) (o_line o) (o_column o) (o_source o)) as (ts & H1 & _ & H2).
    unfold buffer in Hlex. change lex_text with (lex text_lexer_fns) in Hlex. rewrite H1 in Hlex. injection Hlex as <-. exact H2. }
  rewrite run_unfold, Hlex. unfold prun. cbn [rbind]. unfold pparse. cbn [fst].
  destruct (sentences_run e d V ok HV (length toks) toks l w (tx_init next) start_token (S (S (2 * length (toks ++ [mkToken T_EOF [] c])))) (mkToken T_EOF [] c) (le_n _) H Htv eq_refl eq_refl A) as (s' & x' & R & ns & N & S & F).
  - intros t r E. apply start_token_same. pose proof (tk_inline w) as Ti. rewrite <- Htv, E in Ti. inversion Ti as [|? ? [[K|K] _] _]; subst; unfold tv in K; cbn in K; rewrite K; discriminate.
  - rewrite app_length. lia.
  - rewrite R. exists x'. split; [reflexivity|]. cbn [snd]. rewrite N. split; [exact S|exact F].
Qed.
(* C87: a text with conditions gives the nodes of its text and of the cases that are shown. *)
Theorem C87_conditional_text d e o next l w k : conditional (of_env e) any l w -> no_space_end w -> (w = [] -> k = 0) ->
  exists x, tp_run (S (S d)) e (w ++ repeat SP k) o next = Ok x /\ same_all (tx_nodes x) l.
Proof.
  intros H Hend Hk. destruct (conditional_run d e (of_env e) any o next l w k (fun _ => eq_refl) H Hend Hk) as (x & E & S & _). exists x. split; assumption.
Qed.

(* ------------------------------------------------ errors *)
Lemma item_error e nest words o1 name c1 o2 o3 l x s' m : tp_macro e nest (macro_toks name o1 c1 o2 o3 l, x) = (s', Exc (ExMau m)) ->
  tp_item e nest words (macro_toks name o1 c1 o2 o3 l, x) = ((macro_toks name o1 c1 o2 o3 l, snd s'), Exc (ExMau m)).
Proof. intros H. unfold tp_item. unfold macro_toks at 1. rewrite skip_backslash by discriminate. fold (macro_toks name o1 c1 o2 o3 l). cbn [tp_first]. unfold pbind, pwith. rewrite H. reflexivity. Qed.

(* what every condition does up to the test *)
Lemma control_start e nest eval v equal w p c yes no c1 r x : test_ok v equal w ->
  map t_value (pa_unnamed p) = yes :: match no with Some s => [s] | None => [] end -> pa_named p = [] ->
  exists cc t o, t_value t = yes /\ match no with Some s => exists u, o = Some u /\ t_value u = s | None => o = None end /\
    dispatch e nest (mkToken T_TEXT (test_text eval v equal w) c1) p c (r, x) =
    match run_control e (mkControl v equal w cc) with
    | Exc ex => ((r, x), Exc ex)
    | Ok b => (let* result := (if str_eqb (if eval then lit "ifeval" else lit "if") (lit "ifeval")
                 then match (if b : bool then Some t else o) with
                      | None => praise (parser_error "The test result is negative but no value has been defined for that case." (Some c))
                      | Some u => let* v0 := plift (ifeval_text e (t_value u) c) in pret (Some (vnode v0 (t_ctx u)))
                      end
                 else pret (if b then Some t else o)) in
               match result with Some t0 => nest (t_value t0) (origin_of t0) | None => pret [] end) (r, x)
    end.
Proof.
  intros T P1 P2. pose proof T as (Tv & Tw & _).
  assert (Sw : startswith (lit "if") (test_text eval v equal w) = true) by (destruct eval; reflexivity).
  unfold dispatch. cbn [t_value]. rewrite Sw. unfold tp_control. cbn [t_value]. rewrite test_split by exact T.
  replace (mem_str (if eval then lit "ifeval" else lit "if") [lit "if"; lit "ifeval"]) with true by (destruct eval; reflexivity). cbn [negb].
  cbv zeta. destruct (parse_condition_line v [] equal [] w (mkOrigin (c_start_line (t_ctx (mkToken T_TEXT (test_text eval v equal w) c1))) (c_start_column (t_ctx (mkToken T_TEXT (test_text eval v equal w) c1)) + 4) (c_source (t_ctx (mkToken T_TEXT (test_text eval v equal w) c1))))
     Tv (fun _ F => match F with end) (fun _ F => match F with end) Tw) as (cx & Pc).
  rewrite Pc. unfold pbind at 1. unfold pret at 1. cbn [cn_variable cn_comparison cn_value].
  assert (Nc : forall cc, new_control (lit "if") v (op_text equal) w cc = Ok (mkControl v equal w cc)) by (intros cc; destruct equal; reflexivity).
  unfold pbind at 1. unfold plift at 1. rewrite Nc.
  assert (St : exists t, dget (lit "true_case") (pa_named (pa_set_names p [lit "true_case"; lit "false_case"])) = Some t /\ t_value t = yes /\
     match no with
     | None => dget (lit "false_case") (pa_named (pa_set_names p [lit "true_case"; lit "false_case"])) = None
     | Some s => exists u, dget (lit "false_case") (pa_named (pa_set_names p [lit "true_case"; lit "false_case"])) = Some u /\ t_value u = s
     end).
  { destruct no as [s|].
    - destruct (set_two p yes s P1 P2) as (t & u & Et & Eu & E). rewrite E by discriminate. exists t. split; [reflexivity|]. split; [exact Et|]. exists u. split; [reflexivity|exact Eu].
    - destruct (set_one p yes [lit "true_case"; lit "false_case"] P1 P2 ltac:(discriminate)) as (t & Et & E). rewrite E. exists t. split; [reflexivity|]. split; [exact Et|reflexivity]. }
  destruct St as (t & Et & Ev & En). unfold needed, named_arg. rewrite Et. unfold pbind at 1. unfold pret at 1.
  unfold pbind at 1. unfold plift at 1.
  exists c1, t, (dget (lit "false_case") (pa_named (pa_set_names p [lit "true_case"; lit "false_case"]))). split; [exact Ev|]. split.
  { destruct no as [s|]; [|exact En]. destruct En as (u & -> & Eu). eauto. }
  unfold named_arg, pbind, plift, praise, pret. destruct (run_control e _) as [b|ex]; [|reflexivity]. cbv zeta beta.
  change (str_eqb (lit "ifeval") (lit "ifeval")) with true. change (str_eqb (lit "if") (lit "ifeval")) with false.
  destruct eval; destruct b; try reflexivity; destruct (dget (lit "false_case") _); reflexivity.
Qed.
Lemma holds_control e v equal w b cc : holds (of_env e) v equal w b -> run_control e (mkControl v equal w cc) = Ok b.
Proof.
  intros (x0 & Hx & Hb). unfold of_env in Hx. unfold run_control. cbn [ct_variable ct_equal ct_value]. rewrite Hx. f_equal.
  assert (K : value_is x0 w = true <-> x0 = EStr w).
  { destruct x0 as [s| | |]; cbn; try (split; discriminate). rewrite str_eqb_eq. split; congruence. }
  destruct equal; destruct b; destruct (value_is x0 w); cbn [negb]; try reflexivity; exfalso; intuition congruence.
Qed.
Lemma keys_default e name : (forall k, In k (keys e) -> k <> name /\ forall r, k <> name ++ DOT :: r) -> env_get e name = FDefault.
Proof.
  intros H. unfold env_get. destruct (dget name e) as [x|] eqn:E.
  - apply dget_in in E. destruct (H name) as [K _]; [|congruence]. apply in_map_iff. exists (name, x). auto.
  - replace (filter _ e) with (@nil (str * env_val)); [reflexivity|]. symmetry. clear E. induction e as [|[k x] e IH]; [reflexivity|]. cbn [filter fst].
    destruct (startswith (name ++ [DOT]) k) eqn:S.
    + apply startswith_firstn in S. destruct (H k (or_introl eq_refl)) as [_ K]. destruct (K (skipn (length (name ++ [DOT])) k)). rewrite <- (firstn_skipn (length (name ++ [DOT])) k) at 1. rewrite S, <- app_assoc. reflexivity.
    + apply IH. intros j Hj. apply H. right. exact Hj.
Qed.
Lemma refused_name e m msg : refused e m msg -> exists name yes no p, macro_name name /\ cases_written yes no p /\ m = lit "[" ++ name ++ lit "](" ++ p ++ lit ")" /\
  forall nest pa c c1 r x, map t_value (pa_unnamed pa) = yes :: match no with Some s => [s] | None => [] end -> pa_named pa = [] ->
    exists s' ce, dispatch e nest (mkToken T_TEXT name c1) pa c (r, x) = (s', Exc (parser_error msg (Some ce))).
Proof.
  destruct 1 as [eval v equal w yes no p T P U|v equal w yes p T P U|v equal w yes no p b name T P U B N|op test yes no p F O1 O2 C1 C2 M P].
  - exists (test_text eval v equal w), yes, no, p. split; [apply test_name, T|]. split; [exact P|]. split; [reflexivity|]. intros nest pa c c1 r x P1 P2.
    destruct (control_start e nest eval v equal w pa c yes no c1 r x T P1 P2) as (cc & t & o & _ & _ & ->). unfold run_control. cbn [ct_variable ct_ctx]. rewrite U. eauto.
  - exists (test_text true v equal w), yes, None, p. split; [apply test_name, T|]. split; [exact P|]. split; [reflexivity|]. intros nest pa c c1 r x P1 P2.
    destruct (control_start e nest true v equal w pa c yes None c1 r x T P1 P2) as (cc & t & o & _ & -> & ->). rewrite (holds_control _ _ _ _ _ cc U).
    change (str_eqb (lit "ifeval") (lit "ifeval")) with true. unfold pbind, praise. eauto.
  - exists (test_text true v equal w), yes, no, p. split; [apply test_name, T|]. split; [exact P|]. split; [reflexivity|]. intros nest pa c c1 r x P1 P2.
    destruct (control_start e nest true v equal w pa c yes no c1 r x T P1 P2) as (cc & t & o & Et & Eo & ->). rewrite (holds_control _ _ _ _ _ cc U).
    change (str_eqb (lit "ifeval") (lit "ifeval")) with true.
    assert (K : exists u, (if b then Some t else o) = Some u /\ t_value u = name).
    { destruct b; [exists t; split; congruence|]. rewrite B in Eo. exact Eo. }
    destruct K as (u & -> & Eu). rewrite Eu. unfold ifeval_text. rewrite (keys_default e name N). unfold pbind, plift. eauto.
  - exists (op ++ [chr ":"] ++ test), yes, no, p. split; [exact M|]. split; [exact P|]. split; [reflexivity|]. intros nest pa c c1 r x P1 P2.
    unfold dispatch. cbn [t_value].
    assert (Sw : startswith (lit "if") (op ++ [chr ":"] ++ test) = true).
    { destruct op as [|a [|b op]]; [discriminate F..|]. cbn [firstn] in F. change (lit "if") with [105%N; 102%N] in F. assert (a = 105%N) as -> by congruence. assert (b = 102%N) as -> by congruence. reflexivity. }
    rewrite Sw. unfold tp_control. cbn [t_value]. cbn [app]. rewrite split_on_app by exact C1. rewrite split_on_none by exact C2.
    replace (mem_str op [lit "if"; lit "ifeval"]) with false.
    + cbn [negb]. unfold praise. eauto.
    + symmetry. cbn [mem_str existsb]. destruct (str_eqb_spec op (lit "if")); [contradiction|]. destruct (str_eqb_spec op (lit "ifeval")); [contradiction|]. reflexivity.
Qed.

(* C87: what these conditions make of a text. *)
Theorem C87_condition_errors d e o next l1 w1 m msg w2 : written None l1 w1 -> refused e m msg -> no_chr NL w2 -> no_space_end (w1 ++ m ++ w2) ->
  exists c, tp_run (S (S d)) e (w1 ++ m ++ w2) o next = Exc (parser_error msg (Some c)).
Proof.
  intros H1 H2 N Hend. destruct (refused_name e m msg H2) as (name & yes & no & p & M & P & -> & D). destruct (args_cases _ _ _ P) as (vs & Evs & Q1 & Q2 & Q3 & Np).
  assert (Nl : no_chr NL (w1 ++ (lit "[" ++ name ++ lit "](" ++ p ++ lit ")") ++ w2)).
  { apply nl_app; [eapply nl_written; exact H1|]. apply nl_app; [|exact N]. apply nl_app; [apply nl_lit; reflexivity|]. apply nl_app; [apply nl_name, M|]. apply nl_app; [apply nl_lit; reflexivity|]. apply nl_app; [exact Np|apply nl_lit; reflexivity]. }
  destruct (lex_line _ 0 o Nl Hend ltac:(reflexivity)) as (toks & c & Hlex & Htv). cbn [repeat] in Hlex. rewrite app_nil_r in Hlex.
  rewrite run_unfold, Hlex. unfold prun. cbn [rbind]. unfold pparse. cbn [fst].
  rewrite tk_app in Htv by (apply special_not_plain; reflexivity). apply map_tv_app in Htv as (ta & t1 & -> & Ha & Htv).
  rewrite <- !app_assoc in Htv. rewrite (tk_macro name p w2 M) in Htv. cbn [app] in Htv.
  apply map_tv_cons in Htv as (o1 & t2 & -> & Htv). apply map_tv_cons in Htv as (o2 & t3 & -> & Htv).
  apply map_tv_cons in Htv as (o3 & t4 & -> & Htv). apply map_tv_cons in Htv as (o4 & t5 & -> & Htv).
  apply map_tv_app in Htv as (tp & t6 & -> & Hpp & Htv). apply map_lit in Htv as (o5 & tb & -> & Hb2).
  set (E := mkToken T_EOF [] c). set (nest := nested (S d) e).
  set (R := macro_toks name o1 o2 o3 o4 (tp ++ mkToken T_LITERAL (lit ")") o5 :: (tb ++ [E]))).
  match goal with |- context [ploop _ _ _ (?l, _)] => replace l with (ta ++ R) by (unfold R, macro_toks; rewrite <- !app_assoc; cbn [app]; rewrite <- !app_assoc; reflexivity) end.
  destruct (words_written e nest None l1 w1 H1 (fun _ => nested_reads d e) ta R (tx_init next) (S (length (ta ++ R))) Ha ltac:(discriminate) (Nat.lt_succ_diag_r _)) as (ns1 & n' & x' & L & Run & _).
  destruct n' as [|n']; [lia|].
  destruct (macro_run e nest name p vs o1 o2 o3 o4 tp o5 (tb ++ [E]) x' Q1 Q2 Q3 Hpp ltac:(destruct tb; discriminate)) as (pa & cp & P1 & P2 & Rm). fold R in Rm. rewrite Evs in P1.
  destruct (D nest pa cp o2 (tb ++ [E]) x' P1 P2) as (s' & ce & Dd). rewrite Dd in Rm. exists ce.
  assert (It : tp_item e nest (tp_words e nest n') (R, x') = ((R, snd s'), Exc (parser_error msg (Some ce)))) by (apply item_error; exact Rm).
  assert (W : exists s2, tp_words e nest (S (length (ta ++ R))) text_stops (ta ++ R, tx_init next) = (s2, Exc (parser_error msg (Some ce)))).
  { cbn [stops_of] in Run. change [EOF_tok; EOL_tok] with text_stops in Run. rewrite Run. unfold R, macro_toks in It |- *. cbn [tp_words]. unfold pbind at 1, ppeek. cbn [fst peek_tok check_token].
    change (token_in (mkToken T_LITERAL (lit "[") o1) text_stops) with false. cbv iota. unfold pbind at 1. rewrite It. unfold TextFacts.prepend. cbn [fst snd rmap]. eauto. }
  destruct W as (s2 & W).
  assert (Hd : exists t r, ta ++ R = t :: r /\ t_type t <> T_EOF).
  { destruct ta as [|t ta]; [eexists _, _; split; [reflexivity|discriminate]|]. exists t, (ta ++ R). split; [reflexivity|].
    pose proof (tk_inline w1) as Ti. rewrite <- Ha in Ti. inversion Ti as [|? ? [[K|K] _] _]; subst; unfold tv in K; cbn in K; rewrite K; discriminate. }
  destruct Hd as (t & r & Er & Ht). rewrite Er in *.
  rewrite (ploop_exc _ [tp_sentence e nest] start_token t r (tx_init next) (t :: r, snd s2) (parser_error msg (Some ce)) Ht (start_token_same t Ht)).
  - reflexivity.
  - cbn [ptry]. unfold pbind at 1, pwith. unfold tp_sentence. cbn [fst]. unfold pbind at 1. rewrite W. reflexivity.
Qed.

(* ------------------------------------------------ an example *)
Definition case_env : env := [(lit "lang", EStr (lit "en")); (lit "hello", EStr (lit "*Hi*"))].
Definition case_text : str := lit "Say [if:lang==en](""Well *met*"", ciao) or [ifeval:lang!=it](hello)[if:lang==it](x) end".
Definition case_tree : list itree :=
  [IText (lit "Say "); IText (lit "Well "); IStyle Star [IText (lit "met")]; IText (lit " or "); IStyle Star [IText (lit "Hi")]; IText (lit " end")].
Lemma text_one (s : string) : forallb (fun c => negb (mem_chr c (NL :: MARKUP))) (lit s) = true -> lit s <> [] -> written None [IText (lit s)] (lit s).
Proof. intros H N. pose proof (text_then None (lit s) [] [] N H) as K. rewrite app_nil_r in K. apply K; [intros (u & r & E); discriminate E|constructor]. Qed.
Ltac in_list := let c := fresh in let K := fresh in intros c K; cbn in K; repeat (destruct K as [<-|K]; [vm_compute; intuition discriminate|]); destruct K.
Lemma test_literal : forall v w : string, forallb is_name_chr (lit v) = true -> lit v <> [] -> forallb (fun c => negb (mem_chr c (SP :: NL :: chr ":" :: SPECIAL))) (lit v ++ lit w) = true -> forall equal, test_ok (lit v) equal (lit w).
Proof.
  intros v w H Hn K equal. rewrite forallb_forall in K.
    assert (Q : forall c, In c (lit v ++ lit w) -> ~ In c (SP :: NL :: chr ":" :: SPECIAL)) by (intros c Hc G; specialize (K c Hc); apply negb_true_iff in K; apply mem_chr_In in G; congruence).
    repeat split.
    - exact Hn.
    - intros c Hc. rewrite forallb_forall in H. specialize (H c Hc). apply name_chr_spec. exact H.
    - intros G. apply (Q NL); [apply in_or_app; right; exact G|right; left; reflexivity].
    - intros G. destruct (lit w) as [|c r] eqn:E; [discriminate|]. cbn in G. injection G as ->. apply (Q SP); [apply in_or_app; right; left; reflexivity|left; reflexivity].
    - unfold condition_text. intros G. apply app_eq_nil in G as [G _]. contradiction.
    - intros G. unfold condition_text in H0. rewrite !in_app_iff in H0. destruct H0 as [X|[[]|[X|[[]|X]]]]; [apply (Q c); [apply in_or_app; left; exact X|right; right; right; exact G]|destruct equal; cbn in X; repeat (destruct X as [<-|X]; [vm_compute in G; intuition discriminate|]); destruct X|apply (Q c); [apply in_or_app; right; exact X|right; right; right; exact G]].
    - intros ->. unfold condition_text in H0. rewrite !in_app_iff in H0. destruct H0 as [X|[[]|[X|[[]|X]]]]; [apply (Q SP); [apply in_or_app; left; exact X|left; reflexivity]|destruct equal; cbn in X; intuition discriminate|apply (Q SP); [apply in_or_app; right; exact X|left; reflexivity]].
    - intros ->. unfold condition_text in H0. rewrite !in_app_iff in H0. destruct H0 as [X|[[]|[X|[[]|X]]]]; [apply (Q NL); [apply in_or_app; left; exact X|right; left; reflexivity]|destruct equal; cbn in X; intuition discriminate|apply (Q NL); [apply in_or_app; right; exact X|right; left; reflexivity]].
    - intros G. apply (Q (chr ":")); [apply in_or_app; right; exact G|right; right; left; reflexivity].
Qed.
Lemma value_literal : forall s : string, forallb (fun c => negb (mem_chr c (lit ")\=,#*@ " ++ [QUOTE; NL]))) (lit s) = true -> lit s <> [] -> macro_value (lit s).
Proof.
  intros s H Hn. rewrite forallb_forall in H.
    assert (Q : forall c, In c (lit s) -> ~ In c (lit ")\=,#*@ " ++ [QUOTE; NL])) by (intros c Hc G; specialize (H c Hc); apply negb_true_iff in H; apply mem_chr_In in G; congruence).
    split; [exact Hn|]. split; [intros c Hc G; apply (Q c Hc); vm_compute in G |- *; intuition|]. split; [|split].
    - destruct (lit s) as [|c r]; [discriminate|]. cbn. intros G. injection G as ->. apply (Q SP); [left; reflexivity|vm_compute; intuition].
    - destruct (rev (lit s)) as [|c r] eqn:E; [discriminate|]. cbn. intros G. injection G as ->. apply (Q SP); [apply in_rev; rewrite E; left; reflexivity|vm_compute; intuition].
    - intros c r E G. apply (Q c); [rewrite E; left; reflexivity|vm_compute in G |- *; intuition].
Qed.
Lemma star_markup : forall s : string, forallb (fun c => negb (mem_chr c (NL :: MARKUP))) (lit s) = true -> lit s <> [] -> mem_chr QUOTE (lit s) = false -> hd_error (rev (lit s)) <> Some SP ->
    markup (lit "*" ++ lit s ++ lit "*") [IStyle Star [IText (lit s)]].
Proof.
  intros s H N Q E. split; [|split; [|split; [|discriminate]]].
    - pose proof (wr_style None Star [IText (lit s)] (lit s) [] []) as K. apply K; [discriminate| |constructor]. pose proof (text_then (Some Star) (lit s) [] [] N H) as K2. rewrite app_nil_r in K2. apply K2; [intros (u & r & G); discriminate G|constructor].
    - rewrite !in_app_iff. intros [G|[G|G]]; [cbn in G; intuition discriminate|apply mem_chr_In in G; congruence|cbn in G; intuition discriminate].
    - rewrite !rev_app_distr. discriminate.
Qed.
Lemma case_example V (ok : list itree -> Prop) : V (lit "lang") = Some (EStr (lit "en")) -> V (lit "hello") = Some (EStr (lit "*Hi*")) ->
  ok [IText (lit "Well "); IStyle Star [IText (lit "met")]] -> ok [IStyle Star [IText (lit "Hi")]] -> ok [] -> conditional V ok case_tree case_text.
Proof.
  intros H1 H2 H3 H4 H5.
  apply (cn_cases V ok [IText (lit "Say ")] (lit "Say ") false (lit "lang") true (lit "en") (lit "Well *met*") (Some (lit "ciao")) (lit """Well *met*"", ciao") true [IText (lit "Well "); IStyle Star [IText (lit "met")]]
      [IText (lit " or "); IStyle Star [IText (lit "Hi")]; IText (lit " end")] (lit " or [ifeval:lang!=it](hello)[if:lang==it](x) end")).
    + apply text_one; [reflexivity|discriminate].
    + apply test_literal; [reflexivity|discriminate|reflexivity].
    + apply (cs_two (lit "Well *met*") (lit """Well *met*""") (lit "ciao") (lit "ciao")).
      * apply (ca_quoted false (lit "Well *met*")); [|discriminate]. split; [vm_compute; intuition discriminate|]. split; [vm_compute; intuition discriminate|]. split; [discriminate|]. intros c r E G.
        injection E as <- _. vm_compute in G. intuition discriminate.
      * apply ca_bare. apply value_literal; [reflexivity|discriminate].
    + exists (EStr (lit "en")). split; [exact H1|]. split; reflexivity.
    + apply sh_yes. cbn [case_means]. split; [|split; [vm_compute; intuition discriminate|split; discriminate]].
      change (lit "Well *met*") with (lit "Well " ++ lit "*met*"). apply text_then; [discriminate|reflexivity|intros (u & r & E); discriminate E|].
      apply (star_markup "met"%string); [reflexivity|discriminate|reflexivity|discriminate].
    + exact H3.
    + apply (cn_cases V ok [IText (lit " or ")] (lit " or ") true (lit "lang") false (lit "it") (lit "hello") None (lit "hello") true [IStyle Star [IText (lit "Hi")]]
        [IText (lit " end")] (lit "[if:lang==it](x) end")).
      * apply text_one; [reflexivity|discriminate].
      * apply test_literal; [reflexivity|discriminate|reflexivity].
      * apply cs_one, ca_bare, value_literal; [reflexivity|discriminate].
      * exists (EStr (lit "en")). split; [exact H1|]. split; [intros _; discriminate|reflexivity].
      * apply sh_yes. exists (lit "*Hi*"). split; [exact H2|]. apply (star_markup "Hi"%string); [reflexivity|discriminate|reflexivity|discriminate].
      * exact H4.
      * apply (cn_cases V ok [] [] false (lit "lang") true (lit "it") (lit "x") None (lit "x") false [] [IText (lit " end")] (lit " end")).
        -- constructor.
        -- apply test_literal; [reflexivity|discriminate|reflexivity].
        -- apply cs_one, ca_bare, value_literal; [reflexivity|discriminate].
        -- exists (EStr (lit "en")). split; [exact H1|]. split; discriminate.
        -- apply sh_none. reflexivity.
        -- exact H5.
        -- apply cn_text, text_one; [reflexivity|discriminate].
Qed.
Example C87_ex : conditional (of_env case_env) any case_tree case_text /\ no_space_end case_text /\
  (match parse_text case_env case_text o0 with
   | Ok [NText a _; NText a2 _; NStyle st [NText b _] _; NText c _; NStyle _ [NText f _] _; NText g _] =>
       a = lit "Say " /\ a2 = lit "Well " /\ b = lit "met" /\ c = lit " or " /\ f = lit "Hi" /\ g = lit " end" /\ st = lit "star"
   | _ => False end) /\
  refused case_env (lit "[if:none==en](a)") "Variable has not been defined." /\
  refused case_env (lit "[ifeval:lang==it](a)") "The test result is negative but no value has been defined for that case." /\
  refused case_env (lit "[iff:lang==en](a)") "Control operator is not supported.".
Proof.
  split; [|split; [discriminate|split; [vm_compute; repeat split|split; [|split]]]].
  - apply case_example; first [reflexivity|exact I].
  - apply (rf_undefined case_env false (lit "none") true (lit "en") (lit "a") None (lit "a")); [apply test_literal; [reflexivity|discriminate|reflexivity]|apply cs_one, ca_bare, value_literal; [reflexivity|discriminate]|reflexivity].
  - apply (rf_missing case_env (lit "lang") true (lit "it") (lit "a") (lit "a")); [apply test_literal; [reflexivity|discriminate|reflexivity]|apply cs_one, ca_bare, value_literal; [reflexivity|discriminate]|].
    exists (EStr (lit "en")). split; [reflexivity|]. split; discriminate.
  - apply (rf_operator case_env (lit "iff") (lit "lang==en") (lit "a") None (lit "a")); [reflexivity|discriminate|discriminate|vm_compute; intuition discriminate|vm_compute; intuition discriminate| |apply cs_one, ca_bare, value_literal; [reflexivity|discriminate]].
    split; [discriminate|]. intros c Hc. cbn in Hc. repeat (destruct Hc as [<-|Hc]; [split; [vm_compute; intuition discriminate|split; discriminate]|]). destruct Hc.
Qed.

Print Assumptions C87_conditional_text.
Print Assumptions C87_condition_errors.
