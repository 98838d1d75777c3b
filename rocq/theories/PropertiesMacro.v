(* PropertiesMacro.v -- C32, C33, C54, C56: macros *)
From Verif Require Export PropertiesText PropertiesTotal.

(* ------------------------------------------------ a text made of one macro *)
Definition macro_text (name args : str) : str := lit "[" ++ name ++ lit "](" ++ args ++ lit ")".

Lemma run_macro d e o next name w : macro_name name -> no_chr NL w -> args_read w ->
  exists t c n1, t_value t = name /\ forall p n x, process_arguments e (mkToken T_TEXT w n1) = Ok p ->
    (forall s, dispatch e (nested d e) t p c (s, tx_init next) = ((s, x), Ok [n])) -> is_word n = false ->
    tp_run (S d) e (macro_text name w) o next = Ok (mkTx (tx_nodes x ++ [n]) (tx_foot x) (tx_links x) (tx_next x)).
Proof.
  intros Hn Hnl Hw. unfold macro_text.
  assert (Hnl2 : no_chr NL (lit "[" ++ name ++ lit "](" ++ w ++ lit ")")).
  { repeat apply nl_app; try (apply nl_lit; reflexivity); [|exact Hnl]. intros K. destruct Hn as [_ Hn]. apply (Hn NL K). reflexivity. }
  assert (Hend : no_space_end (lit "[" ++ name ++ lit "](" ++ w ++ lit ")")).
  { unfold no_space_end. rewrite !app_assoc, rev_app_distr. discriminate. }
  destruct (lex_line _ 0 o Hnl2 Hend ltac:(discriminate)) as (toks & ce & Hlex & Htv). cbn [repeat] in Hlex. rewrite app_nil_r in Hlex.
  assert (Et : tk (lit "[" ++ name ++ lit "](" ++ w ++ lit ")") =
    [(T_LITERAL, lit "["); (T_TEXT, name); (T_LITERAL, lit "]"); (T_LITERAL, lit "(")] ++ tk w ++ [(T_LITERAL, lit ")")]).
  { change (lit "[" ++ name ++ lit "](" ++ w ++ lit ")") with (chr "[" :: (name ++ (chr "]" :: chr "(" :: w ++ chr ")" :: []))).
    rewrite tk_special by reflexivity. rewrite tk_run; [|apply Hn|apply macro_name_plain, Hn|apply special_not_plain; reflexivity].
    rewrite !tk_special by reflexivity. rewrite tk_wrap by reflexivity. reflexivity. }
  pose proof Htv as Htv0. rewrite Et in Htv. cbn [app] in Htv. apply map_tv_cons in Htv as (o1 & t1 & -> & Htv). apply map_tv_cons in Htv as (o2 & t2 & -> & Htv).
  apply map_tv_cons in Htv as (o3 & t3 & -> & Htv). apply map_tv_cons in Htv as (o4 & t4 & -> & Htv).
  apply map_tv_app in Htv as (ta & t5 & -> & Ha & Htv). apply map_lit in Htv as (o5 & tb & -> & Hb). apply map_tv_nil in Hb as ->.
  set (E := mkToken T_EOF [] ce) in *. cbn [app] in Hlex. rewrite <- app_assoc in Hlex. cbn [app] in Hlex.
  destruct (Hw ta o5 [E] (tx_init next) Ha) as (c & Hc).
  exists (mkToken T_TEXT name o2), (merge_contexts o1 o5), c. split; [reflexivity|]. intros p n x Hp Hd Hword.
  set (R := mkToken T_LITERAL (lit "[") o1 :: mkToken T_TEXT name o2 :: mkToken T_LITERAL (lit "]") o3 :: mkToken T_LITERAL (lit "(") o4
            :: ta ++ mkToken T_LITERAL (lit ")") o5 :: [E]) in *.
  assert (Hm : tp_macro e (nested d e) (R, tx_init next) = (([E], x), Ok [n])).
  { unfold R, tp_macro. unfold pbind at 1. rewrite get_lit by discriminate.
    unfold pbind at 1. rewrite get_type by discriminate.
    unfold pbind at 1. rewrite get_lit by discriminate.
    unfold pbind at 1. rewrite get_lit by (destruct ta; discriminate).
    unfold pbind at 1. rewrite Hc. unfold pbind at 1. rewrite get_lit by discriminate.
    unfold pbind at 1. unfold plift at 1. rewrite Hp. cbv zeta. exact (Hd [E]). }
  rewrite run_unfold, Hlex.
  assert (HR : R = (mkToken T_LITERAL (lit "[") o1 :: mkToken T_TEXT name o2 :: mkToken T_LITERAL (lit "]") o3 :: mkToken T_LITERAL (lit "(") o4
            :: ta ++ [mkToken T_LITERAL (lit ")") o5]) ++ [E]) by (unfold R; cbn [app]; rewrite <- app_assoc; reflexivity).
  rewrite HR. etransitivity; [apply (run_line e (nested d e) _ ce ce next [n] x)|].
  - rewrite Htv0. apply tk_inline.
  - intros _. fold E. rewrite <- HR. 
    assert (Hit : forall m, tp_item e (nested d e) (tp_words e (nested d e) m) (R, tx_init next) = (([E], x), Ok [n])).
    { intros m. unfold tp_item. unfold R at 1. rewrite skip_backslash by discriminate. apply first_ok. exact Hm. }
    unfold R at 1. cbn [length].
    etransitivity; [apply (words_step e (nested d e) _ text_stops (mkToken T_LITERAL (lit "[") o1) _ (tx_init next) ([E], x) [n] eq_refl ltac:(discriminate) (Hit _))|].
    rewrite words_stop by reflexivity. reflexivity.
  - discriminate.
  - cbn [group_words]. rewrite Hword. reflexivity.
Qed.

(* ------------------------------------------------ C33 *)
(* C33: the first argument of a macro may contain closing brackets when it is in
   quotes.  Missing: the other arguments (see below, it is false for them) and
   quotes inside the quotes (also false). *)
Theorem C33_first_quoted_argument_partial d e o next name v us ns rest :
  user_macro name -> ~ In QUOTE v -> quotable v -> no_close rest -> (rest = [] \/ hd_error rest = Some COMMA) ->
  writes_args (map Pos (v :: us) ++ map (fun kv => Key (fst kv) (snd kv)) ns) ([QUOTE] ++ v ++ [QUOTE] ++ rest) ->
  Forall (fun u => plain_value u = true) (v :: us) ->
  exists x a c, tp_run (S d) e (macro_text name ([QUOTE] ++ v ++ [QUOTE] ++ rest)) o next = Ok x /\
    tx_nodes x = [NMacro name a c] /\
    na_unnamed a = v :: us /\
    (forall k, dget k (na_named a) = named_of (map (fun kv => Key (fst kv) (snd kv)) ns) k) /\
    na_tags a = [] /\ na_internal a = [] /\ na_subtype a = None.
Proof.
  intros Hn Hv Hq Hr Hh Hw Hp.
  assert (Hro : rest_ok rest) by (split; [exact Hr|destruct Hh as [-> | ->]; discriminate]).
  destruct (run_macro d e o next name ([QUOTE] ++ v ++ [QUOTE] ++ rest) (proj1 Hn) (no_nl_args _ _ Hw) (read_quoted v rest Hv Hq Hro)) as (t & c & n1 & Ht & H).
  destruct (C20_arguments_round_trip e (v :: us) ns _ (origin_of (mkToken T_TEXT ([QUOTE] ++ v ++ [QUOTE] ++ rest) n1)) Hw Hp) as (p & P1 & P2 & P3).
  eexists _, (arguments_of p), c. split; [|split; [|split; [exact P2|exact P3]]].
  - apply (H p (NMacro name (arguments_of p) c) (tx_init next)); [exact P1| |reflexivity].
    intros s. rewrite dispatch_user by (rewrite Ht; exact Hn). rewrite Ht. reflexivity.
  - reflexivity.
Qed.
Example C33_witness : user_macro (lit "m") /\ rmap tx_nodes (tp_run 1 [] (macro_text (lit "m") (lit """a) b"", c=d")) o0 0) =
  Ok [NMacro (lit "m") (mkArgs [lit "a) b"] [(lit "c", lit "d")] [] [] None) (mkContext 0 0 0 16 None)] /\
  writes_args (map Pos [lit "a) b"] ++ map (fun kv => Key (fst kv) (snd kv)) [(lit "c", lit "d")]) ([QUOTE] ++ lit "a) b" ++ [QUOTE] ++ lit ", c=d").
Proof.
  split; [|split].
  - split; [split; [discriminate|]|split].
    + intros c [<-|[]]. split; [intros K; cbn in K; intuition discriminate|split; discriminate].
    + intros K. cbn in K. intuition discriminate.
    + discriminate.
  - vm_compute. reflexivity.
  - change (writes_args [Pos (lit "a) b"); Key (lit "c") (lit "d")] (([QUOTE] ++ escape (lit "a) b") ++ [QUOTE]) ++ [COMMA] ++ repeat SP 1 ++ lit "c" ++ [EQUALS] ++ lit "d")).
    apply ws_cons; [apply wa_pos, w_quoted; cbn; repeat split; discriminate|]. apply ws_one. apply wa_key.
    + split; [discriminate|]. intros c [<-|[]]. split; [intros K; cbn in K; intuition discriminate|split; discriminate].
    + apply w_bare. split; [|repeat split; discriminate]. intros c [<-|[]]. split; [intros K; cbn in K; intuition discriminate|discriminate].
Qed.
(* The claim is false for the other arguments: the macro ends at the quoted bracket. *)
Theorem C33_refuted_second_argument :
  writes_args [Pos (lit "a"); Pos (lit "b)")] (lit """a"", ""b)""") /\
  forall d, match tp_run (S d) [] (macro_text (lit "m") (lit """a"", ""b)""")) o0 0 with Exc (ExMau _) => True | _ => False end.
Proof.
  split.
  - change (lit """a"", ""b)""") with (([QUOTE] ++ escape (lit "a") ++ [QUOTE]) ++ [COMMA] ++ repeat SP 1 ++ ([QUOTE] ++ escape (lit "b)") ++ [QUOTE])).
    apply ws_cons; [|apply ws_one]; apply wa_pos, w_quoted; cbn; repeat split; discriminate.
  - intros d. vm_compute. exact I.
Qed.
(* C56: a quote escaped inside a quoted argument of a macro is an argument of its own. *)
Theorem C56_refuted_escaped_quotes :
  writes_args [Pos (lit "a ""b"" c")] (lit """a \""b\"" c""") /\
  (exists p, parse_arguments [] (lit """a \""b\"" c""") o0 = Ok p /\ na_unnamed (arguments_of p) = [lit "a ""b"" c"]) /\
  forall d, exists a c x, tp_run (S d) [] (macro_text (lit "m") (lit """a \""b\"" c""")) o0 0 = Ok x /\ tx_nodes x = [NMacro (lit "m") a c] /\
    na_unnamed a = [lit "a "; lit "b"" c"""].
Proof.
  split; [|split].
  - change (lit """a \""b\"" c""") with ([QUOTE] ++ escape (lit "a ""b"" c") ++ [QUOTE]).
    apply ws_one, wa_pos, w_quoted; cbn; repeat split; discriminate.
  - eexists. split; [vm_compute; reflexivity|]. vm_compute. reflexivity.
  - intros d. eexists _, _, _. split; [vm_compute; reflexivity|]. split; vm_compute; reflexivity.
Qed.

(* ------------------------------------------------ C54: the text of a link *)
(* C54: the text of a link, written in quotes, is parsed as a text of its own.  The
   target is a plain word; the text has no quotes, no closing bracket and no
   backslash.  Missing: texts that start with a mark, for which it is false. *)
Theorem C54_link_text_partial d e o next url text :
  mention_name url -> no_close text -> ~ In QUOTE text -> no_chr NL text -> plain_value text = true ->
  exists o' c, forall y, tp_run d e text o' next = Ok y ->
    tp_run (S d) e (macro_text (lit "link") (url ++ lit ", " ++ [QUOTE] ++ text ++ [QUOTE])) o next = Ok (mkTx [NLink url (tx_nodes y) c] [] [] (tx_next y)).
Proof.
  intros Hu Ht Hq Hnl Hp. set (w := url ++ lit ", " ++ [QUOTE] ++ text ++ [QUOTE]).
  assert (Hw : writes_args [Pos url; Pos text] w).
  { unfold w. rewrite <- (escape_plain text Hq) at 2. apply (ws_cons (Pos url) url 1 [Pos text]).
    - apply wa_pos, w_bare, mention_bare, Hu.
    - apply ws_one, wa_pos, w_quoted, quotable_plain; assumption. }
  assert (Hread : args_read w).
  { apply read_rest; [|unfold w; destruct url; [destruct Hu; congruence|discriminate]]. split.
    - intros c Hc K. unfold w in Hc. apply in_app_iff in Hc as [Hc|Hc]; [destruct Hu as (_ & Hu & _); apply (Hu c Hc); cbn in K |- *; tauto|].
      apply in_app_iff in Hc as [Hc|Hc]; [cbn in Hc, K; intuition (subst; discriminate)|]. apply in_app_iff in Hc as [Hc|Hc]; [cbn in Hc, K; intuition (subst; discriminate)|].
      apply in_app_iff in Hc as [Hc|Hc]; [exact (Ht c Hc K)|cbn in Hc, K; intuition (subst; discriminate)].
    - destruct Hu as (H1 & H2 & _). unfold w. destruct url as [|c url]; [congruence|]. cbn. intros K. injection K as ->. apply (H2 QUOTE); [left; reflexivity|cbn; tauto]. }
  destruct (run_macro d e o next (lit "link") w) as (t & c & n1 & Htv & H); [|exact (no_nl_args _ _ Hw)|exact Hread|].
  { split; [discriminate|]. intros a Ha. cbn in Ha. repeat (destruct Ha as [<-|Ha]; [split; [intros K; cbn in K; intuition discriminate|split; discriminate]|]). destruct Ha. }
  destruct (two_args e url text w (origin_of (mkToken T_TEXT w n1)) Hw (mention_plain url Hu) Hp) as (p & t1 & t2 & P1 & P2 & P3 & P4 & P5).
  exists (origin_of t2), c. intros y Hy. 
  rewrite (H p (NLink url (tx_nodes y) c) (mkTx [] [] [] (tx_next y)) P1); [reflexivity| |reflexivity].
  intros s. unfold dispatch. cbv zeta. rewrite Htv.
  change (startswith (lit "if") (lit "link")) with false. change (str_eqb (lit "link") (lit "link")) with true. cbv iota.
  unfold tp_link. cbv zeta. unfold pa_set_names. rewrite P2, P3.
  change (set_names [t1; t2] [] [lit "target"; lit "text"]) with (@nil token, [(lit "target", t1); (lit "text", t2)]). cbv iota beta.
  unfold pbind, needed, named_arg. cbn [pa_named].
  change (dget (lit "target") [(lit "target", t1); (lit "text", t2)]) with (Some t1). change (dget (lit "text") [(lit "target", t1); (lit "text", t2)]) with (Some t2).
  unfold pret. unfold tp_link_content, nested. cbn [snd fst tx_next tx_init]. rewrite P5, Hy, P4. reflexivity.
Qed.
Example C54_witness : mention_name (lit "http://x") /\ plain_value (lit "a *b* (c") = true /\
  rmap tx_nodes (tp_run 2 [] (lit "[link](http://x, ""a *b* (c"")") o0 0) =
  Ok [NLink (lit "http://x") [NText (lit "a ") (mkContext 0 18 0 20 None);
        NStyle (lit "star") [NText (lit "b") (mkContext 0 21 0 22 None)] (mkContext 0 20 0 23 None);
        NText (lit " (c") (mkContext 0 23 0 26 None)] (mkContext 0 0 0 28 None)].
Proof.
  split; [|split; vm_compute; reflexivity].
  split; [discriminate|]. split.
  - intros c Hc K. cbn in Hc, K. intuition (subst; discriminate).
  - intros c r E K. injection E as <- _. cbn in K. intuition discriminate.
Qed.
(* A text that starts with a style is read as a subtype: the link shows its target. *)
Theorem C54_refuted_marked_text d : exists x c c', tp_run (S d) [] (lit "[link](http://x, ""*bold* text"")") o0 0 = Ok x /\
  tx_nodes x = [NLink (lit "http://x") [NText (lit "http://x") c] c'].
Proof. eexists _, _, _. split; vm_compute; reflexivity. Qed.
