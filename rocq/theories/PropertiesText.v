(* PropertiesText.v -- C28 to C31: text and inline markup *)
From Verif Require Export MacroFacts.

(* ------------------------------------------------ statements *)
(* A node of the parser is the tree t. *)
Inductive same : inode -> itree -> Prop :=
| same_text s c : same (NText s c) (IText s)
| same_verb s c : same (NVerbatim s c) (IVerb s)
| same_esc m s c : same (NText s c) (IEsc m s)
| same_style st ns l c : same_all ns l -> same (NStyle (style_name st) ns c) (IStyle st l)
| same_foot id n c : same (NFootnote id n c) (IFoot n)
| same_head id n c : same (NHeaderLink id n [] c) (IHead n)
| same_link v c' c : same (NLink v [NText v c'] c) (ILink v)
| same_mail v c' c : same (NLink (lit "mailto:" ++ v) [NText v c'] c) (IMail v)
| same_char v c : same (NUnicode v c) (IChar v)
| same_raw v c : same (NRaw v c) (IRaw v)
| same_image v more c : same (NImage v (nth_error more 0) (nth_error more 1) (nth_error more 2) c) (IImage v more)
| same_macro n vs c : same (NMacro n (mkArgs vs [] [] [] None) c) (IMacro n vs)
| same_link_text v ns l c : same_all ns l -> same (NLink v ns c) (ILinkText v l)
| same_mail_text v ns l c : same_all ns l -> same (NLink (lit "mailto:" ++ v) ns c) (IMailText v l)
| same_head_text id v ns l c : same_all ns l -> same (NHeaderLink id v ns c) (IHeadText v l)
| same_class cs ns l c : same_all ns l -> same (NClass cs ns c) (IClass cs l)
with same_all : list inode -> list itree -> Prop :=
| sa_nil : same_all [] []
| sa_cons n t ns l : same n t -> same_all ns l -> same_all (n :: ns) (t :: l).

(* The footnote and header macros of some nodes, in reading order.  Those in the text of
   a link, of a mention or of a class are not among them: the parser that reads that
   text is dropped, and what it has registered with it. *)
Fixpoint foots (n : inode) : list inode :=
  match n with
  | NFootnote _ _ _ => [n]
  | NStyle _ l _ => concat (map foots l)
  | _ => []
  end.
Fixpoint heads (n : inode) : list inode :=
  match n with
  | NHeaderLink _ _ _ _ => [n]
  | NStyle _ l _ => concat (map heads l)
  | _ => []
  end.
Definition all_foots (l : list inode) : list inode := concat (map foots l).
Definition all_heads (l : list inode) : list inode := concat (map heads l).

(* ------------------------------------------------ words *)
Definition stops_of (o : option style) : list token :=
  match o with None => text_stops | Some st => style_stops [mark_of st] end.

Inductive wordy : list (token_type * str) -> str -> Prop :=
| wo_nil : wordy [] []
| wo_dull t ts s : dull t -> inline_tok t -> wordy ts s -> wordy (t :: ts) (snd t ++ s)
| wo_esc t ts s : wordy ts s -> wordy (tB :: t :: ts) (snd t ++ s).

Lemma tk_cons c w : (exists ty, tk (c :: w) = (ty, [c]) :: tk w /\ (ty = T_TEXT \/ ty = T_LITERAL /\ mem_chr c text_specials = true)) \/
  exists d w' v t, w = d :: w' /\ tk w = (T_TEXT, d :: v) :: t /\ tk (c :: w) = (T_TEXT, c :: d :: v) :: t.
Proof.
  cbn [tk]. destruct (N.eqb_spec c SP) as [->|Hs]; [left; exists T_TEXT; auto|]. destruct (mem_chr c text_specials) eqn:Em; [left; exists T_LITERAL; auto|].
  destruct w as [|d w]; [left; exists T_TEXT; auto|]. destruct (text_plain d) eqn:Ed; [|left; exists T_TEXT; auto].
  right. destruct (tk_plain_hd d w Ed) as (v & t & E). exists d, w, v, t. rewrite E. auto.
Qed.

Lemma wordy_text v ts s : wordy ((T_TEXT, v) :: ts) s -> exists s', s = v ++ s' /\ wordy ts s'.
Proof. intros H. inversion H; subst; eauto. Qed.

Lemma text_wordy s w : text_written s w -> wordy (tk w) s.
Proof.
  intros H. induction H as [|c s w Hc Hnl H IH|c s w Hnl H IH]; [constructor| |].
  - destruct (tk_cons c w) as [(ty & -> & Hty)|(d & w' & v & t & -> & E1 & E2)].
    + apply (wo_dull (ty, [c])); [|split; [cbn; tauto|discriminate]|exact IH].
      destruct Hty as [-> |[-> _]]; [left; reflexivity|right; eauto].
    + rewrite E2. rewrite E1 in IH. apply wordy_text in IH as (s' & -> & IH).
      apply (wo_dull (T_TEXT, c :: d :: v)); [left; reflexivity|split; [auto|discriminate]|exact IH].
  - rewrite tk_special by reflexivity. destruct (tk_cons c w) as [(ty & -> & Hty)|(d & w' & v & t & -> & E1 & E2)].
    + apply (wo_esc (ty, [c])). exact IH.
    + rewrite E2. rewrite E1 in IH. apply wordy_text in IH as (s' & -> & IH). apply (wo_esc (T_TEXT, c :: d :: v)). exact IH.
Qed.

Lemma mark_markup st : In (mark_of st) MARKUP.
Proof. destruct st; cbn; tauto. Qed.
Lemma mark_special st : mem_chr (mark_of st) text_specials = true.
Proof. destruct st; reflexivity. Qed.
Lemma stops_inline o t : inline_tok (tv t) -> (forall st, o = Some st -> tv t <> (T_LITERAL, [mark_of st])) -> token_in t (stops_of o) = false.
Proof.
  intros H1 H2. unfold token_in. destruct o as [st|]; cbn [stops_of style_stops text_stops existsb].
  - rewrite (tv_in_stop t T_LITERAL [mark_of st] (H2 st eq_refl)). unfold EOF_tok, EOL_tok. rewrite !inline_not_end by auto. reflexivity.
  - unfold EOF_tok, EOL_tok. rewrite !inline_not_end by auto. reflexivity.
Qed.
Lemma stops_dull o t : inline_tok (tv t) -> dull (tv t) -> token_in t (stops_of o) = false.
Proof.
  intros H1 H2. apply stops_inline; [exact H1|]. intros st _ K. rewrite K in H2. destruct H2 as [H2|(c & H2 & H3)]; [discriminate|].
  injection H2 as <-. apply H3, mark_markup.
Qed.

(* A tree with the text of a macro. *)
Fixpoint with_text (t : itree) : bool :=
  match t with
  | IStyle _ l => existsb with_text l
  | ILinkText _ _ | IMailText _ _ | IHeadText _ _ | IClass _ _ => true
  | _ => false
  end.
Lemma text_quotes o l w : written o l w -> existsb with_text l = true -> In QUOTE w.
Proof.
  induction 1; cbn [existsb with_text]; rewrite ?orb_true_iff, ?in_app_iff; intros K; try discriminate K; try tauto;
    try (destruct K as [K|K]; [discriminate K|tauto]).
  - destruct K as [K|K]; [|tauto]. destruct H; discriminate K.
  - right; right; right; left. rewrite join_cons by discriminate. cbn [join]. rewrite !in_app_iff. cbn. tauto.
  - right; left. destruct classes; [cbn [join]|rewrite join_cons by discriminate]; rewrite !in_app_iff; cbn; tauto.
Qed.

(* A parser of the texts of macros. *)
Definition reads_texts (nest : nest_fn) : Prop := forall l s o rem x, written None l s -> ~ In QUOTE s -> no_space_end s ->
  exists ns n, nest s o (rem, x) = ((rem, mkTx (tx_nodes x) (tx_foot x) (tx_links x) n), Ok ns) /\ same_all ns l.

(* what the built-in macros make of their values *)
Lemma set_one (p : parsed_args) v names : map t_value (pa_unnamed p) = [v] -> pa_named p = [] -> names <> [] ->
  exists t, t_value t = v /\ pa_named (pa_set_names p names) = [(hd [] names, t)].
Proof.
  intros H1 H2 Hn. destruct (pa_unnamed p) as [|t [|]] eqn:E; try discriminate. cbn in H1. injection H1 as <-. exists t. split; [reflexivity|].
  unfold pa_set_names. rewrite E, H2. destruct names as [|n names]; [congruence|]. destruct names; reflexivity.
Qed.
Lemma set_two (p : parsed_args) v w : map t_value (pa_unnamed p) = [v; w] -> pa_named p = [] ->
  exists t u, t_value t = v /\ t_value u = w /\ forall a b, a <> b -> pa_named (pa_set_names p [a; b]) = [(a, t); (b, u)].
Proof.
  intros H1 H2. destruct (pa_unnamed p) as [|t [|u [|]]] eqn:E; try discriminate. cbn in H1. injection H1 as <- <-. exists t, u.
  split; [reflexivity|]. split; [reflexivity|]. intros a b Hab. unfold pa_set_names. rewrite E, H2. cbn.
  destruct (str_eqb_spec b a) as [->|_]; [congruence|]. cbn. destruct (str_eqb_spec b a) as [->|_]; [congruence|]. reflexivity.
Qed.

Section Main.
  Variables (e : env) (nest : nest_fn).
  Notation dispatch := (dispatch e nest).

  Lemma value_macro_name name vs t : value_macro name vs t -> macro_name name.
  Proof.
    intros H. assert (K : forallb (fun c => negb (mem_chr c (SP :: NL :: SPECIAL))) name = true -> name <> [] -> macro_name name).
    { intros F Hn. split; [exact Hn|]. intros c Hc. apply (proj1 (forallb_forall _ _) F) in Hc. apply negb_true_iff in Hc.
      repeat split; intros G; rewrite <- not_true_iff_false in Hc; apply Hc, mem_chr_In; [right; right; exact G|left; congruence|right; left; congruence]. }
    destruct H; try (apply K; [reflexivity|discriminate]). apply H.
  Qed.
  Lemma dispatch_values name vs t c1 p c r x : value_macro name vs t -> map t_value (pa_unnamed p) = vs -> pa_named p = [] ->
    arguments_of p = mkArgs vs [] [] [] None ->
    exists n, dispatch (mkToken T_TEXT name c1) p c (r, x) = ((r, x), Ok [n]) /\ is_word n = false /\ same n t /\ foots n = [] /\ heads n = [].
  Proof.
    intros H H1 H2 H3. destruct H as [v|v|v|v|v more Hm|nm v more Hu].
    - destruct (set_one p v [lit "target"; lit "text"] H1 H2 ltac:(discriminate)) as (u & <- & E). eexists. split.
      + unfold dispatch. cbn. unfold tp_link, needed, named_arg, pbind. rewrite E. cbn. reflexivity.
      + repeat split. constructor.
    - destruct (set_one p v [lit "email"; lit "text"] H1 H2 ltac:(discriminate)) as (u & <- & E). eexists. split.
      + unfold dispatch. cbn. unfold tp_mailto, needed, named_arg, pbind. rewrite E. cbn. reflexivity.
      + repeat split. apply same_mail.
    - destruct (set_one p v [lit "value"] H1 H2 ltac:(discriminate)) as (u & <- & E). eexists. split.
      + unfold dispatch. cbn. unfold tp_unicode, needed, named_arg, pbind. rewrite E. cbn. reflexivity.
      + repeat split. constructor.
    - destruct (set_one p v [lit "value"] H1 H2 ltac:(discriminate)) as (u & <- & E). eexists. split.
      + unfold dispatch. cbn. unfold tp_raw, needed, named_arg, pbind. rewrite E. cbn. reflexivity.
      + repeat split. constructor.
    - assert (E : exists u us, pa_unnamed p = u :: us /\ t_value u = v /\ map t_value us = more).
      { destruct (pa_unnamed p) as [|u us]; [discriminate|]. cbn in H1. exists u, us. split; [reflexivity|]. split; congruence. }
      destruct E as (u & us & E & <- & <-). rewrite map_length in Hm.
      exists (NImage (t_value u) (nth_error (map t_value us) 0) (nth_error (map t_value us) 1) (nth_error (map t_value us) 2) c). split.
      + unfold dispatch. cbn. unfold tp_image, needed, named_arg, pbind, pa_set_names. rewrite E, H2.
        destruct us as [|u1 [|u2 [|u3 [|]]]]; cbn in Hm; try lia; cbn; reflexivity.
      + split; [reflexivity|]. split; [apply same_image|split; reflexivity].
    - eexists. split; [rewrite dispatch_user by exact Hu; rewrite H3; reflexivity|]. repeat split. constructor.
  Qed.
  Lemma text_macro_name name v c t : text_macro name v c t -> macro_name name.
  Proof.
    intros H. assert (K : forallb (fun c => negb (mem_chr c (SP :: NL :: SPECIAL))) name = true -> name <> [] -> macro_name name).
    { intros F Hn. split; [exact Hn|]. intros a Ha. apply (proj1 (forallb_forall _ _) F) in Ha. apply negb_true_iff in Ha.
      repeat split; intros G; rewrite <- not_true_iff_false in Ha; apply Ha, mem_chr_In; [right; right; exact G|left; congruence|right; left; congruence]. }
    destruct H; (apply K; [reflexivity|discriminate]).
  Qed.
  Notation words := (tp_words e nest).

  Lemma dispatch_shown name v c s t c1 p cx r x : reads_texts nest -> text_macro name v c t -> written None c s -> quoted_text s ->
    map t_value (pa_unnamed p) = [v; s] -> pa_named p = [] ->
    exists n x', dispatch (mkToken T_TEXT name c1) p cx (r, x) = ((r, x'), Ok [n]) /\ is_word n = false /\ same n t /\
      tx_nodes x' = tx_nodes x /\ tx_foot x' = tx_foot x ++ foots n /\ tx_links x' = tx_links x ++ heads n.
  Proof.
    intros Hn H Hw (Hq & _ & He & _) H1 H2. destruct (set_two p v s H1 H2) as (u & w & Eu & Ew & E).
    destruct (Hn c (t_value w) (origin_of w) r x ltac:(rewrite Ew; exact Hw) ltac:(rewrite Ew; exact Hq) ltac:(rewrite Ew; exact He)) as (ns & k & G1 & G2).
    destruct H as [v l|v l|v l]; subst v.
    - eexists _, _. split.
      + unfold dispatch. cbn. unfold tp_link, needed, named_arg, pbind. rewrite (E (lit "target") (lit "text")) by discriminate. cbn. rewrite G1. reflexivity.
      + repeat split; [constructor; exact G2|cbn; rewrite app_nil_r; reflexivity..].
    - eexists _, _. split.
      + unfold dispatch. cbn. unfold tp_mailto, needed, named_arg, pbind. rewrite (E (lit "email") (lit "text")) by discriminate. cbn. rewrite G1. reflexivity.
      + repeat split; [apply same_mail_text; exact G2|cbn; rewrite app_nil_r; reflexivity..].
    - eexists _, _. split.
      + unfold dispatch. cbn. unfold tp_header_link, needed, named_arg, pbind. rewrite (E (lit "header_id") (lit "text")) by discriminate. cbn. rewrite G1.
        unfold pget, pmod, pret. cbn. reflexivity.
      + cbn. repeat split; [constructor; exact G2|rewrite app_nil_r; reflexivity..].
  Qed.
  Lemma dispatch_class cs c s c1 p cx r x : reads_texts nest -> written None c s -> quoted_text s ->
    map t_value (pa_unnamed p) = s :: cs -> pa_named p = [] ->
    exists n k, dispatch (mkToken T_TEXT (lit "class") c1) p cx (r, x) = ((r, mkTx (tx_nodes x) (tx_foot x) (tx_links x) k), Ok [n]) /\ is_word n = false /\
      same n (IClass cs c) /\ foots n = [] /\ heads n = [].
  Proof.
    intros Hn Hw (Hq & _ & He & _) H1 H2. destruct (pa_unnamed p) as [|w us] eqn:E; [discriminate|]. cbn in H1.
    assert (t_value w = s) as <- by congruence. assert (map t_value us = cs) as <- by congruence.
    destruct (Hn c (t_value w) (origin_of w) r x Hw Hq He) as (ns & k & G1 & G2).
    exists (NClass (map t_value us) ns cx), k. split; [|repeat split; constructor; exact G2].
    unfold dispatch. cbn. unfold tp_class, needed, named_arg, pbind, pa_set_names. rewrite E, H2.
    assert (set_names (w :: us) [] [lit "text"] = (us, [(lit "text", w)])) as -> by (destruct us; reflexivity). cbn. rewrite G1. reflexivity.
  Qed.

  Definition word_all (ws : list inode) : Prop := Forall (fun n => is_word n = true) ws.

  Lemma words_text o ts s : wordy ts s -> forall toks r x n, map tv toks = ts -> r <> [] -> length (toks ++ r) < n ->
    exists ws n', length r < n' /\ words n (stops_of o) (toks ++ r, x) = prepend ws (words n' (stops_of o) (r, x)) /\
      word_all ws /\ concat_str (map word_value ws) = s /\ (ts <> [] -> ws <> []).
  Proof.
    induction 1 as [|t ts s Hd Hi Hw IH|t ts s Hw IH]; intros toks r x n Ht Hr Hn.
    - apply map_tv_nil in Ht as ->. exists [], n. rewrite prepend_nil. repeat split; try constructor; auto.
    - destruct toks as [|u toks]; [discriminate|]. cbn in Ht. injection Ht as Hu Ht.
      assert (Htv : tv u = t) by exact Hu. subst t. cbn [app length] in Hn. destruct n as [|n]; [lia|].
      destruct (IH toks r x n Ht Hr ltac:(lia)) as (ws & n' & H1 & H2 & H3 & H4 & _).
      exists (NWord (t_value u) (t_ctx u) :: ws), n'. split; [exact H1|]. split; [|split; [constructor; auto|split; [cbn; rewrite H4; reflexivity|discriminate]]].
      cbn [app]. eapply (words_cons e nest); [exact H2|apply stops_dull; assumption|].
      apply item_word; [exact Hd|]. destruct toks; [exact Hr|discriminate].
    - destruct toks as [|b [|u toks]]; try discriminate. cbn in Ht. injection Ht as Hb1 Hb2 Hu Ht.
      assert (Htv : tv u = t) by exact Hu. subst t. cbn [app length] in Hn. destruct n as [|n]; [lia|].
      destruct (IH toks r x n Ht Hr ltac:(lia)) as (ws & n' & H1 & H2 & H3 & H4 & _).
      destruct b as [bt bv bc]. cbn in Hb1, Hb2. subst bt bv.
      eexists (NWord (t_value u) _ :: ws), n'. split; [exact H1|]. split; [|split; [constructor; [reflexivity|exact H3]|split; [cbn; rewrite H4; reflexivity|discriminate]]].
      cbn [app]. eapply (words_cons e nest); [exact H2| |].
      + apply stops_inline; [split; [auto|discriminate]|]. intros st _ K. injection K as K. destruct st; discriminate.
      + apply item_backslash. destruct toks; [exact Hr|discriminate].
  Qed.

  (* nodes before the grouping of the words *)
  Inductive spells : list inode -> list itree -> Prop :=
  | sp_nil : spells [] []
  | sp_text ws s ns l : ws <> [] -> word_all ws -> concat_str (map word_value ws) = s -> ~ starts_text l -> spells ns l ->
      spells (ws ++ ns) (IText s :: l)
  | sp_node n t ns l : is_word n = false -> same n t -> (forall s, t <> IText s) -> spells ns l -> spells (n :: ns) (t :: l).

  Lemma group_app ws : word_all ws -> forall g ns, group_words g (ws ++ ns) = group_words (g ++ ws) ns.
  Proof.
    induction 1 as [|w ws Hw Hws IH]; intros g ns; [rewrite app_nil_r; reflexivity|].
    cbn [app group_words]. rewrite Hw, IH, <- app_assoc. reflexivity.
  Qed.
  Lemma word_group_text g : g <> [] -> exists c, word_group g = [NText (concat_str (map word_value g)) c].
  Proof. destruct g; [congruence|]. intros _. eexists. reflexivity. Qed.
  Lemma spells_group ns l : spells ns l -> same_all (group_words [] ns) l.
  Proof.
    induction 1 as [|ws s ns l Hne Hws Hs Hl H IH|n t ns l Hn Ht Htx H IH].
    - constructor.
    - rewrite group_app by exact Hws. cbn [app]. destruct (word_group_text ws Hne) as (c & E).
      inversion H as [|ws' s' ns' l' A B C D F|n t ns' l' A B C D]; subst; cbn [group_words].
      + rewrite E. repeat constructor.
      + destruct Hl. eexists _, _. reflexivity.
      + rewrite A, E. cbn [app]. constructor; [constructor|]. cbn [group_words] in IH. rewrite A in IH. exact IH.
    - cbn [group_words]. rewrite Hn. cbn [word_group app]. constructor; assumption.
  Qed.

  Lemma concat_map_app {A B} (f : A -> list B) a b : concat (map f (a ++ b)) = concat (map f a) ++ concat (map f b).
  Proof. rewrite map_app, concat_app. reflexivity. Qed.
  Lemma words_no_foots ws : word_all ws -> all_foots ws = [] /\ all_heads ws = [].
  Proof.
    induction 1 as [|w ws Hw H [IH1 IH2]]; [split; reflexivity|]. destruct w; try discriminate. unfold all_foots, all_heads in *. cbn. auto.
  Qed.
  Lemma word_group_no g : all_foots (word_group g) = [] /\ all_heads (word_group g) = [].
  Proof. destruct g; split; reflexivity. Qed.
  Lemma foots_group ns : forall g, all_foots (group_words g ns) = all_foots ns /\ all_heads (group_words g ns) = all_heads ns.
  Proof.
    induction ns as [|n ns IH]; intros g; cbn [group_words]; [exact (word_group_no g)|].
    destruct (is_word n) eqn:E.
    - destruct n; try discriminate. destruct (IH (g ++ [NWord v c])) as [-> ->]. split; reflexivity.
    - destruct (word_group_no g) as [G1 G2]. destruct (IH []) as [I1 I2]. unfold all_foots, all_heads in *. rewrite !concat_map_app, G1, G2. cbn [app map concat].
      rewrite I1, I2. split; reflexivity.
  Qed.

  Definition registered (x x' : tx) (ns : list inode) : Prop :=
    tx_nodes x' = tx_nodes x /\ tx_foot x' = tx_foot x ++ all_foots ns /\ tx_links x' = tx_links x ++ all_heads ns.
  Lemma registered_nil x : registered x x [].
  Proof. unfold registered. rewrite !app_nil_r. auto. Qed.
  Lemma registered_words x x' ws ns : word_all ws -> registered x x' ns -> registered x x' (ws ++ ns).
  Proof. intros H (A & B & C). destruct (words_no_foots ws H) as [E1 E2]. unfold registered, all_foots, all_heads in *. rewrite !concat_map_app, E1, E2. auto. Qed.
  Lemma registered_cons x x1 x' n ns : registered x x1 [n] -> registered x1 x' ns -> registered x x' (n :: ns).
  Proof.
    intros (A & B & C) (A' & B' & C'). unfold registered, all_foots, all_heads in *. cbn [map concat] in *. rewrite app_nil_r in *.
    rewrite A', B', C', A, B, C, !app_assoc. auto.
  Qed.

  Lemma not_text_hd o l w : written o l w -> ~ starts_text l -> not_plain_hd w.
  Proof.
    intros H Hl c r E. destruct H; try discriminate.
    - destruct Hl. eexists _, _. reflexivity.
    - injection E as <- _. reflexivity.
    - destruct H; subst m; injection E as <- _; reflexivity.
    - pose proof (special_not_plain (mark_of st) r (mark_special st)). injection E as <- _. eapply H2. reflexivity.
    - injection E as <- _. reflexivity.
    - injection E as <- _. reflexivity.
    - injection E as <- _. reflexivity.
    - injection E as <- _. reflexivity.
    - injection E as <- _. reflexivity.
  Qed.

  (* [rest] of a text that starts with a mark *)
  (* the tokens of a macro *)
  Lemma tk_macro name w w' : macro_name name -> tk (lit "[" ++ name ++ lit "](" ++ w ++ lit ")" ++ w') =
    [(T_LITERAL, lit "["); (T_TEXT, name); (T_LITERAL, lit "]"); (T_LITERAL, lit "(")] ++ tk w ++ (T_LITERAL, lit ")") :: tk w'.
  Proof.
    intros Hn. change (lit "[" ++ name ++ lit "](" ++ w ++ lit ")" ++ w') with (chr "[" :: (name ++ (chr "]" :: chr "(" :: w ++ chr ")" :: w'))).
    rewrite tk_special by reflexivity. rewrite tk_run; [|apply Hn|apply macro_name_plain, Hn|apply special_not_plain; reflexivity].
    rewrite !tk_special by reflexivity. rewrite tk_wrap by reflexivity. reflexivity.
  Qed.
  (* a macro, then the rest *)
  Lemma macro_step o name w vs w' t l toks r x n :
    macro_name name -> args_read w -> writes_args (map Pos vs) w -> Forall (fun v => plain_value v = true) vs ->
    (forall p c1 c rem, map t_value (pa_unnamed p) = vs -> pa_named p = [] -> arguments_of p = mkArgs vs [] [] [] None ->
      exists nd x', dispatch (mkToken T_TEXT name c1) p c (rem, x) = ((rem, x'), Ok [nd]) /\ is_word nd = false /\ same nd t /\ registered x x' [nd]) ->
    (forall toks r x n, map tv toks = tk w' -> r <> [] -> length (toks ++ r) < n ->
      exists ns n' x', length r < n' /\ words n (stops_of o) (toks ++ r, x) = prepend ns (words n' (stops_of o) (r, x')) /\ spells ns l /\ registered x x' ns) ->
    (forall s, t <> IText s) ->
    map tv toks = tk (lit "[" ++ name ++ lit "](" ++ w ++ lit ")" ++ w') -> r <> [] -> length (toks ++ r) < n ->
    exists ns n' x', length r < n' /\ words n (stops_of o) (toks ++ r, x) = prepend ns (words n' (stops_of o) (r, x')) /\
      spells ns (t :: l) /\ registered x x' ns.
  Proof.
    intros Hname Hread Hw Hp Hd IH Htx Ht Hr Hn. rewrite (tk_macro name w w' Hname) in Ht.
    cbn [app] in Ht. apply map_tv_cons in Ht as (o1 & t1 & -> & Ht). apply map_tv_cons in Ht as (o2 & t2 & -> & Ht).
    apply map_tv_cons in Ht as (o3 & t3 & -> & Ht). apply map_tv_cons in Ht as (o4 & t4 & -> & Ht).
    apply map_tv_app in Ht as (ta & t5 & -> & Ha & Ht). apply map_lit in Ht as (o5 & tb & -> & Hb).
    cbn [app] in *. rewrite <- app_assoc in *. cbn [app] in *. cbn [length] in Hn. rewrite app_length in Hn. cbn [length] in Hn. destruct n as [|n]; [lia|].
    assert (Hbr : tb ++ r <> []) by (destruct tb; [exact Hr|discriminate]).
    destruct (item_macro e nest (words n) name w vs o1 o2 o3 o4 ta o5 (tb ++ r) x Hread Hw Hp Ha Hbr) as (p & c & P1 & P2 & P3 & Hit).
    destruct (Hd p o2 c (tb ++ r) P1 P2 P3) as (nd & x1 & D1 & D2 & D3 & D4).
    specialize (Hit x1 nd D1).
    destruct (IH tb r x1 n Hb Hr ltac:(lia)) as (ns & n' & x' & G1 & G2 & G3 & G4).
    exists (nd :: ns), n', x'. split; [exact G1|]. split.
    { eapply (words_cons e nest); [exact G2| |exact Hit].
      apply stops_inline; [split; [auto|discriminate]|]. intros st _ K. injection K as K. destruct st; discriminate. }
    split; [apply sp_node; assumption|]. eapply registered_cons; eassumption.
  Qed.

  Theorem words_written o l w : written o l w -> (existsb with_text l = true -> reads_texts nest) -> forall toks r x n, map tv toks = tk w -> r <> [] -> length (toks ++ r) < n ->
    exists ns n' x', length r < n' /\ words n (stops_of o) (toks ++ r, x) = prepend ns (words n' (stops_of o) (r, x')) /\
      spells ns l /\ registered x x' ns.
  Proof.
    induction 1 as [o|o s w l w' Hs Hw Hl Hwr IH|o s l w' Hs Hwr IH|o m s l w' Hm Hs Hwr IH|o st c w l w' Ho Hc IHc Hwr IH|o nm l w' Hnm Hwr IH|o nm l w' Hnm Hwr IH
      |o name vs t l w' Hm Hv Hwr IH|o name v c s t l w' Hm Hv Hs Hc _ Hwr IH|o cs c s l w' Hv Hs Hc _ Hwr IH];
      intros HQ toks r x n Ht Hr Hn; try specialize (IH ltac:(intros KQ; apply HQ; cbn [existsb]; rewrite KQ; apply orb_true_r)).
    - apply map_tv_nil in Ht as ->. exists [], n, x. rewrite prepend_nil. split; [exact Hn|]. split; [reflexivity|]. split; [constructor|apply registered_nil].
    - rewrite tk_app in Ht by (eapply not_text_hd; eassumption). apply map_tv_app in Ht as (ta & tb & -> & Ha & Hb).
      rewrite <- app_assoc in *. assert (Hbr : tb ++ r <> []) by (destruct tb; [exact Hr|discriminate]).
      destruct (words_text o (tk w) s (text_wordy s w Hw) ta (tb ++ r) x n Ha Hbr Hn) as (ws & n1 & H1 & H2 & H3 & H4 & H5).
      destruct (IH tb r x n1 Hb Hr H1) as (ns & n' & x' & G1 & G2 & G3 & G4).
      exists (ws ++ ns), n', x'. split; [exact G1|]. split; [rewrite H2, G2; apply prepend_app|]. split; [|apply registered_words; assumption].
      constructor; auto. apply H5. destruct Hw; [congruence| |]; destruct (tk_ne c w) as (a1 & a2 & a3 & E3); try (rewrite E3; discriminate).
      destruct (tk_ne BS (c :: w)) as (b1 & b2 & b3 & E4). rewrite E4. discriminate.
    - assert (Et : tk (lit "`" ++ inside (chr "`") s ++ lit "`" ++ w') = (T_LITERAL, TICK) :: tk (inside (chr "`") s) ++ (T_LITERAL, TICK) :: tk w').
      { change (lit "`" ++ inside (chr "`") s ++ lit "`" ++ w') with (chr "`" :: inside (chr "`") s ++ chr "`" :: w').
        rewrite tk_special by reflexivity. rewrite tk_wrap by reflexivity. reflexivity. }
      rewrite Et in Ht. apply map_lit in Ht as (o1 & t1 & -> & Ht). apply map_tv_app in Ht as (ta & t2 & -> & Ha & Ht). apply map_lit in Ht as (o2 & tb & -> & Hb).
      cbn [app] in *. rewrite <- app_assoc in *. cbn [app] in *. cbn [length] in Hn. rewrite app_length in Hn. cbn [length] in Hn. destruct n as [|n]; [lia|].
      assert (Hbr : tb ++ r <> []) by (destruct tb; [exact Hr|discriminate]).
      destruct (item_verbatim e nest (words n) s o1 ta o2 (tb ++ r) x Hs Ha Hbr) as (c & Hit).
      destruct (IH tb r x n Hb Hr ltac:(lia)) as (ns & n' & x' & G1 & G2 & G3 & G4).
      exists (NVerbatim s c :: ns), n', x'. split; [exact G1|]. split.
      { eapply (words_cons e nest); [exact G2| |exact Hit].
        apply stops_inline; [split; [auto|discriminate]|]. intros st _ K. injection K as K. destruct st; discriminate. }
      split; [|eapply registered_cons; [apply registered_nil|exact G4]]. apply sp_node; [reflexivity|constructor|discriminate|exact G3].
    - assert (Et : tk ([m] ++ inside m s ++ [m] ++ w') = (T_LITERAL, [m]) :: tk (inside m s) ++ (T_LITERAL, [m]) :: tk w').
      { assert (mem_chr m text_specials = true) by (destruct Hm as [-> | ->]; reflexivity). cbn [app]. rewrite tk_special by assumption. rewrite tk_wrap by assumption. reflexivity. }
      rewrite Et in Ht. apply map_lit in Ht as (o1 & t1 & -> & Ht). apply map_tv_app in Ht as (ta & t2 & -> & Ha & Ht). apply map_lit in Ht as (o2 & tb & -> & Hb).
      cbn [app] in *. rewrite <- app_assoc in *. cbn [app] in *. cbn [length] in Hn. rewrite app_length in Hn. cbn [length] in Hn. destruct n as [|n]; [lia|].
      assert (Hbr : tb ++ r <> []) by (destruct tb; [exact Hr|discriminate]).
      destruct (item_escaped e nest (words n) m s o1 ta o2 (tb ++ r) x Hm Hs Ha Hbr) as (c & Hit).
      destruct (IH tb r x n Hb Hr ltac:(lia)) as (ns & n' & x' & G1 & G2 & G3 & G4).
      exists (NText s c :: ns), n', x'. split; [exact G1|]. split.
      { eapply (words_cons e nest); [exact G2| |exact Hit].
        apply stops_inline; [split; [auto|discriminate]|]. intros st _ K. injection K as K. destruct Hm as [-> | ->]; destruct st; discriminate. }
      split; [|eapply registered_cons; [apply registered_nil|exact G4]]. apply sp_node; [reflexivity|constructor|discriminate|exact G3].
    - assert (Et : tk ([mark_of st] ++ w ++ [mark_of st] ++ w') = (T_LITERAL, [mark_of st]) :: tk w ++ (T_LITERAL, [mark_of st]) :: tk w').
      { cbn [app]. rewrite tk_special by apply mark_special. rewrite tk_wrap by apply mark_special. reflexivity. }
      rewrite Et in Ht. apply map_lit in Ht as (o1 & t1 & -> & Ht). apply map_tv_app in Ht as (ta & t2 & -> & Ha & Ht). apply map_lit in Ht as (o2 & tb & -> & Hb).
      cbn [app] in *. rewrite <- app_assoc in *. cbn [app] in *. cbn [length] in Hn. destruct n as [|n]; [lia|].
      assert (Hbr : tb ++ r <> []) by (destruct tb; [exact Hr|discriminate]).
      destruct (IHc ltac:(intros KQ; apply HQ; cbn [existsb with_text]; rewrite KQ; reflexivity) ta (mkToken T_LITERAL [mark_of st] o2 :: tb ++ r) x n Ha ltac:(discriminate) ltac:(lia)) as (cs & n1 & x1 & C1 & C2 & C3 & C4).
      rewrite app_length in Hn. cbn [length] in Hn. cbn [length] in C1. destruct n1 as [|n1]; [lia|].
      assert (Hst : token_in (mkToken T_LITERAL [mark_of st] o2) (stops_of (Some st)) = true) by (destruct st; reflexivity).
      rewrite (words_stop e nest n1 _ _ _ x1 Hst) in C2. unfold prepend in C2. cbn [fst snd rmap] in C2. rewrite app_nil_r in C2.
      assert (Hne : ta ++ mkToken T_LITERAL [mark_of st] o2 :: tb ++ r <> []) by (destruct ta; discriminate).
      pose proof (item_style e nest (words n) st o1 _ _ o2 (tb ++ r) x cs x1 C2 Hne Hbr eq_refl) as Hit.
      destruct (IH tb r x1 n Hb Hr ltac:(lia)) as (ns & n' & x' & G1 & G2 & G3 & G4).
      exists (NStyle (style_name st) (group_words [] cs) (merge_contexts o1 o2) :: ns), n', x'. split; [exact G1|]. split.
      { eapply (words_cons e nest); [exact G2| |exact Hit].
        apply stops_inline; [split; [auto|discriminate]|]. intros st' -> K. injection K as K. destruct Ho. f_equal. destruct st', st; try reflexivity; discriminate. }
      split.
      + apply sp_node; [reflexivity|constructor; apply spells_group, C3|discriminate|exact G3].
      + eapply registered_cons; [|exact G4]. destruct C4 as (A & B & C). destruct (foots_group cs []) as [F1 F2].
        unfold registered, all_foots, all_heads in *. cbn [map concat foots heads]. rewrite !app_nil_r, F1, F2. auto.
    - assert (Et : tk (lit "[footnote](" ++ nm ++ lit ")" ++ w') =
        [(T_LITERAL, lit "["); (T_TEXT, lit "footnote"); (T_LITERAL, lit "]"); (T_LITERAL, lit "(")] ++ tk nm ++ (T_LITERAL, lit ")") :: tk w').
      { change (lit "[footnote](" ++ nm ++ lit ")" ++ w') with (lit "[footnote]" ++ chr "(" :: (nm ++ chr ")" :: w')).
        rewrite tk_wrap by reflexivity. rewrite tk_wrap by reflexivity. reflexivity. }
      rewrite Et in Ht. cbn [app] in Ht. apply map_tv_cons in Ht as (o1 & t1 & -> & Ht). apply map_tv_cons in Ht as (o2 & t2 & -> & Ht).
      apply map_tv_cons in Ht as (o3 & t3 & -> & Ht). apply map_tv_cons in Ht as (o4 & t4 & -> & Ht).
      apply map_tv_app in Ht as (ta & t5 & -> & Ha & Ht). apply map_lit in Ht as (o5 & tb & -> & Hb).
      cbn [app] in *. rewrite <- app_assoc in *. cbn [app] in *. cbn [length] in Hn. rewrite app_length in Hn. cbn [length] in Hn. destruct n as [|n]; [lia|].
      assert (Hbr : tb ++ r <> []) by (destruct tb; [exact Hr|discriminate]).
      destruct (item_foot e nest (words n) nm o1 o2 o3 o4 ta o5 (tb ++ r) x Hnm Ha Hbr) as (c & Hit).
      destruct (IH tb r (reg_foot x nm c) n Hb Hr ltac:(lia)) as (ns & n' & x' & G1 & G2 & G3 & G4).
      exists (NFootnote (tx_next x) nm c :: ns), n', x'. split; [exact G1|]. split.
      { eapply (words_cons e nest); [exact G2| |exact Hit].
        apply stops_inline; [split; [auto|discriminate]|]. intros st _ K. injection K as K. destruct st; discriminate. }
      split; [apply sp_node; [reflexivity|constructor|discriminate|exact G3]|].
      eapply registered_cons; [|exact G4]. unfold registered, reg_foot. cbn. rewrite app_nil_r. auto.
    - assert (Et : tk (lit "[header](" ++ nm ++ lit ")" ++ w') =
        [(T_LITERAL, lit "["); (T_TEXT, lit "header"); (T_LITERAL, lit "]"); (T_LITERAL, lit "(")] ++ tk nm ++ (T_LITERAL, lit ")") :: tk w').
      { change (lit "[header](" ++ nm ++ lit ")" ++ w') with (lit "[header]" ++ chr "(" :: (nm ++ chr ")" :: w')).
        rewrite tk_wrap by reflexivity. rewrite tk_wrap by reflexivity. reflexivity. }
      rewrite Et in Ht. cbn [app] in Ht. apply map_tv_cons in Ht as (o1 & t1 & -> & Ht). apply map_tv_cons in Ht as (o2 & t2 & -> & Ht).
      apply map_tv_cons in Ht as (o3 & t3 & -> & Ht). apply map_tv_cons in Ht as (o4 & t4 & -> & Ht).
      apply map_tv_app in Ht as (ta & t5 & -> & Ha & Ht). apply map_lit in Ht as (o5 & tb & -> & Hb).
      cbn [app] in *. rewrite <- app_assoc in *. cbn [app] in *. cbn [length] in Hn. rewrite app_length in Hn. cbn [length] in Hn. destruct n as [|n]; [lia|].
      assert (Hbr : tb ++ r <> []) by (destruct tb; [exact Hr|discriminate]).
      destruct (item_head e nest (words n) nm o1 o2 o3 o4 ta o5 (tb ++ r) x Hnm Ha Hbr) as (c & Hit).
      destruct (IH tb r (reg_link x nm c) n Hb Hr ltac:(lia)) as (ns & n' & x' & G1 & G2 & G3 & G4).
      exists (NHeaderLink (tx_next x) nm [] c :: ns), n', x'. split; [exact G1|]. split.
      { eapply (words_cons e nest); [exact G2| |exact Hit].
        apply stops_inline; [split; [auto|discriminate]|]. intros st _ K. injection K as K. destruct st; discriminate. }
      split; [apply sp_node; [reflexivity|constructor|discriminate|exact G3]|].
      eapply registered_cons; [|exact G4]. unfold registered, reg_link. cbn. rewrite app_nil_r. auto.
    - refine (macro_step o name _ vs w' t l toks r x n (value_macro_name name vs t Hm) _ _ _ _ IH _ Ht Hr Hn).
      + apply values_args; [destruct Hm; discriminate|exact Hv].
      + apply values_written; [destruct Hm; discriminate|exact Hv].
      + eapply Forall_impl; [exact value_plain|exact Hv].
      + intros p c1 c rem P1 P2 P3. destruct (dispatch_values name vs t c1 p c rem x Hm P1 P2 P3) as (nd & D1 & D2 & D3 & D4 & D5).
        exists nd, x. split; [exact D1|]. split; [exact D2|]. split; [exact D3|]. unfold registered, all_foots, all_heads. cbn. rewrite D4, D5. cbn. rewrite !app_nil_r. auto.
      + intros s ->. inversion Hm.
    - refine (macro_step o name _ [v; s] w' t l toks r x n (text_macro_name name v c t Hm) _ _ _ _ IH _ Ht Hr Hn).
      + apply shown_args; assumption.
      + apply shown_written; [exact Hv|apply Hs].
      + constructor; [apply value_plain, Hv|]. constructor; [apply text_plain_value, Hs|constructor].
      + assert (HR : reads_texts nest).
        { apply HQ. destruct Hm; reflexivity. }
        intros p c1 cx rem P1 P2 P3. destruct (dispatch_shown name v c s t c1 p cx rem x HR Hm Hc (proj1 Hs) P1 P2) as (nd & x1 & D1 & D2 & D3 & D4 & D5 & D6).
        exists nd, x1. split; [exact D1|]. split; [exact D2|]. split; [exact D3|]. unfold registered, all_foots, all_heads. cbn. rewrite !app_nil_r. auto.
      + intros a ->. inversion Hm.
    - refine (macro_step o (lit "class") _ (s :: cs) w' (IClass cs c) l toks r x n _ _ _ _ _ IH _ Ht Hr Hn).
      + split; [discriminate|]. intros a Ha. cbn in Ha. repeat (destruct Ha as [<-|Ha]; [split; [intros K; cbn in K; intuition discriminate|split; discriminate]|]). destruct Ha.
      + apply class_args; assumption.
      + apply class_written; assumption.
      + constructor; [apply text_plain_value, Hs|]. eapply Forall_impl; [exact value_plain|exact Hv].
      + assert (HR : reads_texts nest).
        { apply HQ. reflexivity. }
        intros p c1 cx rem P1 P2 P3. destruct (dispatch_class cs c s c1 p cx rem x HR Hc Hs P1 P2) as (nd & k & D1 & D2 & D3 & D4 & D5).
        eexists nd, _. split; [exact D1|]. split; [exact D2|]. split; [exact D3|]. unfold registered, all_foots, all_heads. cbn. rewrite D4, D5. cbn. rewrite !app_nil_r. auto.
      + intros a. discriminate.
  Qed.
End Main.

(* ------------------------------------------------ a whole line *)
Lemma nl_text s w : text_written s w -> no_chr NL w.
Proof.
  induction 1 as [|c s w _ H _ IH|c s w H _ IH]; [intros []| |].
  - intros [K|K]; [contradiction|exact (IH K)].
  - intros [K|[K|K]]; [discriminate|contradiction|exact (IH K)].
Qed.
Lemma nl_inside m s : can_be_inside m s -> no_chr NL (inside m s).
Proof.
  induction s as [|c s IH]; [intros _ []|]. intros (H1 & _ & H2). cbn. destruct (N.eqb c m).
  - intros [K|[K|K]]; [discriminate|contradiction|exact (IH H2 K)].
  - intros [K|K]; [contradiction|exact (IH H2 K)].
Qed.
Lemma nl_app a b : no_chr NL a -> no_chr NL b -> no_chr NL (a ++ b).
Proof. intros H1 H2 K. apply in_app_iff in K as [K|K]; auto. Qed.
Lemma nl_lit s : mem_chr NL s = false -> no_chr NL s.
Proof. intros H K. apply mem_chr_In in K. congruence. Qed.
Lemma nl_mention n : mention_name n -> no_chr NL n.
Proof. intros (_ & H & _) K. apply (H NL K). cbn. tauto. Qed.
Lemma nl_value v : macro_value v -> no_chr NL v.
Proof. intros (_ & H & _) K. apply (H NL K). cbn. tauto. Qed.
Lemma nl_can_be m s : can_be_inside m s -> no_chr NL s.
Proof.
  induction s as [|c s IH]; [intros _ []|]. intros (H1 & _ & H2). intros [K|K]; [contradiction|exact (IH H2 K)].
Qed.
Lemma nl_join l : Forall (no_chr NL) l -> no_chr NL (join (lit ", ") l).
Proof.
  induction 1 as [|v l Hv H IH]; [intros []|]. destruct l as [|u l]; [exact Hv|]. rewrite join_cons by discriminate.
  apply nl_app; [exact Hv|]. apply nl_app; [apply nl_lit; reflexivity|exact IH].
Qed.
Lemma nl_name n : macro_name n -> no_chr NL n.
Proof. intros [_ H] K. apply (H NL K). reflexivity. Qed.
Lemma nl_quoted s : quoted_text s -> no_chr NL ([QUOTE] ++ s ++ [QUOTE]).
Proof. intros (_ & H & _). repeat apply nl_app; [intros [K|[]]; discriminate| |intros [K|[]]; discriminate]. exact (nl_can_be _ _ H). Qed.
Lemma nl_written o l w : written o l w -> no_chr NL w.
Proof.
  induction 1.
  - intros [].
  - apply nl_app; [eapply nl_text; eassumption|assumption].
  - repeat apply nl_app; try (apply nl_lit; reflexivity); auto. apply nl_inside; assumption.
  - repeat apply nl_app; auto; try (apply nl_inside; assumption); apply nl_lit; destruct H as [-> | ->]; reflexivity.
  - repeat apply nl_app; auto; apply nl_lit; destruct st; reflexivity.
  - repeat apply nl_app; try (apply nl_lit; reflexivity); auto. apply nl_mention; assumption.
  - repeat apply nl_app; try (apply nl_lit; reflexivity); auto. apply nl_mention; assumption.
  - apply nl_app; [apply nl_lit; reflexivity|]. apply nl_app; [eapply nl_name, value_macro_name; eassumption|]. apply nl_app; [apply nl_lit; reflexivity|].
    apply nl_app; [|apply nl_app; [apply nl_lit; reflexivity|assumption]]. apply nl_join. eapply Forall_impl; [exact nl_value|assumption].
  - apply nl_app; [apply nl_lit; reflexivity|]. apply nl_app; [eapply nl_name, text_macro_name; eassumption|]. apply nl_app; [apply nl_lit; reflexivity|].
    apply nl_app; [|apply nl_app; [apply nl_lit; reflexivity|assumption]]. apply nl_join. apply Forall_cons; [apply nl_value; assumption|].
    apply Forall_cons; [apply nl_quoted; apply H1|constructor].
  - apply nl_app; [apply nl_lit; reflexivity|]. apply nl_app; [|apply nl_app; [apply nl_lit; reflexivity|assumption]]. apply nl_join.
    apply Forall_cons; [apply nl_quoted; assumption|]. eapply Forall_impl; [exact nl_value|assumption].
Qed.

Lemma sps_no_nl k : no_chr NL (repeat SP k).
Proof. intros K. apply repeat_spec in K. discriminate. Qed.
Lemma all_sp_sps k : all_sp (repeat SP k) = true.
Proof. induction k; [reflexivity|exact IHk]. Qed.

(* the tokens of a line *)
Lemma lex_line w k o : no_chr NL w -> no_space_end w -> (w = [] -> k = 0) ->
  exists toks c, lex_text (buffer (w ++ repeat SP k) o) = Ok (toks ++ [mkToken T_EOF [] c]) /\ map tv toks = tk w.
Proof.
  intros Hnl Hend Hk. destruct (lexed_text text_next text_lexer_fns lex_text_ok (w ++ repeat SP k) (o_line o) (o_column o) (o_source o)) as (toks & H1 & [H2 _]).
  rewrite line_of_text in H2 by (apply nl_app; [exact Hnl|apply sps_no_nl]).
  assert (Hb : (if all_sp (w ++ repeat SP k) then match w ++ repeat SP k with [] => [] | _ => [(T_EOL, w ++ repeat SP k)] end
                else line_toks text_next (w ++ repeat SP k)) = tk w).
  { destruct w as [|c w].
    - rewrite (Hk eq_refl). reflexivity.
    - rewrite text_toks by exact Hend. rewrite all_sp_app. destruct (all_sp (c :: w)) eqn:E; [|reflexivity].
      apply all_sp_hd_rev in E; [contradiction|discriminate]. }
  assert (H3 : map tv toks = tk w ++ [(T_EOF, [])]) by (etransitivity; [exact H2|]; f_equal; exact Hb).
  clear H2. rename H3 into H2. apply map_tv_app in H2 as (ta & tb & -> & Ha & Hb'). apply map_tv_cons in Hb' as (c & r & -> & Hr). apply map_tv_nil in Hr as ->.
  exists ta, c. split; [exact H1|exact Ha].
Qed.

(* running the parser on a line *)
Lemma run_line e nest toks c c' next ns x' : Forall inline_tok (map tv toks) ->
  (toks <> [] -> tp_words e nest (S (length (toks ++ [mkToken T_EOF [] c]))) text_stops (toks ++ [mkToken T_EOF [] c], tx_init next)
    = (([mkToken T_EOF [] c'], x'), Ok ns)) ->
  (toks = [] -> ns = [] /\ x' = tx_init next) ->
  prun (Ok (toks ++ [mkToken T_EOF [] c])) (tx_init next) [tp_sentence e nest] =
    Ok (mkTx (tx_nodes x' ++ group_words [] ns) (tx_foot x') (tx_links x') (tx_next x')).
Proof.
  intros Hi H H0. unfold prun. cbn [rbind]. unfold pparse. cbn [fst]. destruct toks as [|t toks].
  - destruct (H0 eq_refl) as [-> ->]. cbn [app]. rewrite ploop_eof by reflexivity. reflexivity.
  - specialize (H ltac:(discriminate)). cbn [app] in *.
    assert (Ht : t_type t <> T_EOF). { inversion Hi as [|? ? [[K|K] _] _]; subst; unfold tv in K; cbn in K; rewrite K; discriminate. }
    rewrite (ploop_step _ _ _ _ _ _ ([mkToken T_EOF [] c'], mkTx (tx_nodes x' ++ group_words [] ns) (tx_foot x') (tx_links x') (tx_next x')) Ht (start_token_same t Ht)).
    + rewrite ploop_eof by reflexivity. reflexivity.
    + cbn [ptry]. unfold pbind at 1, pwith. unfold tp_sentence. cbn [fst]. unfold pbind at 1. rewrite H. unfold pbind, pmod, pret. cbn [fst snd]. reflexivity.
Qed.

(* A text is parsed into its tree; the parser inside the parser is only needed for the
   texts of the macros, which are in quotes. *)
Lemma markup_run d e o next l w k :
  written None l w -> no_space_end w -> (w = [] -> k = 0) -> (existsb with_text l = true -> reads_texts (nested d e)) ->
  exists x, tp_run (S d) e (w ++ repeat SP k) o next = Ok x /\ same_all (tx_nodes x) l /\
    tx_foot x = all_foots (tx_nodes x) /\ tx_links x = all_heads (tx_nodes x).
Proof.
  intros Hw Hend Hk HQ. destruct (lex_line w k o (nl_written _ _ _ Hw) Hend Hk) as (toks & c & Hlex & Htv).
  rewrite run_unfold. set (nest := nested d e) in *. rewrite Hlex.
  set (E := mkToken T_EOF [] c) in *.
  destruct (words_written e nest None l w Hw HQ toks [E] (tx_init next) (S (length (toks ++ [E]))) Htv ltac:(discriminate) ltac:(lia))
    as (ns & n' & x' & H1 & H2 & H3 & (R1 & R2 & R3)).
  cbn [length] in H1. destruct n' as [|n']; [lia|]. cbn [stops_of] in H2. rewrite words_stop in H2 by reflexivity.
  unfold prepend in H2. cbn [fst snd rmap] in H2. rewrite app_nil_r in H2.
  eexists. split; [apply (run_line e nest toks c c next ns x')|].
  - rewrite Htv. apply tk_inline.
  - intros _. exact H2.
  - intros ->. cbn [app] in H2. rewrite words_stop in H2 by reflexivity. injection H2 as -> ->. auto.
  - rewrite R1. cbn [tx_nodes tx_init app] in *. cbn [tx_nodes tx_foot tx_links]. destruct (foots_group ns []) as [F1 F2]. rewrite F1, F2, R2, R3. split; [apply spells_group, H3|]. auto.
Qed.
Lemma nested_reads d e : reads_texts (nested (S d) e).
Proof.
  intros l s o rem x Hw Hq He. destruct (markup_run d e o (tx_next x) l s 0 Hw He ltac:(auto) ltac:(intros K; destruct Hq; exact (text_quotes _ _ _ Hw K))) as (y & E & Hy & _).
  cbn [repeat] in E. rewrite app_nil_r in E. exists (tx_nodes y), (tx_next y). split; [|exact Hy].
  unfold nested. cbn [fst snd]. rewrite E. reflexivity.
Qed.

(* C30: any way to write a tree is parsed into that tree, and its footnote and
   header macros are registered, in order.  The texts of macros need one parser more. *)
Theorem C30_markup_roundtrip d e o next l w k :
  written None l w -> no_space_end w -> (w = [] -> k = 0) ->
  exists x, tp_run (S (S d)) e (w ++ repeat SP k) o next = Ok x /\ same_all (tx_nodes x) l /\
    tx_foot x = all_foots (tx_nodes x) /\ tx_links x = all_heads (tx_nodes x).
Proof. intros Hw He Hk. apply markup_run; [exact Hw|exact He|exact Hk|]. intros _. apply nested_reads. Qed.

(* C29: backslashes *)
Lemma backslashed_written s : no_chr NL s -> text_written s (backslashed s).
Proof.
  induction s as [|c s IH]; intros H; [constructor|]. cbn [backslashed].
  assert (Hs : no_chr NL s) by (intros K; apply H; right; exact K). assert (Hc : c <> NL) by (intros ->; apply H; left; reflexivity).
  destruct (mem_chr c SPECIAL) eqn:E; constructor; auto.
  intros K. assert (In c SPECIAL); [|apply mem_chr_In in H0; congruence].
  unfold MARKUP, SPECIAL in *. cbn in K |- *. tauto.
Qed.
Lemma backslashed_end s : no_space_end s -> no_space_end (backslashed s).
Proof.
  unfold no_space_end. intros H K. apply H. clear H. revert K. rewrite <- (rev_involutive s). generalize (rev s). clear. intros s.
  destruct s as [|c s]; [discriminate|]. cbn [rev].
  assert (backslashed (rev s ++ [c]) = backslashed (rev s) ++ backslashed [c]) as ->.
  { generalize (rev s). intros l. induction l as [|a l IH]; [reflexivity|]. cbn [app backslashed]. rewrite IH. destruct (mem_chr a SPECIAL); reflexivity. }
  rewrite !rev_app_distr. cbn [backslashed]. destruct (mem_chr c SPECIAL); cbn [rev app hd_error]; auto.
Qed.
Theorem C29_backslash_escapes_everything d e o next s k :
  s <> [] -> no_chr NL s -> no_space_end s ->
  exists x c, tp_run (S d) e (backslashed s ++ repeat SP k) o next = Ok x /\ tx_nodes x = [NText s c].
Proof.
  intros Hne Hnl Hend. assert (Hw : written None [IText s] (backslashed s ++ [])).
  { constructor; [exact Hne|apply backslashed_written, Hnl| |constructor]. intros (a & b & K). discriminate. }
  rewrite app_nil_r in Hw. destruct (markup_run d e o next _ _ k Hw (backslashed_end s Hend)) as (x & H1 & H2 & _); [|discriminate|].
  { destruct s as [|a s]; [congruence|]. cbn [backslashed]. destruct (mem_chr a SPECIAL); discriminate. }
  exists x. inversion H2 as [|n t ns l Hn Hns]; subst. inversion Hns; subst. inversion Hn; subst. exists c. auto.
Qed.

(* C28: plain text *)
Theorem C28_plain_text d e o next s k :
  s <> [] -> no_chr NL s -> no_space_end s -> (forall c, In c s -> ~ In c MARKUP) ->
  exists x c, tp_run (S d) e (s ++ repeat SP k) o next = Ok x /\ tx_nodes x = [NText s c].
Proof.
  intros Hne Hnl Hend Hp. assert (Hw : written None [IText s] (s ++ [])).
  { constructor; [exact Hne| |intros (a & b & K); discriminate|constructor].
    clear Hne Hend. induction s as [|c s IH]; constructor.
    - apply Hp. left; reflexivity.
    - intros ->. apply Hnl. left; reflexivity.
    - apply IH; [intros K; apply Hnl; right; exact K|]. intros a Ha. apply Hp. right; exact Ha. }
  rewrite app_nil_r in Hw. destruct (markup_run d e o next _ _ k Hw Hend) as (x & H1 & H2 & _); [|discriminate|].
  { congruence. }
  exists x. inversion H2 as [|n t ns l Hn Hns]; subst. inversion Hns; subst. inversion Hn; subst. exists c. auto.
Qed.

(* The hypotheses are met by a text with nested styles, a mention, code and escapes. *)
Example C30_witness : written None
    [IText (lit "a*"); IStyle Star [IText (lit "b "); IStyle Underscore [IFoot (lit "n")]]; IVerb (lit "c`d"); IHead (lit "h")]
    (lit "a\**b _[footnote](n)_*`c\`d`[header](h)") /\
  no_space_end (lit "a\**b _[footnote](n)_*`c\`d`[header](h)") /\ ~ mention_name (lit "*n").
Proof.
  split; [|split].
  - change (lit "a\**b _[footnote](n)_*`c\`d`[header](h)") with
      (lit "a\*" ++ ([mark_of Star] ++ (lit "b " ++ ([mark_of Underscore] ++ (lit "[footnote](" ++ lit "n" ++ lit ")" ++ []) ++ [mark_of Underscore] ++ [])) ++ [mark_of Star]
        ++ (lit "`" ++ inside (chr "`") (lit "c`d") ++ lit "`" ++ (lit "[header](" ++ lit "h" ++ lit ")" ++ [])))).
    apply wr_text; [discriminate| |intros (s & r & K); discriminate|].
    { apply tw_plain; [intros K; cbn in K; intuition discriminate|discriminate|]. apply tw_escaped; [discriminate|constructor]. }
    apply wr_style; [discriminate| |].
    + apply wr_text; [discriminate| |intros (s & r & K); discriminate|].
      { repeat (apply tw_plain; [intros K; cbn in K; intuition discriminate|discriminate|]). constructor. }
      apply wr_style; [discriminate| |constructor]. apply wr_foot; [|constructor].
      split; [discriminate|]. split.
      * intros c [<-|[]] K. cbn in K. intuition discriminate.
      * intros c r E K. injection E as <- _. cbn in K. intuition discriminate.
    + apply wr_verb; [cbn; repeat split; try discriminate|]. apply wr_head; [|constructor].
      split; [discriminate|]. split.
      * intros c [<-|[]] K. cbn in K. intuition discriminate.
      * intros c r E K. injection E as <- _. cbn in K. intuition discriminate.
  - intros K; vm_compute in K; discriminate.
  - intros (_ & _ & K). apply (K (chr "*") (lit "n") eq_refl). cbn. tauto.
Qed.
(* ... and by a text with links, a mention with a text and a class with a link inside. *)
Lemma text_then o s l w : s <> [] -> forallb (fun c => negb (mem_chr c (NL :: MARKUP))) s = true -> ~ starts_text l -> written o l w -> written o (IText s :: l) (s ++ w).
Proof.
  intros Hne H. apply wr_text; [exact Hne|]. clear Hne. induction s as [|c s IH]; [constructor|]. cbn [forallb] in H. apply andb_prop in H as [H1 H2].
  apply negb_true_iff in H1. constructor; [| |exact (IH H2)].
  - intros K. rewrite (proj2 (mem_chr_In c (NL :: MARKUP)) (or_intror K)) in H1. discriminate.
  - intros ->. discriminate.
Qed.
Lemma value_check v : v <> [] -> forallb (fun c => negb (mem_chr c (lit ")\=," ++ [QUOTE; NL]))) v = true ->
  (match hd_error v with Some c => negb (mem_chr c (SP :: lit "#*@")) | None => true end) = true -> hd_error (rev v) <> Some SP -> macro_value v.
Proof.
  intros H1 H2 H3 H4. split; [exact H1|]. split; [|split; [|split; [exact H4|]]].
  - intros c Hc K. apply (proj1 (forallb_forall _ _) H2) in Hc. rewrite (proj2 (mem_chr_In _ _) K) in Hc. discriminate.
  - intros K. rewrite K in H3. discriminate.
  - intros c r -> K. cbn [hd_error] in H3. rewrite (proj2 (mem_chr_In c (SP :: lit "#*@"))) in H3; [discriminate|]. right. exact K.
Qed.
Definition linked_tree : list itree :=
  [IText (lit "See "); ILinkText (lit "http://x.org/a b") [IText (lit "this "); IStyle Star [IText (lit "page")]]; IText (lit " or ");
   IClass [lit "red"; lit "big"] [IText (lit "mail "); IMail (lit "a@b")]; IImage (lit "i.png") [lit "an image"]; IMacro (lit "user") [lit "1"; lit "2"];
   IHeadText (lit "top") [IText (lit "up")]].
Definition linked_text : str :=
  lit "See [link](http://x.org/a b, ""this *page*"") or [class](""mail [mailto](a@b)"", red, big)[image](i.png, an image)[user](1, 2)[header](top, ""up"")".
Example C30_witness_macros : written None linked_tree linked_text /\ no_space_end linked_text /\
  rmap tx_nodes (tp_run 2 [] linked_text o0 0) = Ok
    [NText (lit "See ") (mkContext 0 0 0 4 None);
     NLink (lit "http://x.org/a b") [NText (lit "this ") (mkContext 0 30 0 35 None); NStyle (lit "star") [NText (lit "page") (mkContext 0 36 0 40 None)] (mkContext 0 35 0 41 None)]
       (mkContext 0 4 0 43 None);
     NText (lit " or ") (mkContext 0 43 0 47 None);
     NClass [lit "red"; lit "big"] [NText (lit "mail ") (mkContext 0 56 0 61 None); NLink (lit "mailto:a@b") [NText (lit "a@b") (mkContext 0 70 0 73 None)] (mkContext 0 61 0 74 None)] (mkContext 0 47 0 86 None);
     NImage (lit "i.png") (Some (lit "an image")) None None (mkContext 0 86 0 110 None);
     NMacro (lit "user") (mkArgs [lit "1"; lit "2"] [] [] [] None) (mkContext 0 110 0 122 None);
     NHeaderLink 0 (lit "top") [NText (lit "up") (mkContext 0 137 0 139 None)] (mkContext 0 122 0 141 None)].
Proof.
  split; [|split; [intros K; vm_compute in K; discriminate|vm_compute; reflexivity]].
  assert (Hs : forall t l, (forall s, t <> IText s) -> ~ starts_text (t :: l)) by (intros t l H (s & r & K); apply (H s); congruence).
  change linked_text with (lit "See " ++ (lit "[" ++ lit "link" ++ lit "](" ++ join (lit ", ") [lit "http://x.org/a b"; [QUOTE] ++ (lit "this " ++ ([mark_of Star] ++ (lit "page" ++ []) ++ [mark_of Star] ++ [])) ++ [QUOTE]] ++ lit ")" ++
    (lit " or " ++ (lit "[class](" ++ join (lit ", ") [[QUOTE] ++ (lit "mail " ++ (lit "[" ++ lit "mailto" ++ lit "](" ++ join (lit ", ") [lit "a@b"] ++ lit ")" ++ [])) ++ [QUOTE]; lit "red"; lit "big"] ++ lit ")" ++
    (lit "[" ++ lit "image" ++ lit "](" ++ join (lit ", ") [lit "i.png"; lit "an image"] ++ lit ")" ++
    (lit "[" ++ lit "user" ++ lit "](" ++ join (lit ", ") [lit "1"; lit "2"] ++ lit ")" ++
    (lit "[" ++ lit "header" ++ lit "](" ++ join (lit ", ") [lit "top"; [QUOTE] ++ (lit "up" ++ []) ++ [QUOTE]] ++ lit ")" ++ []))))))).
  assert (Hq : forall s, forallb (fun c => negb (mem_chr c [QUOTE; BS; NL])) s = true -> hd_error (rev s) <> Some SP ->
    (match hd_error s with Some c => negb (mem_chr c (lit "#*@")) | None => true end) = true -> quoted_text s).
  { intros s H1 H2 H3. assert (K : forall c, In c s -> c <> QUOTE /\ c <> BS /\ c <> NL).
    { intros c Hc. apply (proj1 (forallb_forall _ _) H1) in Hc. cbn in Hc. rewrite !negb_orb in Hc. rewrite !andb_true_iff, !negb_true_iff, !N.eqb_neq in Hc. tauto. }
    split; [intros G; destruct (K _ G); congruence|]. split; [|split; [exact H2|]].
    - clear -K. induction s as [|c s IH]; [exact I|]. cbn. destruct (K c (or_introl eq_refl)) as (_ & K1 & K2). split; [exact K2|]. split; [congruence|].
      apply IH. intros a Ha. apply K. right. exact Ha.
    - intros c r -> G. cbn [hd_error] in H3. rewrite (proj2 (mem_chr_In _ _) G) in H3. discriminate. }
  assert (Hl : forall s, quoted_text s -> forallb (fun c => negb (mem_chr c (lit ")\"))) s = true -> last_text s).
  { intros s H1 H2. split; [exact H1|]. intros c Hc K. apply (proj1 (forallb_forall _ _) H2) in Hc. rewrite (proj2 (mem_chr_In _ _) K) in Hc. discriminate. }
  assert (Hv : forall v, macro_value v -> Forall macro_value [v]) by (intros v H; apply Forall_cons; [exact H|apply Forall_nil]).
  Local Ltac val := apply value_check; [discriminate|reflexivity|reflexivity|discriminate].
  apply text_then; [discriminate|reflexivity|apply Hs; discriminate|].
  apply wr_shown with (c := [IText (lit "this "); IStyle Star [IText (lit "page")]]); [constructor|val|apply Hl; [apply Hq; [reflexivity|discriminate|reflexivity]|reflexivity]| |].
  { apply text_then; [discriminate|reflexivity|apply Hs; discriminate|]. apply wr_style; [discriminate| |constructor].
    apply text_then; [discriminate|reflexivity|intros (a & b & K); discriminate|constructor]. }
  apply text_then; [discriminate|reflexivity|apply Hs; discriminate|].
  apply wr_class; [apply Forall_cons; [val|]; apply Hv; val|apply Hq; [reflexivity|discriminate|reflexivity]| |].
  { apply text_then; [discriminate|reflexivity|apply Hs; discriminate|]. apply wr_values; [constructor|apply Hv; val|constructor]. }
  apply wr_values; [constructor; cbn; lia|apply Forall_cons; [val|]; apply Hv; val|].
  apply wr_values; [|apply Forall_cons; [val|]; apply Hv; val|].
  { constructor. split; [split; [discriminate|]|split; [|discriminate]].
    - intros c Hc. cbn in Hc. repeat (destruct Hc as [<-|Hc]; [split; [intros K; cbn in K; intuition discriminate|split; discriminate]|]). destruct Hc.
    - intros K. cbn in K. intuition discriminate. }
  apply wr_shown with (c := [IText (lit "up")]); [constructor|val|apply Hl; [apply Hq; [reflexivity|discriminate|reflexivity]|reflexivity]| |constructor].
  apply text_then; [discriminate|reflexivity|intros (a & b & K); discriminate|constructor].
Qed.
Print Assumptions C28_plain_text.
Print Assumptions C29_backslash_escapes_everything.
Print Assumptions C30_markup_roundtrip.

Example text_ex1 : show "Some *bold _nested_ text* and `code`\*" =
  Ok [NText (lit "Some ") (mkContext 0 0 0 5 None);
      NStyle (lit "star")
        [NText (lit "bold ") (mkContext 0 6 0 11 None);
         NStyle (lit "underscore") [NText (lit "nested") (mkContext 0 12 0 18 None)] (mkContext 0 11 0 19 None);
         NText (lit " text") (mkContext 0 19 0 24 None)] (mkContext 0 5 0 25 None);
      NText (lit " and ") (mkContext 0 25 0 30 None);
      NVerbatim (lit "code") (mkContext 0 30 0 36 None);
      NText (lit "*") (mkContext 0 36 0 38 None)].
Proof. vm_compute. reflexivity. Qed.
Example text_ex2 : show "[link](http://x, _a_) [footnote](n)" =
  Ok [NLink (lit "http://x") [NStyle (lit "underscore") [NText (lit "a") (mkContext 0 18 0 19 None)] (mkContext 0 17 0 20 None)] (mkContext 0 0 0 21 None);
      NText (lit " ") (mkContext 0 21 0 22 None);
      NFootnote 0 (lit "n") (mkContext 0 22 0 35 None)].
Proof. vm_compute. reflexivity. Qed.
