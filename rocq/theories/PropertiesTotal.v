(* PropertiesTotal.v -- C31: a line without an opening square bracket is always parsed *)
From Verif Require Export PropertiesText.

Definition fine (t : token_type * str) : Prop :=
  inline_tok t /\ t <> (T_LITERAL, lit "[") /\ (fst t = T_LITERAL -> exists c, snd t = [c] /\ In c SPECIAL).
Inductive good : list token -> Prop :=
| good_end c : good [mkToken T_EOF [] c]
| good_cons t r : fine (tv t) -> good r -> good (t :: r).

Lemma good_ne r : good r -> r <> [].
Proof. intros H; destruct H; discriminate. Qed.
Lemma good_tail t r : good (t :: r) -> good (next_rem (t :: r)) /\ (fine (tv t) -> next_rem (t :: r) = r /\ good r).
Proof.
  intros H. inversion H as [c|t' r' Ht Hr]; subst; cbn [next_rem].
  - split; [constructor|]. intros [[[K|K] _] _]; discriminate.
  - destruct r; [apply good_ne in Hr; congruence|]. auto.
Qed.

(* The visible text of some nodes, and the characters that are not special. *)
Fixpoint flat (n : inode) : str :=
  match n with
  | NWord v _ | NText v _ | NVerbatim v _ => v
  | NStyle _ l _ => concat_str (map flat l)
  | _ => []
  end.
Definition visible (l : list inode) : str := concat_str (map flat l).
Definition ordinary_chars (s : str) : str := filter (fun c => negb (mem_chr c SPECIAL)) s.
Definition ord (l : list token) : str := ordinary_chars (concat_str (map t_value l)).

Lemma ordinary_app a b : ordinary_chars (a ++ b) = ordinary_chars a ++ ordinary_chars b.
Proof. apply filter_app. Qed.
Lemma ord_cons t r : ord (t :: r) = ordinary_chars (t_value t) ++ ord r.
Proof. unfold ord. cbn [map concat_str]. apply ordinary_app. Qed.
Lemma ord_app a b : ord (a ++ b) = ord a ++ ord b.
Proof. unfold ord. rewrite map_app, concat_str_app. apply ordinary_app. Qed.
Lemma visible_app a b : visible (a ++ b) = visible a ++ visible b.
Proof. unfold visible. rewrite map_app. apply concat_str_app. Qed.
Lemma visible_words ws : visible (word_group ws) = concat_str (map word_value ws).
Proof. destruct ws; [reflexivity|]. unfold visible. cbn [word_group map flat concat_str]. apply app_nil_r. Qed.
Lemma visible_group ns : forall g, word_all g -> visible (group_words g ns) = visible (g ++ ns).
Proof.
  assert (Hg : forall g, word_all g -> concat_str (map word_value g) = visible g).
  { induction 1 as [|w g Hw H IH]; [reflexivity|]. destruct w; try discriminate. unfold visible in *. cbn. rewrite IH. reflexivity. }
  induction ns as [|n ns IH]; intros g H; cbn [group_words].
  - rewrite visible_words, app_nil_r. apply Hg, H.
  - destruct (is_word n) eqn:E.
    + rewrite IH; [rewrite <- app_assoc; reflexivity|]. apply Forall_app. split; [exact H|constructor; [exact E|constructor]].
    + rewrite !visible_app, visible_words, (Hg g H). f_equal. unfold visible in *. cbn [map concat_str]. f_equal. apply IH. constructor.
Qed.
Lemma ord_special t : (exists c, t_value t = [c] /\ In c SPECIAL) -> ordinary_chars (t_value t) = [].
Proof. intros (c & -> & H). unfold ordinary_chars. cbn [filter]. apply mem_chr_In in H. rewrite H. reflexivity. Qed.
Lemma join_nonempty c : t_value (join_tokens c []) = concat_str (map t_value c).
Proof.
  destruct c as [|t c]; [reflexivity|]. unfold join_tokens. cbn [t_value]. rewrite join_nil_sep. generalize (t :: c). intros l. induction l as [|u l IH]; [reflexivity|].
  cbn [map filter]. destruct (str_eqb_spec (t_value u) []) as [E|E]; cbn [negb].
  - rewrite E. cbn [concat_str app]. exact IH.
  - cbn [concat_str]. rewrite <- IH. reflexivity.
Qed.

Lemma ord_esc t : token_eqb t escape_tok = true -> ordinary_chars (t_value t) = [].
Proof. intros H. apply token_eqb_spec in H as [_ H]. rewrite H. reflexivity. Qed.

(* collect never fails *)
Lemma collect_good stops rem : good rem -> token_in EOF_tok stops = true ->
  exists c rest, collect_list stops false rem = Ok (c, rest) /\ good rest /\ length rest <= length rem /\ ord rem = ord c ++ ord rest.
Proof.
  intros Hg He. remember (length rem) as n eqn:Hn. revert rem Hg Hn. induction n as [n IH] using lt_wf_ind. intros rem Hg ->.
  assert (Heof : forall c, token_in (mkToken T_EOF [] c) stops = true).
  { intros c. revert He. unfold token_in. rewrite !existsb_exists. intros (u & H1 & H2). exists u. split; [exact H1|]. exact H2. }
  inversion Hg as [c E|t r Ht Hr E]; subst; cbn [collect_list].
  - rewrite Heof. eexists _, _. split; [reflexivity|]. split; [constructor|auto].
  - destruct (token_in t stops); [eexists _, _; split; [reflexivity|split; [constructor; assumption|auto]]|].
    destruct (token_eqb t escape_tok) eqn:Ee.
    + inversion Hr as [c E|u r' Hu Hr' E]; subst.
      * eexists _, _. split; [reflexivity|]. split; [constructor|]. split; [cbn; lia|]. destruct (_ || _); rewrite ?ord_cons, (ord_esc _ Ee), ?app_nil_r; reflexivity.
      * destruct r' as [|y ys]; [apply good_ne in Hr'; congruence|].
        destruct (IH (length (y :: ys)) ltac:(cbn; lia) (y :: ys) Hr' eq_refl) as (c & rest & H1 & H2 & H3 & H4). rewrite H1. cbn [rbind].
        eexists _, _. split; [reflexivity|]. split; [exact H2|]. split; [cbn [length] in *; lia|].
        rewrite (ord_cons t), (ord_cons u), H4, (ord_esc _ Ee). cbn [app]. destruct (_ || _); cbn [app]; rewrite ?ord_cons, ?(ord_esc _ Ee); cbn [app]; rewrite <- ?app_assoc; reflexivity.
    + destruct (IH (length r) ltac:(cbn; lia) r Hr eq_refl) as (c & rest & H1 & H2 & H3 & H4). rewrite H1. cbn [rbind].
      eexists _, _. split; [reflexivity|]. split; [exact H2|]. split; [cbn [length] in *; lia|]. rewrite !ord_cons, H4, app_assoc. reflexivity.
Qed.

(* a step that gives nodes and advances, or does not apply *)
Definition outcome (out : (list token * tx) * res (list inode)) (rem : list token) (x : tx) : Prop :=
  snd (fst out) = x /\
  match out with
  | (s, Ok ns) => ns <> [] /\ good (fst s) /\ length (fst s) < length rem /\ ord rem = ordinary_chars (visible ns) ++ ord (fst s)
  | (_, Exc ExTokenError) => True
  | _ => False
  end.
Definition tame (f : P tx (list inode)) (rem : list token) : Prop := forall x, outcome (f (rem, x)) rem x.
Definition sure (f : P tx (list inode)) (rem : list token) : Prop := forall x,
  exists rem' ns, f (rem, x) = ((rem', x), Ok ns) /\ ns <> [] /\ good rem' /\ length rem' < length rem /\
    ord rem = ordinary_chars (visible ns) ++ ord rem'.

Lemma first_sure fs last rem : Forall (fun f => tame f rem) fs -> sure last rem -> sure (tp_first fs last) rem.
Proof.
  intros Hf Hl. induction Hf as [|f fs Hf Hfs IH]; [exact Hl|]. intros x. specialize (Hf x). unfold outcome in Hf. destruct (f (rem, x)) as [[rem' x'] [ns|[]]] eqn:E; try (destruct Hf as [_ Hf]; contradiction).
  - destruct Hf as [<- Hf]. exists rem', ns. split; [|exact Hf]. apply first_ok. exact E.
  - destruct Hf as [Hx _]. cbn [fst snd] in Hx. subst x'. destruct (IH x) as (rem2 & ns & E2 & H). exists rem2, ns. split; [|exact H].
    cbn [tp_first]. unfold pbind, pwith. rewrite E. cbn [fst snd]. exact E2.
Qed.

Lemma get_total ty v f rem x : good rem -> (forall t r, rem = t :: r -> fine (tv t)) \/ True ->
  (exists t r, rem = t :: r /\ pget_token ty v f (rem, x) = ((next_rem rem, x), Ok t) /\ check_token t ty v f = Ok t) \/
  (exists s, @pget_token tx ty v f (rem, x) = ((s, x), Exc ExTokenError)).
Proof.
  intros Hg _. destruct rem as [|t r]; [apply good_ne in Hg; congruence|]. unfold pget_token. cbn [fst snd peek_tok].
  destruct (check_token t ty v f) as [u|ex] eqn:E.
  - left. exists t, r. assert (u = t) as ->; [|auto]. revert E. unfold check_token.
    destruct ty; [destruct (negb _); [discriminate|]|]; (destruct v; [destruct (negb _); [discriminate|]|]); (destruct f; [destruct (negb _); [discriminate|]|]); congruence.
  - right. exists (t :: r). assert (ex = ExTokenError) as ->; [|reflexivity]. revert E. unfold check_token.
    destruct ty; [destruct (negb _); [congruence|]|]; (destruct v; [destruct (negb _); [congruence|]|]); (destruct f; [destruct (negb _); [congruence|]|]); congruence.
Qed.

Lemma check_type t ty v f u : check_token t (Some ty) v f = Ok u -> t_type t = ty.
Proof. unfold check_token. destruct (tt_eqb_spec (t_type t) ty); [auto|discriminate]. Qed.
Lemma check_value t ty v f u : check_token t ty (Some v) f = Ok u -> t_value t = v.
Proof.
  unfold check_token. destruct ty; [destruct (negb _); [discriminate|]|]; destruct (str_eqb_spec (t_value t) v); auto; discriminate.
Qed.
Lemma good_literal t r : good (t :: r) -> t_type t = T_LITERAL -> fine (tv t) /\ good r.
Proof. intros H Ht. inversion H; subst; [discriminate|auto]. Qed.

Lemma lit_ord t : fine (tv t) -> t_type t = T_LITERAL -> ordinary_chars (t_value t) = [].
Proof. intros (_ & _ & H) Ht. apply ord_special, H. exact Ht. Qed.
Section Total.
  Variables (e : env) (nest : nest_fn).

  Lemma tame_backslash rem : good rem -> tame tp_backslash rem.
  Proof.
    intros Hg x. unfold tp_backslash, get_tv. unfold pbind at 1.
    destruct (get_total (Some T_LITERAL) (Some BSL) None rem x Hg (or_intror I)) as [(t & r & -> & -> & Hc)|(s & ->)]; [|split; [reflexivity|exact I]].
    destruct (good_literal t r Hg (check_type _ _ _ _ _ Hc)) as [Hf Hr].
    destruct (good_tail t r Hg) as [_ G]. destruct (G Hf) as [-> _]. unfold get_tok, pbind.
    destruct (get_total None None None r x Hr (or_intror I)) as [(u & r' & -> & -> & Hc')|(s & E)].
    - cbn. split; [reflexivity|]. split; [discriminate|]. destruct (good_tail u r' Hr) as [G1 G2]. split; [exact G1|]. split.
      + cbn [length]. inversion Hr; subst; [cbn; lia|]. cbn [next_rem]. destruct r'; cbn; lia.
      + rewrite (ord_cons t), (ord_special t), (ord_cons u). 2:{ exists BS. split; [exact (check_value _ _ _ _ _ Hc)|]. cbn; tauto. }
        unfold visible. cbn [map flat concat_str app]. rewrite app_nil_r. f_equal.
        inversion Hr; subst; [reflexivity|]. cbn [next_rem]. destruct r'; [apply good_ne in H2; congruence|reflexivity].
    - exfalso. destruct r as [|u r']; [apply good_ne in Hr; congruence|]. unfold pget_token in E. cbn in E. discriminate.
  Qed.

  Lemma tame_macro rem : good rem -> tame (tp_macro e nest) rem.
  Proof.
    intros Hg x. unfold tp_macro, get_tv. unfold pbind at 1.
    destruct (get_total (Some T_LITERAL) (Some (lit "[")) None rem x Hg (or_intror I)) as [(t & r & -> & -> & Hc)|(s & ->)]; [|split; [reflexivity|exact I]].
    exfalso. destruct (good_literal t r Hg (check_type _ _ _ _ _ Hc)) as [(_ & Hf & _) Hr]. apply Hf. unfold tv.
    rewrite (check_type _ _ _ _ _ Hc), (check_value _ _ _ _ _ Hc). reflexivity.
  Qed.

  (* opening mark, something, closing mark *)
  Lemma tame_marks (opn : P tx token) (cls : token -> P tx token) {A} (body : token -> P tx A) (out : token -> A -> token -> inode) rem :
    good rem ->
    (forall x, (exists t r, rem = t :: r /\ opn (rem, x) = ((next_rem rem, x), Ok t) /\ t_type t = T_LITERAL) \/ (exists s, opn (rem, x) = ((s, x), Exc ExTokenError))) ->
    (forall t r x, rem = t :: r -> good r -> exists a r', body t (r, x) = ((r', x), Ok a) /\ good r' /\ length r' <= length r /\
       forall c, ord r = ordinary_chars (visible [out t a c]) ++ ord r') ->
    (forall t, exists v, cls t = get_tv T_LITERAL v) ->
    tame (let* o := opn in let* a := body o in let* c := cls o in pret [out o a c]) rem.
  Proof.
    intros Hg Ho Hb Hc x. unfold pbind at 1. destruct (Ho x) as [(t & r & -> & -> & Ht)|(s & ->)]; [|split; [reflexivity|exact I]].
    destruct (good_literal t r Hg Ht) as [Hf Hr]. destruct (good_tail t r Hg) as [_ G]. destruct (G Hf) as [-> _].
    destruct (Hb t r x eq_refl Hr) as (a & r' & E & Hr' & Hl & Hv). unfold pbind at 1. rewrite E.
    destruct (Hc t) as (v & ->). unfold pbind, get_tv.
    destruct (get_total (Some T_LITERAL) (Some v) None r' x Hr' (or_intror I)) as [(u & r2 & -> & -> & Hc')|(s & ->)]; [|split; [reflexivity|exact I]].
    unfold pret, outcome. split; [reflexivity|]. split; [discriminate|]. cbn [fst].
    destruct (good_literal u r2 Hr' (check_type _ _ _ _ _ Hc')) as [Hf' Hr2]. destruct (good_tail u r2 Hr') as [_ G']. destruct (G' Hf') as [-> _].
    split; [exact Hr2|]. split; [cbn [length] in *; lia|].
    rewrite ord_cons, (lit_ord t Hf Ht). cbn [app]. rewrite (Hv u), ord_cons, (lit_ord u Hf' (check_type _ _ _ _ _ Hc')). reflexivity.
  Qed.

  Lemma collect_total stops r x : good r -> exists a r', @pcollect_join tx stops [] false (r, x) = ((r', x), Ok a) /\ good r' /\ length r' <= length r /\
    ord r = ordinary_chars (t_value a) ++ ord r'.
  Proof.
    intros Hr. unfold pcollect_join, pcollect, pbind. cbn [fst snd].
    destruct (collect_good (stops ++ [EOF_tok]) r Hr) as (c & rest & -> & H1 & H2 & H3).
    { unfold token_in. rewrite existsb_app. cbn. apply orb_true_r. }
    eexists _, _. split; [reflexivity|]. split; [exact H1|]. split; [exact H2|]. rewrite join_nonempty. exact H3.
  Qed.

  Lemma get_opening ty v f rem x : good rem ->
    (exists t r, rem = t :: r /\ @pget_token tx (Some ty) v f (rem, x) = ((next_rem rem, x), Ok t) /\ t_type t = ty) \/
    (exists s, @pget_token tx (Some ty) v f (rem, x) = ((s, x), Exc ExTokenError)).
  Proof.
    intros Hg. destruct (get_total (Some ty) v f rem x Hg (or_intror I)) as [(t & r & E1 & E2 & Hc)|H]; [left|right; exact H].
    exists t, r. split; [exact E1|]. split; [exact E2|]. exact (check_type _ _ _ _ _ Hc).
  Qed.

  Lemma tame_verbatim rem : good rem -> tame tp_verbatim rem.
  Proof.
    intros Hg. unfold tp_verbatim.
    apply (tame_marks (get_tv T_LITERAL TICK) (fun _ => get_tv T_LITERAL TICK) (fun _ => pcollect_join tick_stops [] false)
             (fun o t c => NVerbatim (t_value t) (merge_contexts (t_ctx o) (t_ctx c)))); [exact Hg| | |eauto].
    - intros x. apply get_opening. exact Hg.
    - intros t r x _ Hr. edestruct (collect_total) as (a & r' & E & H1 & H2 & H3); [exact Hr|]. exists a, r'. split; [exact E|]. split; [exact H1|]. split; [exact H2|].
      intros c. unfold visible. cbn [map flat concat_str]. rewrite app_nil_r. exact H3.
  Qed.
  Lemma tame_escaped rem : good rem -> tame tp_escaped rem.
  Proof.
    intros Hg. unfold tp_escaped.
    apply (tame_marks (pget_token (Some T_LITERAL) None (Some is_escape_mark)) (fun o => get_tv T_LITERAL (t_value o))
             (fun o => pcollect_join (marker_stops (t_value o)) [] false)
             (fun o t c => NText (t_value t) (merge_contexts (t_ctx o) (t_ctx c)))); [exact Hg| | |eauto].
    - intros x. apply get_opening. exact Hg.
    - intros t r x _ Hr. edestruct (collect_total) as (a & r' & E & H1 & H2 & H3); [exact Hr|]. exists a, r'. split; [exact E|]. split; [exact H1|]. split; [exact H2|].
      intros c. unfold visible. cbn [map flat concat_str]. rewrite app_nil_r. exact H3.
  Qed.
  Lemma tame_style words rem : good rem ->
    (forall stops r x, good r -> length r < length rem -> token_in EOF_tok stops = true ->
      exists ns r', words stops (r, x) = ((r', x), Ok ns) /\ good r' /\ length r' <= length r /\ ord r = ordinary_chars (visible ns) ++ ord r') ->
    tame (tp_style words) rem.
  Proof.
    intros Hg Hw. unfold tp_style.
    apply (tame_marks (pget_token (Some T_LITERAL) None (Some (fun v => dmem v map_styles))) (fun o => get_tv T_LITERAL (t_value o))
             (fun o => words (style_stops (t_value o)))
             (fun o content c => NStyle (match dget (t_value o) map_styles with Some s => s | None => [] end) (group_words [] content) (merge_contexts (t_ctx o) (t_ctx c)))); [exact Hg| | |eauto].
    - intros x. apply get_opening. exact Hg.
    - intros t r x -> Hr. destruct (Hw (style_stops (t_value t)) r x Hr) as (ns & r' & E & H1 & H2 & H3); [cbn; lia| |].
      + unfold token_in, style_stops. cbn [existsb]. change (token_eqb EOF_tok EOF_tok) with true. apply orb_true_r.
      + exists ns, r'. split; [exact E|]. split; [exact H1|]. split; [exact H2|]. intros c. unfold visible at 1. cbn [map flat concat_str]. rewrite app_nil_r.
        fold (visible (group_words [] ns)). rewrite visible_group by constructor. exact H3.
  Qed.
  Lemma sure_word t r : fine (tv t) -> good r -> sure tp_word (t :: r).
  Proof.
    intros Ht Hr x. unfold tp_word, get_tok, pbind, pget_token. cbn [fst snd peek_tok]. unfold check_token. 
    destruct (good_tail t r (good_cons t r Ht Hr)) as [_ G]. destruct (G Ht) as [E _]. cbn [fst] in *. rewrite E. unfold pret.
    eexists _, _. split; [reflexivity|]. split; [discriminate|]. split; [exact Hr|]. split; [cbn; lia|].
    rewrite ord_cons. unfold visible. cbn [map flat concat_str]. rewrite app_nil_r. reflexivity.
  Qed.

  Lemma words_total n : forall stops rem x, good rem -> length rem < n -> token_in EOF_tok stops = true ->
    exists ns rem', tp_words e nest n stops (rem, x) = ((rem', x), Ok ns) /\ good rem' /\ length rem' <= length rem /\
      ord rem = ordinary_chars (visible ns) ++ ord rem' /\ exists t r, rem' = t :: r /\ token_in t stops = true.
  Proof.
    induction n as [|n IH]; intros stops rem x Hg Hn He; [lia|].
    destruct rem as [|t r]; [apply good_ne in Hg; congruence|]. destruct (token_in t stops) eqn:Et.
    - rewrite words_stop by exact Et. eexists _, _. split; [reflexivity|]. split; [exact Hg|]. split; [auto|]. split; [reflexivity|eauto].
    - assert (Hf : fine (tv t) /\ good r).
      { inversion Hg; subst; [|auto]. exfalso. assert (token_in (mkToken T_EOF [] c) stops = true) by exact He. congruence. }
      destruct Hf as [Hf Hr].
      assert (Hs : sure (tp_item e nest (tp_words e nest n)) (t :: r)).
      { apply first_sure; [|apply sure_word; assumption].
        repeat (apply Forall_cons || apply Forall_nil).
        - apply tame_backslash, Hg.
        - apply tame_macro, Hg.
        - apply tame_verbatim, Hg.
        - apply tame_escaped, Hg.
        - apply tame_style; [exact Hg|]. intros st r0 x0 G1 G2 G3. destruct (IH st r0 x0 G1 ltac:(cbn [length] in *; lia) G3) as (ns & r' & E & H1 & H2 & H3 & _).
          exists ns, r'. auto. }
      destruct (Hs x) as (rem' & ns & E & Hne & Hg' & Hl & Hv).
      rewrite (words_step e nest n stops t r x (rem', x) ns Et Hne E).
      destruct (IH stops rem' x Hg' ltac:(cbn [length] in *; lia) He) as (ns2 & rem2 & E2 & H1 & H2 & H4 & H3). rewrite E2. unfold prepend. cbn [fst snd rmap].
      eexists _, _. split; [reflexivity|]. split; [exact H1|]. split; [lia|]. split; [|exact H3].
      rewrite Hv, H4, visible_app, ordinary_app, app_assoc. reflexivity.
  Qed.
End Total.

(* a line that is not made of spaces only *)
Lemma line_total d e o next w k : no_chr NL w -> no_space_end w -> (w = [] -> k = 0) -> ~ In (chr "[") w ->
  exists nodes, tp_run (S d) e (w ++ repeat SP k) o next = Ok (mkTx nodes [] [] next) /\
    ordinary_chars (visible nodes) = ordinary_chars w.
Proof.
  intros Hnl Hend Hk Hb. destruct (lex_line w k o Hnl Hend Hk) as (toks & c & Hlex & Htv).
  cbn [tp_run]. set (nest := fun text o s => _). rewrite Hlex.
  assert (Hg : good (toks ++ [mkToken T_EOF [] c])).
  { assert (Hi : forall t, In t toks -> fine (tv t)).
    { intros t Ht. assert (K : In (tv t) (tk w)) by (rewrite <- Htv; apply in_map, Ht). split; [|split].
      - pose proof (tk_inline w) as F. rewrite Forall_forall in F. exact (F _ K).
      - intros E. rewrite E in K. apply Hb. apply (tk_in w T_LITERAL (lit "[")); [exact K|left; reflexivity].
      - intros E. pose proof (tk_tok w) as F. rewrite Forall_forall in F. destruct (F _ K) as (_ & [K2|(c2 & K2 & K3)]); [unfold tv in *; cbn [fst snd] in *; rewrite E in K2; discriminate|].
        rewrite K2. exists c2. split; [reflexivity|]. apply specials_same, K3. }
    clear - Hi. induction toks as [|t toks IH]; [constructor|]. cbn [app]. constructor; [apply Hi; left; reflexivity|].
    apply IH. intros u Hu. apply Hi. right; exact Hu. }
  assert (Hord : ord (toks ++ [mkToken T_EOF [] c]) = ordinary_chars w).
  { rewrite ord_app, ord_cons. cbn [t_value]. change (ord []) with (@nil N). cbn [ordinary_chars filter app]. rewrite app_nil_r.
    unfold ord. rewrite <- (tk_values w), <- Htv, map_map. reflexivity. }
  destruct (words_total e nest (S (length (toks ++ [mkToken T_EOF [] c]))) text_stops _ (tx_init next) Hg ltac:(lia) eq_refl) as (ns & rem' & E & G1 & G2 & Hv & (t & r & -> & G3)).
  assert (Hend' : exists c', t :: r = [mkToken T_EOF [] c']).
  { inversion G1 as [c' Ec|t' r' [Ht _] Hr Ec]; subst; [eauto|]. exfalso. pose proof (stops_inline None t Ht ltac:(discriminate)) as K. cbn [stops_of] in K. congruence. }
  destruct Hend' as (c' & Ec). rewrite Ec in E, Hv. rewrite Hord in Hv.
  change (ord [mkToken T_EOF [] c']) with (@nil N) in Hv. rewrite app_nil_r in Hv.
  destruct toks as [|u toks].
  - exists []. split; [apply (run_line e nest [] c c next [] (tx_init next)); [constructor|congruence|auto]|].
    rewrite <- Hord. reflexivity.
  - exists (group_words [] ns). split.
    + rewrite (run_line e nest (u :: toks) c c' next ns (tx_init next)); [reflexivity|rewrite Htv; apply tk_inline|intros _; exact E|discriminate].
    + rewrite visible_group by constructor. symmetry. exact Hv.
Qed.

Lemma merge_self c : merge_contexts c c = c.
Proof. destruct c. unfold merge_contexts. cbn. rewrite !Nat.min_id, !Nat.max_id. reflexivity. Qed.
(* a line made of spaces *)
Lemma blank_total d e o next k : exists nodes, tp_run (S d) e (repeat SP (S k)) o next = Ok (mkTx nodes [] [] next) /\ visible nodes = repeat SP (S k).
Proof.
  assert (Hlex : exists c c', lex_text (buffer (repeat SP (S k)) o) = Ok [mkToken T_EOL (repeat SP (S k)) c; mkToken T_EOF [] c']).
  { destruct (lexed_text text_next text_lexer_fns lex_text_ok (repeat SP (S k)) (o_line o) (o_column o) (o_source o)) as (toks & H1 & [H2 _]).
    rewrite line_of_text, all_sp_sps in H2 by apply sps_no_nl.
    assert (H3 : map tv toks = [(T_EOL, repeat SP (S k)); (T_EOF, [])]) by exact H2.
    apply map_tv_cons in H3 as (c & r & -> & Hr). apply map_tv_cons in Hr as (c' & r' & -> & Hr). apply map_tv_nil in Hr as ->.
    exists c, c'. exact H1. }
  destruct Hlex as (c & c' & Hlex). cbn [tp_run]. set (nest := fun text o s => _). rewrite Hlex.
  set (t := mkToken T_EOL (repeat SP (S k)) c). set (E := mkToken T_EOF [] c').
  assert (Hitem : tp_words e nest 3 text_stops ([t; E], tx_init next) = (([E], tx_init next), Ok [NWord (repeat SP (S k)) c])).
  { rewrite (words_step e nest 2 text_stops t [E] (tx_init next) ([E], tx_init next) [NWord (repeat SP (S k)) c]); [|reflexivity|discriminate|].
    - rewrite words_stop by reflexivity. reflexivity.
    - unfold tp_item. rewrite skip_backslash, skip_macro, skip_verbatim, skip_escaped, skip_style; [reflexivity|intros K; inversion K..]. }
  assert (Ht : t_type t <> T_EOF) by discriminate.
  exists [NText (repeat SP (S k)) c]. split.
  - unfold prun. cbn [rbind]. unfold pparse. cbn [fst].
    rewrite (ploop_step _ _ _ _ _ _ ([E], mkTx [NText (repeat SP (S k)) c] [] [] next) Ht (start_token_same t Ht)).
    + rewrite ploop_eof by reflexivity. reflexivity.
    + cbn [ptry]. unfold pbind at 1, pwith. unfold tp_sentence. cbn [fst length]. unfold pbind at 1. rewrite Hitem. unfold pbind, pmod, pret. cbn [fst snd].
      cbn [group_words is_word app word_group map word_value concat_str last inode_ctx tx_nodes tx_init tx_foot tx_links tx_next].
      rewrite app_nil_r, merge_self. reflexivity.
  - unfold visible. cbn [map flat concat_str]. apply app_nil_r.
Qed.

Lemma trailing s : exists w k, s = w ++ repeat SP k /\ no_space_end w.
Proof.
  induction s as [|c s IH] using rev_ind; [exists [], 0; split; [reflexivity|discriminate]|]. destruct (N.eq_dec c SP) as [->|Hc].
  - destruct IH as (w & k & -> & Hw). exists w, (k + 1). split; [|exact Hw]. rewrite repeat_app, app_assoc. reflexivity.
  - exists (s ++ [c]), 0. split; [rewrite app_nil_r; reflexivity|]. unfold no_space_end. rewrite rev_app_distr. cbn. congruence.
Qed.
Lemma ordinary_sps k : ordinary_chars (repeat SP k) = repeat SP k.
Proof. induction k as [|k IH]; [reflexivity|]. cbn [repeat]. unfold ordinary_chars. cbn [filter]. change (mem_chr SP SPECIAL) with false. cbn [negb]. f_equal. exact IH. Qed.

(* C31: every line without '[' is parsed, without any registration. *)
Theorem C31_no_bracket_never_fails d e o next s : no_chr NL s -> ~ In (chr "[") s ->
  exists nodes, tp_run (S d) e s o next = Ok (mkTx nodes [] [] next).
Proof.
  intros Hnl Hb. destruct (trailing s) as (w & k & -> & Hw). destruct w as [|a w]; [destruct k as [|k]|].
  - destruct (line_total d e o next [] 0) as (nodes & E & _); [intros []|discriminate|auto|intros []|]. exists nodes. exact E.
  - destruct (blank_total d e o next k) as (nodes & E & _). exists nodes. exact E.
  - destruct (line_total d e o next (a :: w) k) as (nodes & E & _); [intros K; apply Hnl, in_or_app; left; exact K|exact Hw|discriminate|intros K; apply Hb, in_or_app; left; exact K|].
    exists nodes. exact E.
Qed.

(* C55: in such a line no ordinary character is added or moved, and none is lost
   except spaces at the end of the line. *)
Theorem C55_no_ordinary_character_lost d e o next s : no_chr NL s -> ~ In (chr "[") s ->
  forall x, tp_run (S d) e s o next = Ok x ->
  exists k, ordinary_chars s = ordinary_chars (visible (tx_nodes x)) ++ repeat SP k.
Proof.
  intros Hnl Hb x Hx. destruct (trailing s) as (w & k & -> & Hw). destruct w as [|a w]; [destruct k as [|k]|].
  - destruct (line_total d e o next [] 0) as (nodes & E & Hv); [intros []|discriminate|auto|intros []|]. cbn [repeat app] in *. rewrite E in Hx. apply Ok_inv in Hx. subst x.
    exists 0. cbn [repeat tx_nodes]. rewrite app_nil_r. symmetry. exact Hv.
  - destruct (blank_total d e o next k) as (nodes & E & Hv). cbn [app] in Hx. rewrite E in Hx. apply Ok_inv in Hx. subst x. exists 0. cbn [tx_nodes]. rewrite Hv, app_nil_r. reflexivity.
  - destruct (line_total d e o next (a :: w) k) as (nodes & E & Hv); [intros K; apply Hnl, in_or_app; left; exact K|exact Hw|discriminate|intros K; apply Hb, in_or_app; left; exact K|].
    rewrite E in Hx. apply Ok_inv in Hx. subst x. exists k. cbn [tx_nodes]. rewrite ordinary_app, ordinary_sps, Hv. reflexivity.
Qed.

(* the hypotheses are met, with unbalanced marks *)
Example C31_witness : let w := lit "a *b _c* `d $e% (f)] \" in
  no_chr NL w /\ ~ In (chr "[") w /\
  rmap (fun x => visible (tx_nodes x)) (tp_run 1 [] w o0 0) = Ok (lit "a b _c `d $e% (f)] ").
Proof.
  intros w. split; [|split].
  - intros K; cbn in K; repeat (destruct K as [K|K]; [discriminate|]); exact K.
  - intros K; cbn in K; repeat (destruct K as [K|K]; [discriminate|]); exact K.
  - vm_compute. reflexivity.
Qed.
Print Assumptions C31_no_bracket_never_fails.
Print Assumptions C55_no_ordinary_character_lost.
