(* PropertiesReg.v -- C32: which footnote and header macros are registered *)
From Verif Require Export PropertiesMacro.

(* The mentions in a node that are not inside the text of another macro. *)
Fixpoint own_foots (n : inode) : list inode :=
  match n with
  | NFootnote _ _ _ => [n]
  | NStyle _ l _ => concat (map own_foots l)
  | _ => []
  end.
Fixpoint own_heads (n : inode) : list inode :=
  match n with
  | NHeaderLink _ _ _ _ => [n]
  | NStyle _ l _ => concat (map own_heads l)
  | _ => []
  end.
Definition reg (ns : list inode) (x : tx) : Prop :=
  incl (concat (map own_foots ns)) (tx_foot x) /\ incl (concat (map own_heads ns)) (tx_links x).
Definition grows (x x' : tx) : Prop := tx_nodes x' = tx_nodes x /\ incl (tx_foot x) (tx_foot x') /\ incl (tx_links x) (tx_links x').
Definition mono (R : tx -> Prop) : Prop := forall x x', grows x x' -> R x -> R x'.

Lemma Ok_pair_inj {A B} (a a' : A) (b b' : B) : Ok (a, b) = Ok (a', b') -> a = a' /\ b = b'.
Proof. intros H. inversion H. auto. Qed.
Lemma grows_refl x : grows x x.
Proof. split; [reflexivity|split; apply incl_refl]. Qed.
Lemma grows_trans x y z : grows x y -> grows y z -> grows x z.
Proof. intros (N1 & A & B) (N2 & C & D). split; [congruence|]. split; eapply incl_tran; eassumption. Qed.
Lemma reg_mono ns : mono (reg ns).
Proof. intros x x' (_ & A & B) [C D]. split; eapply incl_tran; eassumption. Qed.
Lemma reg_nil x : reg [] x.
Proof. split; intros ? []. Qed.
Lemma reg_app a b x : reg a x -> reg b x -> reg (a ++ b) x.
Proof. intros [A B] [C D]. unfold reg. rewrite !map_app, !concat_app. split; apply incl_app; assumption. Qed.
Lemma reg_split a b x : reg (a ++ b) x -> reg a x /\ reg b x.
Proof.
  unfold reg. rewrite !map_app, !concat_app. intros [A B].
  repeat split; intros y Hy; (apply A || apply B); apply in_or_app; auto.
Qed.
Lemma reg_word v c x : reg [NWord v c] x.
Proof. split; intros ? []. Qed.
Lemma reg_words ws x : word_all ws -> reg ws x.
Proof. induction 1 as [|w ws Hw H IH]; [apply reg_nil|]. destruct w; try discriminate. apply (reg_app [NWord v c]); [apply reg_word|exact IH]. Qed.
Lemma reg_group ns : forall g x, word_all g -> reg ns x -> reg (group_words g ns) x.
Proof.
  assert (Hw : forall g x, reg (word_group g) x) by (intros [|w g] x; [apply reg_nil|split; intros ? []]).
  induction ns as [|n ns IH]; intros g x Hg H; cbn [group_words]; [apply Hw|].
  apply (reg_split [n] ns) in H as [H1 H2]. destruct (is_word n) eqn:E.
  - apply IH; [|exact H2]. apply Forall_app. split; [exact Hg|constructor; [exact E|constructor]].
  - apply reg_app; [apply Hw|]. apply (reg_app [n]); [exact H1|]. apply IH; [constructor|exact H2].
Qed.

(* No control macro among the tokens. *)
Definition opens_if (t u : token) : Prop := tv t = (T_LITERAL, lit "[") /\ t_type u = T_TEXT /\ startswith (lit "if") (t_value u) = true.
Fixpoint no_if (rem : list token) : Prop :=
  match rem with
  | t :: r => (forall u r', r = u :: r' -> ~ opens_if t u) /\ no_if r
  | [] => True
  end.
Lemma no_if_next rem : no_if rem -> no_if (next_rem rem).
Proof. destruct rem as [|t [|u r]]; auto. intros [_ H]. exact H. Qed.

Definition okout {A} (R : A -> tx -> Prop) (x : tx) (out : (list token * tx) * res A) : Prop :=
  grows x (snd (fst out)) /\ match out with (s, Ok a) => no_if (fst s) /\ R a (snd s) | _ => True end.
Definition safe (Pre : tx -> Prop) {A} (R : A -> tx -> Prop) (f : P tx A) : Prop := forall rem x, no_if rem -> Pre x -> okout R x (f (rem, x)).

Lemma safe_bind {A B} Pre (R : A -> tx -> Prop) (S' : B -> tx -> Prop) f g :
  safe Pre R f -> (forall a, safe (R a) S' (g a)) -> safe Pre S' (pbind f g).
Proof.
  intros Hf Hg rem x Hr Hx. specialize (Hf rem x Hr Hx). unfold pbind. destruct (f (rem, x)) as [[rem' x'] [a|ex]]; cbn [fst snd] in *; [|exact Hf].
  destruct Hf as [H1 [H2 H3]]. destruct (Hg a rem' x' H2 H3) as [H4 H5]. split; [eapply grows_trans; eassumption|exact H5].
Qed.
Lemma safe_ret {A} (Pre : tx -> Prop) (R : A -> tx -> Prop) a : (forall x, Pre x -> R a x) -> safe Pre R (pret a).
Proof. intros H rem x Hr Hx. split; [apply grows_refl|]. split; [exact Hr|apply H, Hx]. Qed.
Lemma safe_raise {A} Pre (R : A -> tx -> Prop) e : safe Pre R (praise e).
Proof. intros rem x Hr Hx. split; [apply grows_refl|exact I]. Qed.
Lemma safe_lift {A} (Pre : tx -> Prop) (r : res A) : safe Pre (fun _ => Pre) (plift r).
Proof. intros rem x Hr Hx. split; [apply grows_refl|]. unfold plift. destruct r; [split; assumption|exact I]. Qed.
Lemma safe_get (Pre : tx -> Prop) ty v f : safe Pre (fun _ => Pre) (pget_token ty v f).
Proof.
  intros rem x Hr Hx. unfold pget_token. cbn [fst snd]. destruct (peek_tok rem ty v f); (split; [apply grows_refl|]); [|exact I].
  split; [apply no_if_next, Hr|exact Hx].
Qed.
Lemma safe_peek_is (Pre : tx -> Prop) ty v f : safe Pre (fun _ => Pre) (peek_is ty v f).
Proof.
  intros rem x Hr Hx. unfold peek_is. cbn [fst snd]. split; [apply grows_refl|].
  destruct (peek_tok rem ty v f) as [|[]]; try exact I; split; assumption.
Qed.
Lemma safe_peek (Pre : tx -> Prop) ty v f : safe Pre (fun _ => Pre) (ppeek ty v f).
Proof. intros rem x Hr Hx. unfold ppeek. cbn [fst snd]. split; [apply grows_refl|]. destruct (peek_tok rem ty v f); [split; assumption|exact I]. Qed.

Lemma collect_no_if stops p rem : no_if rem -> forall c rest, collect_list stops p rem = Ok (c, rest) -> no_if rest.
Proof.
  remember (length rem) as n eqn:Hn. revert rem Hn. induction n as [n IH] using lt_wf_ind. intros rem -> H c rest E.
  destruct rem as [|t r]; [discriminate|]. cbn [collect_list] in E. destruct (token_in t stops); [apply Ok_pair_inj in E as [_ E]; subst rest; exact H|].
  destruct H as [_ H]. destruct (token_eqb t escape_tok).
  - destruct r as [|u [|y ys]]; [discriminate|apply Ok_pair_inj in E as [_ E]; subst rest; exact H|].
    destruct (collect_list stops p (y :: ys)) as [[c1 rest1]|] eqn:E1; cbn [rbind] in E; [|discriminate].
    apply Ok_pair_inj in E as [_ E]; subst rest. destruct H as [_ H]. apply (IH (length (y :: ys)) ltac:(cbn; lia) (y :: ys) eq_refl H c1 rest1 E1).
  - destruct (collect_list stops p r) as [[c1 rest1]|] eqn:E1; cbn [rbind] in E; [|discriminate]. apply Ok_pair_inj in E as [_ E]; subst rest.
    apply (IH (length r) ltac:(cbn; lia) r eq_refl H c1 rest1 E1).
Qed.
Lemma safe_collect (Pre : tx -> Prop) stops j p : safe Pre (fun _ => Pre) (pcollect_join stops j p).
Proof.
  apply (safe_bind Pre (fun _ => Pre)); [|intros a; apply safe_ret; auto].
  intros rem x Hr Hx. unfold pcollect. cbn [fst snd]. destruct (collect_list _ p rem) as [[c rest]|] eqn:E; cbn [fst snd]; (split; [apply grows_refl|]); [|exact I].
  split; [exact (collect_no_if _ _ _ Hr _ _ E)|exact Hx].
Qed.
Lemma safe_weak {A} (Pre Pre' : tx -> Prop) (R R' : A -> tx -> Prop) f : (forall x, Pre' x -> Pre x) -> (forall a x, R a x -> R' a x) -> safe Pre R f -> safe Pre' R' f.
Proof.
  intros H1 H2 H rem x Hr Hx. destruct (H rem x Hr (H1 x Hx)) as [A1 A2]. split; [exact A1|].
  destruct (f (rem, x)) as [s [a|]]; [|exact I]. destruct A2 as [B1 B2]. auto.
Qed.
Lemma safe_frame {A} (Pre : tx -> Prop) (R : A -> tx -> Prop) f : mono Pre -> safe (fun _ => True) R f -> safe Pre (fun a x => Pre x /\ R a x) f.
Proof.
  intros Hm H rem x Hr Hx. destruct (H rem x Hr I) as [A1 A2]. split; [exact A1|]. destruct (f (rem, x)) as [s [a|]]; [|exact I].
  cbn [fst snd] in *. destruct A2 as [B1 B2]. split; [exact B1|]. split; [exact (Hm _ _ A1 Hx)|exact B2].
Qed.

Definition any : tx -> Prop := fun _ => True.
Notation gives f := (safe any reg f).

Lemma args_safe n : safe any (fun _ => any) (tp_args_loop n).
Proof.
  induction n as [|n IH]; [apply safe_raise|]. cbn [tp_args_loop].
  apply (safe_bind _ (fun _ => any)); [apply safe_peek_is|]. intros close. apply (safe_bind _ (fun _ => any)); [apply safe_peek_is|]. intros eof.
  destruct (close || eof); [apply safe_ret; auto|]. apply (safe_bind _ (fun _ => any)); [apply safe_peek_is|]. intros q.
  apply (safe_bind _ (fun _ => any)).
  - destruct q; [|apply safe_collect]. apply (safe_bind _ (fun _ => any)); [apply safe_get|]. intros o. apply (safe_bind _ (fun _ => any)); [apply safe_collect|]. intros t.
    apply (safe_bind _ (fun _ => any)); [apply safe_get|]. intros c. apply safe_ret. auto.
  - intros t. apply (safe_bind _ (fun _ => any)); [exact IH|]. intros r. apply safe_ret; auto.
Qed.
Lemma macro_args_safe : safe any (fun _ => any) tp_macro_args.
Proof.
  intros rem x Hr Hx. unfold tp_macro_args. cbn [fst].
  apply (safe_bind any (fun _ => any) (fun _ => any) (tp_args_loop (S (length rem))) (fun ts => pret (from_token_list ts []))); auto.
  - apply args_safe.
  - intros a. apply safe_ret. auto.
Qed.

Definition opaque (n : inode) : Prop := own_foots n = [] /\ own_heads n = [].
Lemma reg_opaque n x : opaque n -> reg [n] x.
Proof. intros [A B]. split; cbn [map concat]; rewrite ?A, ?B; intros ? []. Qed.

Section Reg.
  Variables (e : env) (d : nat).
  Notation nest := (nested d e).

  Lemma nest_safe Pre t o : mono Pre -> safe Pre (fun _ => Pre) (nest t o).
  Proof.
    intros Hm rem x Hr Hx. unfold nested. destruct (tp_run d e t o (tx_next (snd (rem, x)))) as [y|]; cbn [fst snd]; [|split; [apply grows_refl|exact I]].
    assert (G : grows x (mkTx (tx_nodes x) (tx_foot x) (tx_links x) (tx_next y))) by (split; [reflexivity|split; apply incl_refl]). split; [exact G|]. split; [exact Hr|]. exact (Hm _ _ G Hx).
  Qed.
  Lemma any_mono : mono any.
  Proof. intros x x' _ H. exact H. Qed.
  Lemma needed_safe p n m c : safe any (fun _ => any) (needed p n m c).
  Proof. unfold needed. destruct (named_arg p n); [apply safe_ret; auto|apply safe_raise]. Qed.
  Lemma content_safe t o : safe any (fun _ => any) (tp_link_content nest t o).
  Proof. unfold tp_link_content. destruct o; [apply nest_safe, any_mono|apply safe_ret; auto]. Qed.

  Ltac step := apply (safe_bind _ (fun _ => any)); [first [apply needed_safe|apply content_safe|apply nest_safe, any_mono|apply safe_get|apply safe_collect|apply safe_lift]|intros ?].
  Ltac done := apply safe_ret; intros ? _; apply reg_opaque; split; reflexivity.

  Lemma link_safe p c : gives (tp_link nest p c).
  Proof. unfold tp_link. step. step. done. Qed.
  Lemma mailto_safe p c : gives (tp_mailto nest p c).
  Proof. unfold tp_mailto. step. step. done. Qed.
  Lemma class_safe p c : gives (tp_class nest p c).
  Proof. unfold tp_class. step. step. done. Qed.
  Lemma unicode_safe p c : gives (tp_unicode p c).
  Proof. unfold tp_unicode. step. done. Qed.
  Lemma raw_safe p c : gives (tp_raw p c).
  Proof. unfold tp_raw. step. done. Qed.
  Lemma image_safe p c : gives (tp_image p c).
  Proof. unfold tp_image. step. done. Qed.
  Lemma footnote_safe p c : gives (tp_footnote p c).
  Proof.
    unfold tp_footnote. step. intros rem x Hr _. unfold pbind, pget, pmod, pret. cbn [fst snd].
    split; [split; [reflexivity|split; [apply incl_appl, incl_refl|apply incl_refl]]|]. split; [exact Hr|]. split; cbn; [|intros ? []].
    intros y [<-|[]]. apply in_or_app. right. left. reflexivity.
  Qed.
  Lemma header_safe p c : gives (tp_header_link nest p c).
  Proof.
    unfold tp_header_link. step.
    apply (safe_bind _ (fun _ => any)); [destruct (named_arg _ _); [apply nest_safe, any_mono|apply safe_ret; auto]|]. intros nodes.
    intros rem x Hr _. unfold pbind, pget, pmod, pret. cbn [fst snd].
    split; [split; [reflexivity|split; [apply incl_refl|apply incl_appl, incl_refl]]|]. split; [exact Hr|]. split; cbn; [intros ? []|].
    intros y [<-|[]]. apply in_or_app. right. left. reflexivity.
  Qed.
  Lemma dispatch_safe t p c : startswith (lit "if") (t_value t) = false -> gives (dispatch e nest t p c).
  Proof.
    intros H. unfold dispatch. cbv zeta. rewrite H.
    repeat (match goal with |- context [str_eqb (t_value t) ?n] => destruct (str_eqb (t_value t) n) end).
    all: first [apply link_safe|apply header_safe|apply mailto_safe|apply image_safe|apply footnote_safe|apply class_safe|apply unicode_safe|apply raw_safe|done].
  Qed.
  Lemma macro_safe : gives (tp_macro e nest).
  Proof.
    intros rem x Hr Hx. unfold tp_macro. unfold pbind at 1.
    assert (E : forall name, safe any reg (get_tv T_LITERAL (lit "]") ;;; get_tv T_LITERAL (lit "(") ;;;
      let* argt := tp_macro_args in let* cl := get_tv T_LITERAL (lit ")") in let* p := plift (process_arguments e argt) in
      if startswith (lit "if") (t_value name) then praise ExTokenError else dispatch e nest name p (merge_contexts (t_ctx (hd name rem)) (t_ctx cl)))).
    { intros name. step. step. apply (safe_bind _ (fun _ => any)); [apply macro_args_safe|]. intros argt. step. step.
      destruct (startswith (lit "if") (t_value name)) eqn:E; [apply safe_raise|apply dispatch_safe, E]. }
    destruct rem as [|t r]; [split; [apply grows_refl|exact I]|].
    unfold get_tv at 1. unfold pget_token at 1. cbn [fst snd peek_tok]. destruct (check_token t (Some T_LITERAL) (Some (lit "[")) None) as [t'|ex] eqn:Ec; [|split; [apply grows_refl|exact I]].
    assert (t' = t) as ->. { revert Ec. unfold check_token. repeat (destruct (negb _); [discriminate|]). congruence. }
    pose proof (check_type _ _ _ _ _ Ec) as Hty. pose proof (check_value _ _ _ _ _ Ec) as Hva.
    unfold pbind at 1. unfold get_ty, pget_token at 1. cbn [fst snd].
    destruct (peek_tok (next_rem (t :: r)) (Some T_TEXT) None None) as [u|ex] eqn:Eu; [|split; [apply grows_refl|exact I]].
    assert (Hif : startswith (lit "if") (t_value u) = false /\ no_if (next_rem (next_rem (t :: r)))).
    { destruct r as [|u' r'].
      - cbn [next_rem peek_tok] in Eu. unfold check_token in Eu. rewrite Hty in Eu. discriminate.
      - cbn [next_rem peek_tok] in Eu. pose proof (check_type _ _ _ _ _ Eu) as Hu. assert (u = u') as ->. { revert Eu. unfold check_token. repeat (destruct (negb _); [discriminate|]). congruence. }
        destruct Hr as [Hr1 Hr2]. split; [|apply no_if_next, Hr2]. destruct (startswith (lit "if") (t_value u')) eqn:Es; [|reflexivity].
        exfalso. apply (Hr1 u' r' eq_refl). unfold opens_if, tv. rewrite Hty, Hva. auto. }
    destruct Hif as [Hif Hno]. specialize (E u _ x Hno Hx). rewrite Hif in E. cbn [hd] in E. exact E.
  Qed.
  Lemma backslash_safe : gives tp_backslash.
  Proof. unfold tp_backslash. step. step. done. Qed.
  Lemma verbatim_safe : gives tp_verbatim.
  Proof. unfold tp_verbatim. step. step. step. done. Qed.
  Lemma escaped_safe : gives tp_escaped.
  Proof. unfold tp_escaped. step. step. step. done. Qed.
  Lemma word_safe : gives tp_word.
  Proof. unfold tp_word. step. done. Qed.
  Lemma style_safe words : (forall stops, gives (words stops)) -> gives (tp_style words).
  Proof.
    intros Hw. unfold tp_style. step. apply (safe_bind _ reg); [apply Hw|]. intros ns.
    apply (safe_bind _ (fun _ => reg ns)); [apply safe_get|]. intros c. apply safe_ret. intros x Hx.
    pose proof (reg_group ns [] x ltac:(constructor) Hx) as [A B]. split; cbn [map concat own_foots own_heads]; rewrite app_nil_r; assumption.
  Qed.
  Lemma first_safe fs last : Forall (fun f => gives f) fs -> gives last -> gives (tp_first fs last).
  Proof.
    intros Hf Hl. induction Hf as [|f fs Hf Hfs IH]; [exact Hl|]. cbn [tp_first].
    apply (safe_bind _ (fun o x => match o with Some ns => reg ns x | None => True end)).
    - intros rem x Hr Hx. specialize (Hf rem x Hr Hx). unfold pwith. destruct (f (rem, x)) as [[rem' x'] [ns|[]]]; cbn [fst snd] in *; destruct Hf as [H1 H2]; (split; [exact H1|]); auto.
    - intros [ns|]; [apply safe_ret; auto|]. eapply safe_weak; [| |exact IH]; [intros x _; exact I|auto].
  Qed.
  Lemma words_safe n : forall stops, gives (tp_words e nest n stops).
  Proof.
    induction n as [|n IH]; intros stops; [apply safe_raise|]. cbn [tp_words].
    apply (safe_bind _ (fun _ => any)); [apply safe_peek|]. intros t. destruct (token_in t stops); [apply safe_ret; intros; apply reg_nil|].
    apply (safe_bind _ reg).
    - apply first_safe; [|apply word_safe].
      repeat (apply Forall_cons || apply Forall_nil); [apply backslash_safe|apply macro_safe|apply verbatim_safe|apply escaped_safe|apply style_safe, IH].
    - intros ns. destruct ns as [|a ns]; [apply safe_ret; intros; apply reg_nil|].
      apply (safe_bind _ (fun rest x => reg (a :: ns) x /\ reg rest x)); [apply safe_frame; [apply reg_mono|apply IH]|].
      intros rest. apply safe_ret. intros x [H1 H2]. apply (reg_app (a :: ns)); assumption.
  Qed.
  Definition all_reg (x : tx) : Prop := reg (tx_nodes x) x.
  Lemma all_reg_grows x x' : grows x x' -> all_reg x -> all_reg x'.
  Proof. intros G H. unfold all_reg. pose proof (reg_mono _ _ _ G H) as K. destruct G as [G _]. rewrite G. exact K. Qed.
  Lemma sentence_safe rem x : no_if rem -> all_reg x ->
    all_reg (snd (fst (tp_sentence e nest (rem, x)))) /\ match tp_sentence e nest (rem, x) with (s, Ok _) => no_if (fst s) | _ => True end.
  Proof.
    intros Hr Hx. unfold tp_sentence. cbn [fst]. destruct (words_safe (S (length rem)) text_stops rem x Hr I) as [H1 H2].
    unfold pbind at 1 3. destruct (tp_words e nest (S (length rem)) text_stops (rem, x)) as [[rem' x'] [ns|ex]]; cbn [fst snd] in *.
    - destruct H2 as [H2 H3]. unfold pbind, pmod, pret. cbn [fst snd]. split; [|exact H2].
      pose proof (all_reg_grows _ _ H1 Hx) as Hx'. unfold all_reg. cbn [tx_nodes]. apply reg_app.
      + exact Hx'.
      + apply (reg_group ns [] x' ltac:(constructor) H3).
    - split; [exact (all_reg_grows _ _ H1 Hx)|exact I].
  Qed.
  Lemma loop_safe n : forall last rem x, no_if rem -> all_reg x ->
    all_reg (snd (fst (ploop n [tp_sentence e nest] last (rem, x)))).
  Proof.
    induction n as [|n IH]; intros last rem x Hr Hx; [exact Hx|]. cbn [ploop]. unfold pbind at 1. unfold is_ty, peek_is. cbn [fst].
    destruct (peek_tok rem (Some T_EOF) None None) as [t|[]]; try exact Hx.
    unfold pbind at 1, ppeek. cbn [fst]. destruct (peek_tok rem None None None) as [nx|]; [|exact Hx].
    destruct (token_eqb nx last && context_eqb (t_ctx nx) (t_ctx last)); [exact Hx|].
    cbn [ptry]. unfold pbind at 1. unfold pbind at 1. unfold pwith. destruct (sentence_safe rem x Hr Hx) as [H1 H2].
    destruct (tp_sentence e nest (rem, x)) as [[rem' x'] [b|ex]]; cbn [fst snd] in *.
    - destruct b; [apply IH; assumption|]. unfold pbind, pret, ppeek, praise. cbn [fst snd]. destruct (peek_tok _ None None None); exact H1.
    - destruct ex; try exact H1. unfold pbind, pret, ppeek, praise. cbn [fst snd]. destruct (peek_tok _ None None None); exact H1.
  Qed.
End Reg.

(* A text has no control macro. *)
Definition no_control (s : str) : Prop := forall a b, s <> a ++ lit "[if" ++ b.

Lemma tokens_no_if toks w : map tv toks = tk w -> no_control w -> forall c, no_if (toks ++ [mkToken T_EOF [] c]).
Proof.
  intros Htv Hw c.
  assert (Hv : w = concat_str (map t_value toks)) by (rewrite <- (tk_values w), <- Htv, map_map; reflexivity).
  clear Htv. revert w Hv Hw. induction toks as [|t toks IH]; intros w Hv Hw; cbn [app no_if].
  - split; [discriminate|exact I].
  - split.
    + intros u r' Hu (K1 & K2 & K3). destruct toks as [|u' toks].
      * cbn [app] in Hu. injection Hu as <- _. discriminate.
      * cbn [app] in Hu. injection Hu as -> _. cbn [map concat_str] in Hv. unfold tv in K1. assert (Ht : t_value t = lit "[") by (inversion K1; reflexivity).
        apply startswith_spec in K3 as (v & K3). apply (Hw [] (v ++ concat_str (map t_value toks))). rewrite Hv, Ht, K3. reflexivity.
    + apply (IH (concat_str (map t_value toks)) eq_refl). intros a b E. cbn [map concat_str] in Hv. apply (Hw (t_value t ++ a) b). rewrite Hv, E, <- app_assoc. reflexivity.
Qed.

(* C32: in a line without control macros every mention that is not inside the text
   of another macro is registered.  Missing: those inside the text of a macro, for
   which it is false. *)
Theorem C32_mentions_registered_partial d e o next s x : no_chr NL s -> no_control s ->
  tp_run d e s o next = Ok x -> forall m, In m (tx_nodes x) ->
  incl (own_foots m) (tx_foot x) /\ incl (own_heads m) (tx_links x).
Proof.
  intros Hnl Hc Hx m Hm. destruct d as [|d]; [discriminate|].
  assert (Hlex : exists toks, lex_text (buffer s o) = Ok toks /\ no_if toks).
  { destruct (trailing s) as (w & k & -> & Hw). destruct w as [|a w]; [destruct k as [|k]|].
    - destruct (lex_line [] 0 o) as (toks & c & H1 & H2); [intros []|discriminate|auto|]. exists (toks ++ [mkToken T_EOF [] c]). split; [exact H1|].
      apply (tokens_no_if toks [] H2). exact Hc.
    - destruct (lexed_text text_next text_lexer_fns lex_text_ok (repeat SP (S k)) (o_line o) (o_column o) (o_source o)) as (toks & H1 & [H2 _]).
      rewrite line_of_text, all_sp_sps in H2 by apply sps_no_nl.
      assert (H3 : map tv toks = [(T_EOL, repeat SP (S k)); (T_EOF, [])]) by exact H2.
      apply map_tv_cons in H3 as (c & r & -> & Hr). apply map_tv_cons in Hr as (c' & r' & -> & Hr). apply map_tv_nil in Hr as ->.
      eexists. split; [exact H1|]. split; [|split; [discriminate|exact I]]. intros u r' _ (K & _). unfold tv in K. discriminate.
    - destruct (lex_line (a :: w) k o) as (toks & c & H1 & H2); [intros K; apply Hnl, in_or_app; left; exact K|exact Hw|discriminate|].
      eexists. split; [exact H1|]. apply (tokens_no_if toks (a :: w) H2). intros b b' E. apply (Hc b (b' ++ repeat SP k)). rewrite E, <- !app_assoc. reflexivity. }
  destruct Hlex as (toks & Hlex & Hno). rewrite run_unfold, Hlex in Hx. unfold prun in Hx. cbn [rbind] in Hx. unfold pparse in Hx. cbn [fst] in Hx.
  assert (H := loop_safe e d (S (S (2 * length toks))) start_token toks (tx_init next) Hno (reg_nil _)).
  destruct (ploop _ _ _ _) as [[rem' x'] [|]]; [|discriminate]. apply Ok_inv in Hx. cbn [fst snd] in *. subst x'. destruct H as [A B].
  split; intros y Hy; [apply A|apply B]; apply in_concat; eexists; (split; [apply in_map, Hm|exact Hy]).
Qed.
(* the hypotheses are met *)
Example C32_witness : no_control (lit "*a [footnote](n)* [class](b, c) [header](h)").
Proof.
  intros a b E. apply (f_equal (fun s => existsb (fun k => startswith (lit "[if") (skipn k s)) (seq 0 (length s)))) in E.
  assert (K : existsb (fun k => startswith (lit "[if") (skipn k (a ++ lit "[if" ++ b))) (seq 0 (length (a ++ lit "[if" ++ b))) = true).
  { apply existsb_exists. exists (length a). split; [apply in_seq; rewrite !app_length; cbn [length lit]; cbn; lia|].
    rewrite skipn_app, skipn_all, Nat.sub_diag. reflexivity. }
  assert (K2 : true = false); [|discriminate]. rewrite <- K, <- E. vm_compute. reflexivity.
Qed.

(* The claim is false inside the text of a macro, and for what a control macro gives. *)
Theorem C32_refuted_in_class d : exists c c' x, tp_run (S (S d)) [] (lit "[class](""[footnote](n)"", c)") o0 0 = Ok x /\
  tx_nodes x = [NClass [lit "c"] [NFootnote 0 (lit "n") c] c'] /\ tx_foot x = [].
Proof. eexists _, _, _. split; [vm_compute; reflexivity|]. split; vm_compute; reflexivity. Qed.
Theorem C32_refuted_in_control d : exists c x, tp_run (S (S d)) [(lit "f", EStr (lit "1"))] (lit "[if:f==1](""[footnote](n)"")") o0 0 = Ok x /\
  tx_nodes x = [NFootnote 0 (lit "n") c] /\ tx_foot x = [].
Proof. eexists _, _. split; [vm_compute; reflexivity|]. split; vm_compute; reflexivity. Qed.
(* A mention can also be registered more than once: the text of a style that is
   not closed is parsed again. *)
Theorem C32_registered_twice d : exists n1 n2 c x, tp_run (S d) [] (lit "*a [footnote](n)") o0 0 = Ok x /\
  tx_foot x = [NFootnote n1 (lit "n") c; NFootnote n2 (lit "n") c] /\ n1 <> n2 /\ length (concat (map own_foots (tx_nodes x))) = 1.
Proof. eexists _, _, _, _. split; [vm_compute; reflexivity|]. split; [vm_compute; reflexivity|]. split; [discriminate|vm_compute; reflexivity]. Qed.

Print Assumptions C32_mentions_registered_partial.
Print Assumptions C33_first_quoted_argument_partial.
Print Assumptions C33_refuted_second_argument.
Print Assumptions C54_link_text_partial.
Print Assumptions C56_refuted_escaped_quotes.
