(* NumText.v -- the numbers given to the macros of a text *)
From Verif Require Export SpecNumbers PropertiesReg.
#[local] Notation length := List.length.

(* ----------------------------------------------------- lists of marks *)
Definition cnt (i : nat) (l : marks) : nat := count_occ Nat.eq_dec (map fst l) i.
Lemma cnt_app i a b : cnt i (a ++ b) = cnt i a + cnt i b.
Proof. unfold cnt. rewrite map_app. apply count_occ_app. Qed.
Lemma cnt_cons i j m l : cnt i ((j, m) :: l) = (if Nat.eq_dec j i then 1 else 0) + cnt i l.
Proof. unfold cnt. cbn [map fst count_occ]. destruct (Nat.eq_dec j i); reflexivity. Qed.
Lemma cnt_in i l : 0 < cnt i l <-> In i (map fst l).
Proof. unfold cnt. symmetry. apply count_occ_In. Qed.
Lemma cnt_out i l : cnt i l = 0 <-> ~ In i (map fst l).
Proof. unfold cnt. symmetry. apply count_occ_not_In. Qed.
Lemma nodup_cnt l : NoDup (map fst l) <-> forall i, cnt i l <= 1.
Proof. unfold cnt. apply NoDup_count_occ. Qed.

Lemma NoDup_app_intro {A} (a b : list A) : NoDup a -> NoDup b -> (forall x, In x a -> ~ In x b) -> NoDup (a ++ b).
Proof.
  intros Ha Hb H. induction Ha as [|x a Hx Ha IH]; [exact Hb|]. cbn [app]. constructor; [|apply IH; intros y Hy; apply H; right; exact Hy].
  intros K. apply in_app_or in K as [K|K]; [exact (Hx K)|exact (H x (or_introl eq_refl) K)].
Qed.

(* the marks of a are among those of b, each number at most as often *)
Definition sub (a b : marks) : Prop := incl a b /\ forall i, cnt i a <= cnt i b.
Lemma sub_refl a : sub a a.
Proof. split; [apply incl_refl|auto]. Qed.
Lemma sub_trans a b c : sub a b -> sub b c -> sub a c.
Proof. intros [A B] [C D]. split; [eapply incl_tran; eassumption|]. intros i. specialize (B i). specialize (D i). lia. Qed.
Lemma sub_nil a : sub [] a.
Proof. split; [intros ? []|]. intros i. cbn. lia. Qed.
Lemma sub_app a b c d : sub a c -> sub b d -> sub (a ++ b) (c ++ d).
Proof.
  intros [A B] [C D]. split.
  - apply incl_app; [apply incl_appl, A|apply incl_appr, C].
  - intros i. rewrite !cnt_app. specialize (B i). specialize (D i). lia.
Qed.
Lemma sub_left a b : sub a (a ++ b).
Proof. split; [apply incl_appl, incl_refl|]. intros i. rewrite cnt_app. lia. Qed.
Lemma sub_right a b : sub b (a ++ b).
Proof. split; [apply incl_appr, incl_refl|]. intros i. rewrite cnt_app. lia. Qed.
Lemma sub_nodup a b : sub a b -> NoDup (map fst b) -> NoDup (map fst a).
Proof. intros [_ H] N. apply nodup_cnt. intros i. rewrite nodup_cnt in N. specialize (N i). specialize (H i). lia. Qed.

(* marks with distinct numbers, in a range *)
Definition fresh (a b : nat) (G : marks) : Prop := a <= b /\ NoDup (map fst G) /\ Forall (fun m => a <= fst m < b) G.
Lemma fresh_nil a : fresh a a [].
Proof. split; [lia|]. split; constructor. Qed.
Lemma fresh_range a b G i : fresh a b G -> In i (map fst G) -> a <= i < b.
Proof. intros (_ & _ & H) Hi. apply in_map_iff in Hi as (m & <- & Hm). rewrite Forall_forall in H. exact (H m Hm). Qed.
Lemma fresh_app a b c G H : fresh a b G -> fresh b c H -> fresh a c (G ++ H).
Proof.
  intros F1 F2. pose proof F1 as (A1 & B1 & C1). pose proof F2 as (A2 & B2 & C2). split; [lia|]. split.
  - rewrite map_app. apply NoDup_app_intro; [exact B1|exact B2|]. intros i Hi Hj. apply (fresh_range _ _ _ _ F1) in Hi. apply (fresh_range _ _ _ _ F2) in Hj. lia.
  - apply Forall_app. split; (eapply Forall_impl; [|eassumption]); cbn; intros; lia.
Qed.
Lemma fresh_one a m : fresh a (S a) [(a, m)].
Proof. split; [lia|]. split; [cbn [map fst]; constructor; [intros []|constructor]|]. constructor; [cbn; lia|constructor]. Qed.
Lemma fresh_grow a b c G : fresh a b G -> b <= c -> fresh a c G.
Proof. intros (A & B & C) H. split; [lia|]. split; [exact B|]. eapply Forall_impl; [|exact C]. cbn. intros; lia. Qed.

Lemma tmarks_app a b : tmarks (a ++ b) = tmarks a ++ tmarks b.
Proof. apply flat_map_app. Qed.
Lemma tmarks_word_group g : tmarks (word_group g) = [].
Proof. destruct g; reflexivity. Qed.
Lemma tmarks_group ns : forall g, tmarks (group_words g ns) = tmarks ns.
Proof.
  induction ns as [|n ns IH]; intros g; cbn [group_words]; [apply tmarks_word_group|].
  destruct (is_word n) eqn:E; [rewrite IH; destruct n; try discriminate; reflexivity|].
  rewrite tmarks_app, tmarks_word_group. change (tmarks (n :: ns)) with (imarks n ++ tmarks ns).
  change (tmarks (n :: group_words [] ns)) with (imarks n ++ tmarks (group_words [] ns)). rewrite IH. reflexivity.
Qed.

(* --------------------------------------------------------- what a parser makes *)
Definition made (M : marks) (G : marks) (x x' : tx) : Prop :=
  fresh (tx_next x) (tx_next x') G /\ tx_nodes x' = tx_nodes x /\
  exists F L, tx_foot x' = tx_foot x ++ F /\ tx_links x' = tx_links x ++ L /\ incl (tmarks F) (M ++ G) /\ incl (tmarks L) (M ++ G).
Definition gen (M : marks) {A} (mA : A -> marks) (f : P tx A) : Prop := forall rem x,
  exists G, made M G x (snd (fst (f (rem, x)))) /\ match snd (f (rem, x)) with Ok a => sub (mA a) (M ++ G) | Exc _ => True end.
Lemma made_nil M x : made M [] x x.
Proof. split; [apply fresh_nil|]. split; [reflexivity|]. exists [], []. rewrite !app_nil_r. repeat split; intros ? []. Qed.

Lemma gen_bind {A B} M (mA : A -> marks) (mB : B -> marks) f g : gen M mA f -> (forall a, gen (mA a) mB (g a)) -> gen M mB (pbind f g).
Proof.
  intros Hf Hg rem x. destruct (Hf rem x) as (G & H1 & H2). unfold pbind. destruct (f (rem, x)) as [[rem' x'] [a|ex]]; cbn [fst snd] in *; [|exists G; auto].
  destruct (Hg a rem' x') as (G2 & K1 & K2). exists (G ++ G2). destruct H1 as (R1 & N1 & F1 & L1 & E1 & E2 & I1 & I2). destruct K1 as (R2 & N2 & F2 & L2 & E3 & E4 & I3 & I4).
  assert (I5 : forall y, incl y (mA a ++ G2) -> incl y (M ++ G ++ G2)).
  { intros y Hy. eapply incl_tran; [exact Hy|]. rewrite app_assoc. apply incl_app; [apply incl_appl, H2|apply incl_appr, incl_refl]. }
  split.
  - split; [eapply fresh_app; eassumption|]. split; [congruence|]. exists (F1 ++ F2), (L1 ++ L2). rewrite E3, E4, E1, E2, !app_assoc, !tmarks_app.
    split; [reflexivity|]. split; [reflexivity|]. rewrite <- app_assoc. split; (apply incl_app; [|apply I5; assumption]); rewrite app_assoc; apply incl_appl; assumption.
  - destruct (snd (g a (rem', x'))) as [b|]; [|exact I]. eapply sub_trans; [exact K2|]. rewrite app_assoc. apply sub_app; [exact H2|apply sub_refl].
Qed.
Lemma gen_ret {A} M (mA : A -> marks) a : sub (mA a) M -> gen M mA (pret a).
Proof. intros H rem x. exists []. cbn [pret fst snd]. split; [apply made_nil|]. rewrite app_nil_r. exact H. Qed.
Lemma gen_raise {A} M (mA : A -> marks) e : gen M mA (praise e).
Proof. intros rem x. exists []. cbn [praise fst snd]. split; [apply made_nil|exact I]. Qed.
(* the reading of tokens *)
Definition still {A} (f : P tx A) : Prop := forall s, snd (fst (f s)) = snd s.
Lemma gen_still {A} M (f : P tx A) : still f -> gen M (fun _ => M) f.
Proof.
  intros H rem x. exists []. rewrite H. cbn [snd]. split; [apply made_nil|]. destruct (snd (f (rem, x))); [|exact I]. rewrite app_nil_r. apply sub_refl.
Qed.
Lemma still_bind {A B} (f : P tx A) (g : A -> P tx B) : still f -> (forall a, still (g a)) -> still (pbind f g).
Proof. intros Hf Hg s. unfold pbind. specialize (Hf s). destruct (f s) as [s' [a|]]; cbn [fst snd] in *; [rewrite Hg|]; exact Hf. Qed.
Lemma still_ret {A} (a : A) : still (pret a).
Proof. intros s. reflexivity. Qed.
Lemma still_raise {A} e : still (@praise tx A e).
Proof. intros s. reflexivity. Qed.
Lemma still_lift {A} (r : res A) : still (plift r).
Proof. intros s. reflexivity. Qed.
Lemma still_get ty v f : still (pget_token ty v f).
Proof. intros s. unfold pget_token. destruct (peek_tok _ _ _ _); reflexivity. Qed.
Lemma still_peek ty v f : still (ppeek ty v f).
Proof. intros s. reflexivity. Qed.
Lemma still_peek_is ty v f : still (peek_is ty v f).
Proof. intros s. reflexivity. Qed.
Lemma still_collect st j p : still (pcollect_join st j p).
Proof. apply still_bind; [|intros; apply still_ret]. intros s. unfold pcollect. destruct (collect_list _ _ _) as [[]|]; reflexivity. Qed.
Lemma still_args n : still (tp_args_loop n).
Proof.
  induction n as [|n IH]; [apply still_raise|]. cbn [tp_args_loop].
  apply still_bind; [apply still_peek_is|]. intros close. apply still_bind; [apply still_peek_is|]. intros eof. destruct (close || eof); [apply still_ret|].
  apply still_bind; [apply still_peek_is|]. intros q. apply still_bind.
  - destruct q; [|apply still_collect]. apply still_bind; [apply still_get|]. intros o. apply still_bind; [apply still_collect|]. intros t. apply still_bind; [apply still_get|]. intros c. apply still_ret.
  - intros t. apply still_bind; [exact IH|]. intros r. apply still_ret.
Qed.
Lemma still_macro_args : still tp_macro_args.
Proof. intros s. unfold tp_macro_args. apply still_bind; [apply still_args|]. intros a. apply still_ret. Qed.
Lemma still_needed p n m c : still (needed p n m c).
Proof. unfold needed. destruct (named_arg p n); [apply still_ret|apply still_raise]. Qed.
Lemma gen_weak {A} M (mA mB : A -> marks) f : (forall a, sub (mB a) (mA a)) -> gen M mA f -> gen M mB f.
Proof.
  intros H Hf rem x. destruct (Hf rem x) as (G & H1 & H2). exists G. split; [exact H1|]. destruct (snd (f (rem, x))); [|exact I].
  eapply sub_trans; [apply H|exact H2].
Qed.

Section Numbers.
  Context (e : env) (nest : nest_fn) (nest_gen : forall t o, gen [] tmarks (nest t o)).

  Ltac quick := first [apply still_get|apply still_collect|apply still_lift|apply still_needed|apply still_peek|apply still_peek_is|apply still_macro_args].
  Ltac step := apply (gen_bind _ (fun _ => [])); [apply gen_still; quick|intros ?].
  Ltac leaf := apply gen_ret; apply sub_nil.

  Lemma content_gen t o : gen [] tmarks (tp_link_content nest t o).
  Proof. unfold tp_link_content. destruct o; [apply nest_gen|leaf]. Qed.
  Lemma one ns n : imarks n = tmarks ns -> sub (tmarks [n]) (tmarks ns).
  Proof. intros E. unfold tmarks at 1. cbn [flat_map]. rewrite E, app_nil_r. apply sub_refl. Qed.
  Lemma link_gen p c : gen [] tmarks (tp_link nest p c).
  Proof. unfold tp_link. cbv zeta. step. apply (gen_bind _ tmarks); [apply content_gen|]. intros ns. apply gen_ret, one. reflexivity. Qed.
  Lemma mailto_gen p c : gen [] tmarks (tp_mailto nest p c).
  Proof. unfold tp_mailto. cbv zeta. step. apply (gen_bind _ tmarks); [apply content_gen|]. intros ns. apply gen_ret, one. reflexivity. Qed.
  Lemma class_gen p c : gen [] tmarks (tp_class nest p c).
  Proof. unfold tp_class. cbv zeta. step. apply (gen_bind _ tmarks); [apply nest_gen|]. intros ns. apply gen_ret, one. reflexivity. Qed.
  Lemma unicode_gen p c : gen [] tmarks (tp_unicode p c).
  Proof. unfold tp_unicode. step. leaf. Qed.
  Lemma raw_gen p c : gen [] tmarks (tp_raw p c).
  Proof. unfold tp_raw. step. leaf. Qed.
  Lemma image_gen p c : gen [] tmarks (tp_image p c).
  Proof. unfold tp_image. cbv zeta. step. leaf. Qed.
  Lemma footnote_gen p c : gen [] tmarks (tp_footnote p c).
  Proof.
    unfold tp_footnote. step. rename a into t. intros rem x. unfold pbind, pget, pmod, pret. cbn [fst snd].
    exists [(tx_next x, LMention (t_value t) c)]. split; [|apply sub_refl]. split; [apply fresh_one|]. split; [reflexivity|].
    exists [NFootnote (tx_next x) (t_value t) c], []. cbn [tx_foot tx_links]. rewrite app_nil_r. repeat split; [apply incl_refl|intros ? []].
  Qed.
  Lemma header_gen p c : gen [] tmarks (tp_header_link nest p c).
  Proof.
    unfold tp_header_link. cbv zeta. step. rename a into t.
    apply (gen_bind _ tmarks); [destruct (named_arg _ _); [apply nest_gen|leaf]|]. intros ns rem x. unfold pbind, pget, pmod, pret. cbn [fst snd].
    exists [(tx_next x, LLink (t_value t) ns c)].
    assert (E : tmarks [NHeaderLink (tx_next x) (t_value t) ns c] = (tx_next x, LLink (t_value t) ns c) :: tmarks ns).
    { unfold tmarks at 1. cbn [flat_map imarks]. rewrite app_nil_r. reflexivity. }
    assert (S : sub ((tx_next x, LLink (t_value t) ns c) :: tmarks ns) (tmarks ns ++ [(tx_next x, LLink (t_value t) ns c)])).
    { split; [intros y [<-|Hy]; apply in_or_app; [right; left; reflexivity|left; exact Hy]|]. intros i. rewrite cnt_app, !cnt_cons. cbn. lia. }
    split; [|rewrite E; exact S]. split; [apply fresh_one|]. split; [reflexivity|].
    exists [], [NHeaderLink (tx_next x) (t_value t) ns c]. cbn [tx_foot tx_links]. rewrite app_nil_r, E. repeat split; [intros ? []|apply S].
  Qed.
  Lemma control_gen name p c : gen [] tmarks (tp_control e nest name p c).
  Proof.
    unfold tp_control. destruct (split_on _ _) as [|op [|cond [|]]]; try apply gen_raise.
    destruct (negb _); [apply gen_raise|]. cbv zeta. apply (gen_bind _ (fun _ => [])).
    { apply gen_still. destruct (parse_condition _ _) as [[n|]|[]]; first [apply still_ret|apply still_raise]. }
    intros node. step. step. step. apply (gen_bind _ (fun _ => [])).
    { apply gen_still. destruct (str_eqb _ _); [|apply still_ret]. match goal with |- still (match ?t with _ => _ end) => destruct t end; [|apply still_raise]. apply still_bind; [apply still_lift|]. intros v. apply still_ret. }
    intros r. destruct r; [apply nest_gen|leaf].
  Qed.
  Lemma macro_gen : gen [] tmarks (tp_macro e nest).
  Proof.
    unfold tp_macro. step. step. step. step. step. step. step.
    destruct (startswith _ _); [apply control_gen|].
    repeat (match goal with |- context [str_eqb ?u ?n] => destruct (str_eqb u n) end).
    all: first [apply link_gen|apply header_gen|apply mailto_gen|apply image_gen|apply footnote_gen|apply class_gen|apply unicode_gen|apply raw_gen|leaf].
  Qed.
  Lemma style_gen words : (forall st, gen [] tmarks (words st)) -> gen [] tmarks (tp_style words).
  Proof.
    intros Hw. unfold tp_style. step. apply (gen_bind _ tmarks); [apply Hw|]. intros ns.
    apply (gen_bind _ (fun _ => tmarks ns)); [apply gen_still, still_get|]. intros c. apply gen_ret.
    unfold tmarks at 1. cbn [flat_map imarks]. rewrite app_nil_r. fold (tmarks (group_words [] ns)). rewrite tmarks_group. apply sub_refl.
  Qed.
  Lemma first_gen fs last : Forall (fun f => gen [] tmarks f) fs -> gen [] tmarks last -> gen [] tmarks (tp_first fs last).
  Proof.
    intros Hf Hl. induction Hf as [|f fs Hf Hfs IH]; [exact Hl|]. cbn [tp_first].
    apply (gen_bind _ (fun o => match o with Some ns => tmarks ns | None => [] end)).
    - intros rem x. destruct (Hf rem x) as (G & H1 & H2). exists G. unfold pwith. destruct (f (rem, x)) as [[rem' x'] [ns|[]]]; cbn [fst snd] in *; (split; [exact H1|]); auto. apply sub_nil.
    - intros [ns|]; [apply gen_ret, sub_refl|exact IH].
  Qed.
  Lemma words_gen n : forall stops, gen [] tmarks (tp_words e nest n stops).
  Proof.
    induction n as [|n IH]; intros stops; [apply gen_raise|]. cbn [tp_words]. step. destruct (token_in _ _); [leaf|].
    apply (gen_bind _ tmarks).
    - apply first_gen; [|unfold tp_word; step; leaf].
      repeat (apply Forall_cons || apply Forall_nil);
        [unfold tp_backslash; step; step; leaf|apply macro_gen|unfold tp_verbatim; step; step; step; leaf|unfold tp_escaped; step; step; step; leaf|apply style_gen, IH].
    - intros ns. destruct ns as [|n0 ns]; [leaf|].
      apply (gen_bind _ (fun rest => tmarks (n0 :: ns) ++ tmarks rest)).
      + intros rem x. destruct (IH stops rem x) as (G & (F1 & N1 & F & L & E1 & E2 & I1 & I2) & H2). exists G. split.
        * split; [exact F1|]. split; [exact N1|]. exists F, L. repeat split; [exact E1|exact E2| |]; apply incl_appr; assumption.
        * destruct (snd (tp_words e nest n stops (rem, x))); [|exact I]. apply sub_app; [apply sub_refl|exact H2].
      + intros rest. apply gen_ret. rewrite <- tmarks_app. apply sub_refl.
  Qed.
End Numbers.

(* the whole parser of a text *)
Definition text_marks (a : nat) (x : tx) : Prop := exists G, fresh a (tx_next x) G /\
  sub (tmarks (tx_nodes x)) G /\ incl (tmarks (tx_foot x)) G /\ incl (tmarks (tx_links x)) G.

Section Run.
  Context (e : env) (nest : nest_fn) (nest_gen : forall t o, gen [] tmarks (nest t o)).
  Lemma sentence_marks a rem x : text_marks a x -> text_marks a (snd (fst (tp_sentence e nest (rem, x)))).
  Proof.
    intros (G & Hf & Hn & H1 & H2). unfold tp_sentence. cbn [fst].
    destruct (words_gen e nest nest_gen (S (length rem)) text_stops rem x) as (G2 & (F2 & N2 & F & L & E1 & E2 & I1 & I2) & K2).
    unfold pbind at 1. destruct (tp_words e nest (S (length rem)) text_stops (rem, x)) as [[rem' x'] [ns|ex]]; cbn [fst snd] in *.
    - exists (G ++ G2). unfold pbind, pmod, pret. cbn [fst snd tx_next tx_nodes tx_foot tx_links]. split; [eapply fresh_app; eassumption|].
      rewrite tmarks_app, tmarks_group, E1, E2, N2, !tmarks_app. split; [apply sub_app; assumption|].
      split; (apply incl_app; [apply incl_appl|apply incl_appr]; assumption).
    - exists (G ++ G2). split; [eapply fresh_app; eassumption|]. rewrite E1, E2, N2, !tmarks_app. split; [eapply sub_trans; [exact Hn|apply sub_left]|].
      split; (apply incl_app; [apply incl_appl|apply incl_appr]; assumption).
  Qed.
  Lemma loop_marks a n : forall last rem x, text_marks a x -> text_marks a (snd (fst (ploop n [tp_sentence e nest] last (rem, x)))).
  Proof.
    induction n as [|n IH]; intros last rem x Hx; [exact Hx|]. cbn [ploop]. unfold pbind at 1. unfold is_ty, peek_is. cbn [fst].
    destruct (peek_tok rem (Some T_EOF) None None) as [t|[]]; try exact Hx.
    unfold pbind at 1, ppeek. cbn [fst]. destruct (peek_tok rem None None None) as [nx|]; [|exact Hx].
    destruct (token_eqb nx last && context_eqb (t_ctx nx) (t_ctx last)); [exact Hx|].
    cbn [ptry]. unfold pbind at 1. unfold pbind at 1. unfold pwith. pose proof (sentence_marks a rem x Hx) as H1.
    destruct (tp_sentence e nest (rem, x)) as [[rem' x'] [b|ex]]; cbn [fst snd] in *.
    - destruct b; [apply IH; assumption|]. unfold pbind, pret, ppeek, praise. cbn [fst snd]. destruct (peek_tok _ None None None); exact H1.
    - destruct ex; try exact H1. unfold pbind, pret, ppeek, praise. cbn [fst snd]. destruct (peek_tok _ None None None); exact H1.
  Qed.
End Run.

Lemma run_marks d : forall e s o next x, tp_run d e s o next = Ok x -> text_marks next x.
Proof.
  induction d as [|d IH]; intros e s o next x H; [discriminate|]. cbn [tp_run] in H.
  destruct (lex_text (buffer s o)) as [toks|]; [|discriminate]. unfold prun in H. cbn [rbind] in H. unfold pparse in H. cbn [fst] in H.
  match type of H with context [tp_sentence e ?n] => set (nest := n) in H end.
  assert (Hn : forall t p, gen [] tmarks (nest t p)).
  { intros t p rem y. unfold nest. cbn [snd]. destruct (tp_run d e t p (tx_next y)) as [z|] eqn:E; cbn [fst snd].
    - destruct (IH _ _ _ _ _ E) as (G & F1 & F2 & _). exists G. split; [|exact F2]. split; [exact F1|]. split; [reflexivity|].
      exists [], []. cbn [tx_foot tx_links]. rewrite !app_nil_r. repeat split; intros ? [].
    - exists []. split; [apply made_nil|exact I]. }
  pose proof (loop_marks e nest Hn next (S (S (2 * length toks))) start_token toks (tx_init next)) as K.
  destruct (ploop _ _ _ _) as [[rem' x'] [|]]; [|discriminate]. apply Ok_inv in H. cbn [fst snd] in *. subst x'. apply K.
  exists []. split; [apply fresh_nil|]. cbn. split; [apply sub_refl|]. split; apply incl_refl.
Qed.
