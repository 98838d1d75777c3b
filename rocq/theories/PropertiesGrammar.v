(* PropertiesGrammar.v -- C59: the grammar of a document *)
From Verif Require Import SpecGrammar LineFacts PropertiesLexer PropertiesLines.

Lemma first_step lines ts v : run_functions (all_functions doc_lexer_fns) (start_tb lines 0 0 None) = Ok (ts, v) ->
  tb_eof (start_tb lines 0 0 None) = false ->
  outcome (lex_lines lines 0 0 None) = prepend (map tv ts) (outcome (lex_lines (rest v) 0 0 None)).
Proof.
  intros H He. assert (S1 : dsteps (start_tb lines 0 0 None) (ts ++ []) v) by (econstructor; [exact He|exact H|constructor]).
  rewrite app_nil_r in S1. exact (lex_resume _ _ _ _ _ _ S1).
Qed.
Lemma start_bol lines : bol (start_tb lines 0 0 None).
Proof. split; [reflexivity|cbn; lia]. Qed.
Lemma split_at_line (f : str) l : In f l -> exists a b, l = a ++ f :: b /\ ~ In f a.
Proof.
  induction l as [|x l IH]; [intros []|]. intros H. destruct (str_eqb_spec x f) as [->|N]; [exists [], l; auto|].
  destruct H as [H|H]; [congruence|]. destruct (IH H) as (a & b & -> & Ha). exists (x :: a), b. split; [reflexivity|]. intros [K|K]; auto.
Qed.
Lemma unclosed_lines f restl : (f = slashes \/ exists c, fence_char c /\ f = fence c) -> ~ In f restl ->
  outcome (lex_lines (f :: restl) 0 0 None) = inr (Some (if str_eqb f slashes then "Unclosed multiline comment." else "Unclosed block.")%string).
Proof.
  intros H1 H2. change (f :: restl) with ([] ++ f :: restl). rewrite (unclosed_detected [] [] f restl 0 0 None); [reflexivity|constructor|exact H1|exact H2|reflexivity].
Qed.

Lemma lexed_lines lines : Forall (no_chr NL) lines -> lexed lines (outcome (lex_lines lines 0 0 None)).
Proof.
  remember (length lines) as n eqn:E. revert lines E. induction n as [n IH] using lt_wf_ind. intros lines -> Hn.
  destruct lines as [|l lines]; [exact lexed_end|]. inversion Hn as [|? ? Hl Hn']; subst.
  assert (Hsub : forall v, length v < length (l :: lines) -> Forall (no_chr NL) v -> lexed v (outcome (lex_lines v 0 0 None))).
  { intros v Hv Hf. exact (IH _ Hv _ eq_refl Hf). }
  destruct (list_eq_dec (list_eq_dec N.eq_dec) (l :: lines) [[]]) as [->|Hne]; [exact lexed_newline|].
  pose proof (start_bol (l :: lines)) as Hb. pose proof (eq_refl : rest (start_tb (l :: lines) 0 0 None) = l :: lines) as Hr.
  destruct (C53_every_line l Hl) as [->|[(c & Hc & ->)|(ts & Hts)]].
  - destruct (in_dec (list_eq_dec N.eq_dec) slashes lines) as [Hi|Hi].
    + destruct (split_at_line _ _ Hi) as (a & b & -> & Ha). destruct (step_section a b _ Ha Hb Hr) as (v & R & He & _ & Hv).
      rewrite (first_step _ _ _ R He), Hv. apply Forall_app in Hn' as [_ Hn']. inversion Hn' as [|? ? _ Hn2]; subst.
      assert (K : forall o, prepend (map tv []) o = o) by (intros [o|o]; reflexivity). rewrite K. apply lexed_comment; [exact Ha|].
      apply Hsub; [cbn; rewrite app_length; cbn; lia|exact Hn2].
    + rewrite (unclosed_lines slashes lines (or_introl eq_refl) Hi), str_eqb_refl. apply lexed_unclosed_comment, Hi.
  - destruct (in_dec (list_eq_dec N.eq_dec) (fence c) lines) as [Hi|Hi].
    + destruct (split_at_line _ _ Hi) as (a & b & -> & Ha). destruct (step_block c a b _ Hc Ha Hb Hr) as (ts & v & R & He & Ht & _ & Hv).
      rewrite (first_step _ _ _ R He), Hv, Ht. apply Forall_app in Hn' as [_ Hn']. inversion Hn' as [|? ? _ Hn2]; subst.
      apply lexed_block; [exact Hc|exact Ha|]. apply Hsub; [cbn; rewrite app_length; cbn; lia|exact Hn2].
    + rewrite (unclosed_lines (fence c) lines (or_intror (ex_intro _ c (conj Hc eq_refl))) Hi).
      destruct (str_eqb_spec (fence c) slashes) as [E|_]; [injection E as ->; destruct Hc as (_ & _ & Hc); congruence|]. apply lexed_unclosed_block; assumption.
  - destruct (line_step l ts lines _ Hts Hl Hb Hr Hne) as (toks & v & R & He & Ht & _ & Hv).
    rewrite (first_step _ _ _ R He), Hv, Ht. apply lexed_line; [exact Hts|exact Hne|]. apply Hsub; [cbn; lia|exact Hn'].
Qed.
Lemma split_no_nl s : Forall (no_chr NL) (split_on NL s).
Proof.
  induction s as [|c s IH]; [constructor; [intros []|constructor]|]. cbn [split_on]. destruct (N.eqb_spec c NL) as [->|Hc].
  - constructor; [intros []|exact IH].
  - destruct (split_on NL s) as [|l ls]; [constructor; [intros [K|[]]; congruence|constructor]|]. inversion IH as [|? ? H1 H2]; subst.
    constructor; [|exact H2]. intros [K|K]; [congruence|exact (H1 K)].
Qed.
Lemma text_lines_no_nl text : Forall (no_chr NL) (text_lines text).
Proof. destruct text; [constructor|apply split_no_nl]. Qed.

Theorem C59_grammar text sl sc src : lexed (text_lines text) (outcome (lex_document (tb_init text sl sc src))).
Proof. rewrite lex_document_init, (doc_outcome_start _ sl sc src 0 0 None). apply lexed_lines, text_lines_no_nl. Qed.

(* The grammar leaves no choice. *)
Lemma reads_not_fence l ts : reads l ts -> no_chr NL l -> forall c, c <> SP -> l <> fence c.
Proof.
  intros H Hn c Hc. destruct (read_line _ _ H Hn) as [(n & -> & _)|(_ & H2 & _)]; [|apply H2].
  unfold sps, fence. destruct n; [discriminate|]. cbn. intros E. injection E as E _. congruence.
Qed.
Lemma fence_inj c d : fence c = fence d -> c = d.
Proof. intros E. injection E. auto. Qed.
Lemma first_eq (f : str) a b a' b' : a ++ f :: b = a' ++ f :: b' -> ~ In f a -> ~ In f a' -> a = a' /\ b = b'.
Proof.
  revert a'. induction a as [|x a IH]; intros [|y a'] E H H'; cbn in E.
  - injection E as ->. auto.
  - injection E as <- _. exfalso. apply H'. left. reflexivity.
  - injection E as -> _. exfalso. apply H. left. reflexivity.
  - injection E as -> E. destruct (IH a' E) as [-> ->]; [intros K; apply H; right; exact K|intros K; apply H'; right; exact K|]. auto.
Qed.
Theorem C59_unambiguous lines r r' : Forall (no_chr NL) lines -> lexed lines r -> lexed lines r' -> r = r'.
Proof.
  intros Hn H. revert r'. induction H as [| |l ts rest r Hrd Hne H IH|c content rest r Hc Ha H IH|content rest r Ha H IH|c rest Hc Ha|rest Ha]; intros r' H'.
  - inversion H'; reflexivity.
  - inversion H'; subst; try reflexivity; try discriminate. match goal with H : _ <> _ |- _ => destruct (H eq_refl) end.
  - inversion Hn as [|? ? Hl Hn']; subst.
    inversion H' as [E|E|l' ts' rest' s' Hrd' Hne' H1 E E'|c' content' rest' s' Hc' Ha' H1 E E'|content' rest' s' Ha' H1 E E'|c' rest' Hc' Ha' E E'|rest' Ha' E E']; subst.
    + destruct (Hne eq_refl).
    + rewrite (C53_unambiguous _ _ _ Hl Hrd Hrd'), (IH Hn' _ H1). reflexivity.
    + exfalso. exact (reads_not_fence _ _ Hrd Hl c' (proj1 (proj2 Hc')) eq_refl).
    + exfalso. exact (reads_not_fence _ _ Hrd Hl 47%N ltac:(discriminate) eq_refl).
    + exfalso. exact (reads_not_fence _ _ Hrd Hl c' (proj1 (proj2 Hc')) eq_refl).
    + exfalso. exact (reads_not_fence _ _ Hrd Hl 47%N ltac:(discriminate) eq_refl).
  - inversion Hn as [|? ? Hl Hn']; subst. apply Forall_app in Hn' as [_ Hn']. inversion Hn' as [|? ? _ Hn2]; subst.
    inversion H' as [E|E|l' ts' rest' s' Hrd' Hne' H1 E E'|c' content' rest' s' Hc' Ha' H1 E E'|content' rest' s' Ha' H1 E E'|c' rest' Hc' Ha' E E'|rest' Ha' E E']; subst.
    + exfalso. exact (reads_not_fence _ _ Hrd' Hl c (proj1 (proj2 Hc)) eq_refl).
    + match goal with K : content ++ _ :: _ = _ |- _ => apply first_eq in K as [-> ->]; [|assumption|assumption] | K : _ = content ++ _ :: _ |- _ => apply first_eq in K as [-> ->]; [|assumption|assumption] end. rewrite (IH Hn2 _ H1). reflexivity.
    + destruct Hc as (_ & _ & Hc). congruence.
    + exfalso. apply Ha'. apply in_or_app. right. left. reflexivity.
    + destruct Hc as (_ & _ & Hc). congruence.
  - inversion Hn as [|? ? Hl Hn']; subst. apply Forall_app in Hn' as [_ Hn']. inversion Hn' as [|? ? _ Hn2]; subst.
    inversion H' as [E|E|l' ts' rest' s' Hrd' Hne' H1 E E'|c' content' rest' s' Hc' Ha' H1 E E'|content' rest' s' Ha' H1 E E'|c' rest' Hc' Ha' E E'|rest' Ha' E E']; subst.
    + exfalso. exact (reads_not_fence _ _ Hrd' Hl 47%N ltac:(discriminate) eq_refl).
    + destruct Hc' as (_ & _ & Hc'). congruence.
    + match goal with K : content ++ _ :: _ = _ |- _ => apply first_eq in K as [-> ->]; [|assumption|assumption] | K : _ = content ++ _ :: _ |- _ => apply first_eq in K as [-> ->]; [|assumption|assumption] end. exact (IH Hn2 _ H1).
    + destruct Hc' as (_ & _ & Hc'). congruence.
    + exfalso. apply Ha'. apply in_or_app. right. left. reflexivity.
  - inversion Hn as [|? ? Hl Hn']; subst.
    inversion H' as [E|E|l' ts' rest' s' Hrd' Hne' H1 E E'|c' content' rest' s' Hc' Ha' H1 E E'|content' rest' s' Ha' H1 E E'|c' rest' Hc' Ha' E E'|rest' Ha' E E']; subst.
    + exfalso. exact (reads_not_fence _ _ Hrd' Hl c (proj1 (proj2 Hc)) eq_refl).
    + exfalso. apply Ha. apply in_or_app. right. left. reflexivity.
    + destruct Hc as (_ & _ & Hc). congruence.
    + reflexivity.
    + destruct Hc as (_ & _ & Hc). congruence.
  - inversion Hn as [|? ? Hl Hn']; subst.
    inversion H' as [E|E|l' ts' rest' s' Hrd' Hne' H1 E E'|c' content' rest' s' Hc' Ha' H1 E E'|content' rest' s' Ha' H1 E E'|c' rest' Hc' Ha' E E'|rest' Ha' E E']; subst.
    + exfalso. exact (reads_not_fence _ _ Hrd' Hl 47%N ltac:(discriminate) eq_refl).
    + destruct Hc' as (_ & _ & Hc'). congruence.
    + exfalso. apply Ha. apply in_or_app. right. left. reflexivity.
    + destruct Hc' as (_ & _ & Hc'). congruence.
    + reflexivity.
Qed.

Example C59_ex : lexed (map lit ["= A"; "++++"; "// x"; ""; "++++"; "////"; "++++"; "////"; "b"]%string)
  (inl [(T_HEADER, lit "="); (T_TEXT, lit "A"); (T_BLOCK, lit "++++"); (T_TEXT, lit "// x" ++ [NL]); (T_BLOCK, lit "++++"); (T_TEXT, lit "b"); (T_EOF, [])]).
Proof. pose proof (C59_grammar (join [NL] (map lit ["= A"; "++++"; "// x"; ""; "++++"; "////"; "++++"; "////"; "b"]%string)) 0 0 None) as H. vm_compute in H. vm_compute. exact H. Qed.
