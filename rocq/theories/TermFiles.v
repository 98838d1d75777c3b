(* TermFiles.v -- documents with included files end *)
From Verif Require Import SpecInclude LineFacts PropertiesLexer PropertiesLines PropertiesGrammar DocFacts SimFacts.

(* ------------------------------------------------------- about the grammar *)
Lemma split_right {A} (l m a r : list A) x : l ++ m = a ++ x :: r -> ~ In x l -> exists a', a = l ++ a' /\ m = a' ++ x :: r.
Proof.
  revert a. induction l as [|y l IH]; intros a E H; [exists a; auto|]. destruct a as [|z a]; cbn in E.
  - injection E as -> _. exfalso. apply H. left. reflexivity.
  - injection E as -> E. destruct (IH a E) as (a' & -> & ->); [intros K; apply H; right; exact K|]. exists a'. auto.
Qed.
Lemma opt_tok_in t s p : In p (opt_tok t s) -> fst p = t.
Proof. destruct s; cbn; [intros []|intros [<-|[]]; reflexivity]. Qed.
Ltac in_reads H := cbn in H; repeat match type of H with _ \/ _ => destruct H as [H|H] end; try (inversion H; subst; clear H); try contradiction;
  try (apply opt_tok_in in H; cbn in H); try congruence.
Lemma reads_no_block l ts f : reads l ts -> ~ In (T_BLOCK, f) ts.
Proof. intros H K. destruct H; in_reads K. Qed.
Lemma reads_text_head l t ts : reads l ((T_TEXT, t) :: ts) -> l = t /\ ts = [].
Proof. intros H. inversion H; subst; auto. Qed.
Lemma prepend_ok ts r toks : prepend ts r = inl toks -> exists toks', r = inl toks' /\ toks = ts ++ toks'.
Proof. destruct r as [t|e]; cbn; [|discriminate]. intros E. injection E as <-. eauto. Qed.
Lemma no_include_tokens lines toks : lexed lines (inl toks) -> Forall (fun l => ~ includes l) lines -> forall v, ~ In (T_INCLUDE, v) toks.
Proof.
  intros H. remember (inl toks) as r eqn:E. revert toks E.
  induction H as [| |l ts rest r Hrd Hne H IH|c content rest r Hc Ha H IH|content rest r Ha H IH|c rest Hc Ha|rest Ha]; intros toks E Hn v K; try discriminate E.
  - injection E as <-. in_reads K.
  - injection E as <-. in_reads K.
  - apply prepend_ok in E as (toks' & -> & ->). inversion Hn as [|? ? Hl Hn']; subst. apply in_app_or in K as [K|K]; [|exact (IH _ eq_refl Hn' v K)].
    apply Hl. exists ts. eauto.
  - apply prepend_ok in E as (toks' & -> & ->). inversion Hn as [|? ? _ Hn']; subst. apply Forall_app in Hn' as [_ Hn']. inversion Hn' as [|? ? _ Hn2]; subst.
    apply in_app_or in K as [K|K]; [|exact (IH _ eq_refl Hn2 v K)]. unfold block_shape in K. destruct content; in_reads K.
  - subst r. inversion Hn as [|? ? _ Hn']; subst. apply Forall_app in Hn' as [_ Hn']. inversion Hn' as [|? ? _ Hn2]; subst. exact (IH _ eq_refl Hn2 v K).
Qed.
Lemma head_text lines t ts : lexed lines (inl ((T_TEXT, t) :: ts)) -> In t lines /\ reads t [(T_TEXT, t)].
Proof.
  intros H. remember (inl ((T_TEXT, t) :: ts)) as r eqn:E. revert t ts E.
  induction H as [| |l us rest r Hrd Hne H IH|c content rest r Hc Ha H IH|content rest r Ha H IH|c rest Hc Ha|rest Ha]; intros t ts E; try discriminate E.
  - apply prepend_ok in E as (toks' & -> & E). destruct us as [|[ty u] us]; cbn in E.
    + subst toks'. destruct (IH _ _ eq_refl) as [H1 H2]. split; [right; exact H1|exact H2].
    + injection E as <- <- E. destruct (reads_text_head _ _ _ Hrd) as [-> ->]. split; [left; reflexivity|exact Hrd].
  - apply prepend_ok in E as (toks' & -> & E). discriminate E.
  - subst r. destruct (IH _ _ eq_refl) as [H1 H2]. split; [right; apply in_or_app; right; right; exact H1|exact H2].
Qed.

(* the size of a document *)
Definition size (lines : list str) : nat := list_sum (map (fun l => S (length l)) lines).
Lemma size_app a b : size (a ++ b) = size a + size b.
Proof. unfold size. rewrite map_app, list_sum_app. reflexivity. Qed.
Lemma size_cons l b : size (l :: b) = S (length l) + size b.
Proof. reflexivity. Qed.
Lemma size_block f a g b : size (f :: a ++ g :: b) = S (length f) + size a + S (length g) + size b.
Proof. rewrite size_cons, size_app, (size_cons g). lia. Qed.
Lemma size_in l lines : In l lines -> S (length l) <= size lines.
Proof. induction lines as [|x r IH]; [intros []|]. rewrite size_cons. intros [->|H]; [lia|]. apply IH in H. lia. Qed.
Lemma lines_of_join content : Forall (no_chr NL) content -> content <> [] ->
  (forall l, In l (text_lines (join [NL] content)) -> In l content) /\ size (text_lines (join [NL] content)) <= size content.
Proof.
  intros H Hne. assert (E : text_lines (join [NL] content) = [] \/ text_lines (join [NL] content) = content).
  { unfold text_lines. destruct (join [NL] content) as [|c r] eqn:E; [left; reflexivity|right]. rewrite <- E. apply split_join; assumption. }
  destruct E as [-> | ->]; split; auto; [intros l []|cbn; lia].
Qed.
Lemma lines_of_line l : no_chr NL l -> (forall k, In k (text_lines l) -> k = l) /\ size (text_lines l) <= S (length l).
Proof.
  intros H. unfold text_lines. destruct l as [|c l]; [split; [intros k []|cbn; lia]|].
  rewrite split_on_none by exact H. split; [intros k [K|[]]; congruence|cbn; lia].
Qed.

Lemma after_block_lines lines toks : lexed lines (inl toks) -> Forall (no_chr NL) lines ->
  forall a f t b, toks = a ++ (T_BLOCK, f) :: (T_TEXT, t) :: b ->
  size (text_lines t) < size lines /\ (forall l, In l (text_lines t) -> In l lines) /\
  ((exists content, block_in lines content /\ forall l, In l (text_lines t) -> In l content) \/ (forall l, In l (text_lines t) -> reads l [(T_TEXT, l)])).
Proof.
  intros H. remember (inl toks) as r eqn:E. revert toks E.
  induction H as [| |l ts rest r Hrd Hne H IH|c content rest r Hc Ha H IH|content rest r Ha H IH|c rest Hc Ha|rest Ha]; intros toks E Hn a f t b K; try discriminate E.
  - injection E as <-. destruct a as [|? [|? a]]; discriminate K.
  - injection E as <-. destruct a as [|? [|? a]]; discriminate K.
  - apply prepend_ok in E as (toks' & -> & ->). inversion Hn as [|? ? Hl Hn']; subst.
    apply split_right in K as (a' & -> & K); [|apply (reads_no_block _ _ _ Hrd)]. destruct (IH _ eq_refl Hn' _ _ _ _ K) as (K1 & K2 & K3).
    rewrite size_cons. split; [lia|]. split; [intros k Hk; right; exact (K2 k Hk)|].
    destruct K3 as [(ct & B & K3)|K3]; [left; exists ct; split; [exact (in_after_line _ _ _ _ Hrd B)|exact K3]|right; exact K3].
  - apply prepend_ok in E as (toks' & -> & ->). inversion Hn as [|? ? Hl Hn']; subst. apply Forall_app in Hn' as [Hct Hn']. inversion Hn' as [|? ? _ Hn2]; subst.
    assert (Deep : forall a', toks' = a' ++ (T_BLOCK, f) :: (T_TEXT, t) :: b -> size (text_lines t) < size (fence c :: content ++ fence c :: rest) /\
       (forall l, In l (text_lines t) -> In l (fence c :: content ++ fence c :: rest)) /\
       ((exists ct, block_in (fence c :: content ++ fence c :: rest) ct /\ forall l, In l (text_lines t) -> In l ct) \/ (forall l, In l (text_lines t) -> reads l [(T_TEXT, l)]))).
    { intros a' K'. destruct (IH _ eq_refl Hn2 _ _ _ _ K') as (K1 & K2 & K3). split; [rewrite size_block; lia|].
      split; [intros k Hk; right; apply in_or_app; right; right; exact (K2 k Hk)|].
      destruct K3 as [(ct & B & K3)|K3]; [left; exists ct; split; [exact (in_after_block _ _ _ _ Hc Ha B)|exact K3]|right; exact K3]. }
    assert (Next : forall r', toks' = (T_TEXT, t) :: r' -> size (text_lines t) < size (fence c :: content ++ fence c :: rest) /\
       (forall l, In l (text_lines t) -> In l (fence c :: content ++ fence c :: rest)) /\
       ((exists ct, block_in (fence c :: content ++ fence c :: rest) ct /\ forall l, In l (text_lines t) -> In l ct) \/ (forall l, In l (text_lines t) -> reads l [(T_TEXT, l)]))).
    { intros r' ->. destruct (head_text _ _ _ H) as [H1 H2]. pose proof (proj1 (Forall_forall _ _) Hn2 t H1) as Ht. destruct (lines_of_line t Ht) as [T1 T2].
      split; [rewrite size_block; apply size_in in H1; lia|].
      split; [intros k Hk; rewrite (T1 k Hk); right; apply in_or_app; right; right; exact H1|]. right. intros k Hk. rewrite (T1 k Hk). exact H2. }
    unfold block_shape in K. destruct content as [|l0 content].
    + cbn [app] in K. destruct a as [|p a]; [discriminate K|]. injection K as _ K. destruct a as [|p' a]; [injection K as _ K; exact (Next _ K)|].
      injection K as _ K. exact (Deep _ K).
    + cbn [app] in K. destruct a as [|p a].
      * apply (f_equal (fun l => snd (nth 1 l (T_EOF, [])))) in K. cbn [nth snd app] in K. subst t. destruct (lines_of_join (l0 :: content) Hct ltac:(discriminate)) as [J1 J2].
        split; [rewrite size_block; lia|]. split; [intros k Hk; right; apply in_or_app; left; exact (J1 k Hk)|].
        left. exists (l0 :: content). split; [exact (in_here _ _ _ Hc Ha)|exact J1].
      * injection K as _ K. destruct a as [|p' a]; [discriminate K|]. injection K as _ K. destruct a as [|p2 a]; [injection K as _ K; exact (Next _ K)|].
        injection K as _ K. exact (Deep _ K).
  - subst r. inversion Hn as [|? ? Hl Hn']; subst. apply Forall_app in Hn' as [Hct Hn']. inversion Hn' as [|? ? _ Hn2]; subst.
    destruct (IH _ eq_refl Hn2 a f t b eq_refl) as (K1 & K2 & K3). split; [rewrite size_block; lia|].
    split; [intros k Hk; right; apply in_or_app; right; right; exact (K2 k Hk)|].
    destruct K3 as [(ct & B & K3)|K3]; [left; exists ct; split; [exact (in_after_comment _ _ _ Ha B)|exact K3]|right; exact K3].
Qed.
Lemma text_not_include l : no_chr NL l -> reads l [(T_TEXT, l)] -> ~ includes l.
Proof. intros Hn H (ts & H' & v & K). rewrite (C53_unambiguous _ _ _ Hn H' H) in K. in_reads K. Qed.

(* --------------------------------------------------------------- the tokens *)
Lemma tokens_lexed text o toks : lex_document (buffer text o) = Ok toks -> lexed (text_lines text) (inl (map tv toks)).
Proof. intros H. pose proof (C59_grammar text (o_line o) (o_column o) (o_source o)) as G. unfold buffer in H. rewrite H in G. exact G. Qed.
Lemma after_block_text text o toks t : lex_document (buffer text o) = Ok toks -> after_block toks t ->
  size (text_lines (t_value t)) < size (text_lines text) /\ (forall l, In l (text_lines (t_value t)) -> In l (text_lines text)) /\
  ((exists content, block_in (text_lines text) content /\ forall l, In l (text_lines (t_value t)) -> In l content) \/
   (forall l, In l (text_lines (t_value t)) -> reads l [(T_TEXT, l)])).
Proof.
  intros H (a & f & b & -> & Hf & Ht). apply tokens_lexed in H. rewrite map_app in H. cbn [map] in H. unfold tv at 2 3 in H. rewrite Hf, Ht in H.
  exact (after_block_lines _ _ H (text_lines_no_nl _) _ _ _ _ eq_refl).
Qed.
Lemma include_text text o toks t : lex_document (buffer text o) = Ok toks -> In t toks -> t_type t = T_INCLUDE -> ~ Forall (fun l => ~ includes l) (text_lines text).
Proof.
  intros H Hi Ht Hn. apply tokens_lexed in H. apply (no_include_tokens _ _ H Hn (t_value t)). apply in_map_iff. exists t. unfold tv. rewrite Ht. auto.
Qed.

(* ------------------------------------------------------ the depth is enough *)
Section Depth.
  Context (cf : config).

  Lemma run_same n m e next done forb text o :
    (forall toks t, lex_document (buffer text o) = Ok toks -> after_block toks t -> forall e n' d o', dp_run n cf e n' d [] (t_value t) o' = dp_run m cf e n' d [] (t_value t) o') ->
    (~ Forall (fun l => ~ includes l) (text_lines text) -> forall uri txt forb', cf_files cf uri = File txt -> incl forb forb' -> In (Some uri) forb' -> ~ In (Some uri) forb ->
       forall e n' d o', dp_run n cf e n' d forb' txt o' = dp_run m cf e n' d forb' txt o') ->
    dp_run (S n) cf e next done forb text o = dp_run (S m) cf e next done forb text o.
  Proof.
    intros Hb Hm. cbn [dp_run]. destruct (lex_document (buffer text o)) as [toks|] eqn:El; cbn [rbind]; [|reflexivity].
    destruct (dp_init e next done forb) as [x0|] eqn:Ei; cbn [rbind]; [|reflexivity]. apply init_forbidden in Ei.
    pose proof (lex_doc_tokens _ _ _ El) as Hd.
    assert (S1 : Forall2 (same toks forb) (dp_fns cf (dp_run n cf)) (dp_fns cf (dp_run m cf))).
    { apply same_fns; [exact Hd| | |apply run_forbidden].
      - intros t Ht. exact (Hb _ t eq_refl Ht).
      - intros (t & H1 & H2). exact (Hm (include_text _ _ _ _ El H1 H2)). }
    destruct (same_run toks forb Hd _ _ x0 S1 ltac:(rewrite Ei; apply incl_refl)) as [-> _]. reflexivity.
  Qed.

  (* without includes *)
  Lemma run_plain k : forall text, size (text_lines text) <= k -> Forall (fun l => ~ includes l) (text_lines text) ->
    forall n m e next done forb o, k < n -> k < m -> dp_run n cf e next done forb text o = dp_run m cf e next done forb text o.
  Proof.
    induction k as [k IH] using lt_wf_ind. intros text Hk Hn n m e next done forb o H1 H2. destruct n as [|n]; [lia|]. destruct m as [|m]; [lia|].
    apply run_same; [|intros K; destruct (K Hn)]. intros toks t El Ht e' n' d o'. destruct (after_block_text _ _ _ _ El Ht) as (K1 & K2 & _).
    apply (IH (size (text_lines (t_value t)))); try lia. rewrite Forall_forall in *. intros l Hl. apply Hn, K2, Hl.
  Qed.

  (* the files that can still be included *)
  Context (files : list str) (Hfiles : forall u t, cf_files cf u = File t -> In u files).
  Context (Hb : forall u t, cf_files cf u = File t -> blocks_do_not_include t).
  Context (top : nat) (Htop : forall u t, cf_files cf u = File t -> size (text_lines t) <= top).
  Definition left_ (forb : list (option str)) : nat := length (filter (fun u => negb (source_in (Some u) forb)) files).
  Lemma left_less uri forb forb' : In uri files -> incl forb forb' -> In (Some uri) forb' -> ~ In (Some uri) forb -> left_ forb' < left_ forb.
  Proof.
    intros Hu Hi Hin Hn. unfold left_. revert Hu. generalize files as l.
    assert (M : forall u, source_in (Some u) forb = true -> source_in (Some u) forb' = true) by (intros u; rewrite !source_in_spec; apply Hi).
    assert (W : forall l, length (filter (fun u => negb (source_in (Some u) forb')) l) <= length (filter (fun u => negb (source_in (Some u) forb)) l)).
    { induction l as [|u l IH]; [cbn; lia|]. cbn [filter]. specialize (M u). destruct (source_in (Some u) forb); [rewrite M by reflexivity; exact IH|].
      destruct (source_in (Some u) forb'); cbn; lia. }
    induction l as [|u l IH]; [intros []|]. intros [->|Hu]; cbn [filter].
    - rewrite (proj2 (source_in_spec _ _) Hin). destruct (source_in (Some uri) forb) eqn:E; [apply source_in_spec in E; contradiction|]. cbn. specialize (W l). lia.
    - specialize (M u). specialize (IH Hu). destruct (source_in (Some u) forb); [rewrite M by reflexivity; exact IH|]. destruct (source_in (Some u) forb'); cbn; lia.
  Qed.
  Lemma run_enough k : forall text forb, left_ forb <= k -> size (text_lines text) <= top -> blocks_do_not_include text ->
    forall n m e next done o, k + top + 1 < n -> k + top + 1 < m -> dp_run n cf e next done forb text o = dp_run m cf e next done forb text o.
  Proof.
    induction k as [k IH] using lt_wf_ind. intros text forb Hk Ht Hnb n m e next done o H1 H2. destruct n as [|n]; [lia|]. destruct m as [|m]; [lia|].
    apply run_same.
    - intros toks t El Hab e' n' d o'. destruct (after_block_text _ _ _ _ El Hab) as (K1 & K2 & K3).
      apply (run_plain top); try lia. apply Forall_forall. intros l Hl.
      assert (Hl' : no_chr NL l) by (exact (proj1 (Forall_forall _ _) (text_lines_no_nl (t_value t)) l Hl)).
      destruct K3 as [(ct & B & K3)|K3]; [exact (Hnb ct l B (K3 l Hl))|exact (text_not_include l Hl' (K3 l Hl))].
    - intros _ uri txt forb' Hf Hi Hin Hn e' n' d o'. pose proof (left_less uri forb forb' (Hfiles _ _ Hf) Hi Hin Hn) as Hlt.
      apply (IH (left_ forb')); try lia; [exact (Htop _ _ Hf)|exact (Hb _ _ Hf)].
  Qed.
End Depth.
