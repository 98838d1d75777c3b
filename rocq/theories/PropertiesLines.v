(* PropertiesLines.v -- C53: the syntax of the lines of a document *)
From Verif Require Import LineFacts PropertiesLexer.

Lemma step_blank l post u : all_sp l = true -> bol u -> rest u = l :: post -> l :: post <> [[]] ->
  exists ts v, run_functions (all_functions doc_lexer_fns) u = Ok (ts, v) /\ tb_eof u = false /\ map tv ts = [(T_EOL, l)] /\ bol v /\ rest v = post.
Proof.
  intros Hsp Hb Hr Hp. destruct (rest_cons _ _ _ Hr) as (H1 & H2 & H3).
  assert (He : tb_eof u = false) by (rewrite (rest_eof _ Hb), Hr; destruct l; destruct post; [contradiction|reflexivity..]).
  assert (Hc : col0 u) by apply Hb.
  rewrite (run_base _ _ He), H1, Hsp. do 2 eexists. split; [reflexivity|]. split; [exact He|].
  split; [reflexivity|].
  split; [|exact H3]. apply (bol_nextline u). exact H2.
Qed.

Lemma line_step l ts post u : reads l ts -> no_chr NL l -> bol u -> rest u = l :: post -> l :: post <> [[]] ->
  exists toks v, run_functions (all_functions doc_lexer_fns) u = Ok (toks, v) /\ tb_eof u = false /\ map tv toks = ts /\ bol v /\ rest v = post.
Proof.
  intros Hrd Hn Hb Hr Hp. destruct (read_line _ _ Hrd Hn) as [(n & E & ->)|(H1 & H2 & <-)].
  - apply step_blank; auto. subst l. rewrite all_sp_repeat. unfold sps. rewrite repeat_length. reflexivity.
  - apply step_line; auto; [apply not_fence_slashes, H2|apply not_fence_b, H2].
Qed.

Lemma split_ne X : split_on NL X <> [].
Proof. destruct X as [|a p]; [discriminate|]. cbn [split_on]. destruct (N.eqb a NL); [discriminate|]. destruct (split_on NL p); discriminate. Qed.

Theorem C53_line_syntax pre toks l ts post sl sc src :
  lexes_to pre toks -> reads l ts -> no_chr NL l ->
  outcome (lex_document (tb_init (lines_text (pre ++ [l]) ++ post) sl sc src)) =
  prepend (toks ++ ts) (outcome (lex_document (tb_init post 0 0 None))).
Proof.
  intros Hp Hrd Hn. destruct (lexes_to_at _ _ sl sc src Hp) as [P1 P2].
  rewrite doc_outcome_split, split_lines_text by (apply Forall_app; split; [exact P1|constructor; [exact Hn|constructor]]).
  rewrite <- app_assoc. cbn [app].
  destruct (lex_after_prefix pre toks sl sc src (l :: split_on NL post) P1 ltac:(discriminate) P2) as (t1 & u & Hs & Hm & Hr & _).
  pose proof (steps_from_bol _ _ _ _ _ _ Hs) as Hb.
  destruct (line_step l ts _ u Hrd Hn Hb Hr ltac:(intros E; injection E as _ E; exact (split_ne post E))) as (t2 & v & Hrun & He & Hm2 & Hbv & Hrv).
  assert (Hs2 : dsteps (start_tb (pre ++ l :: split_on NL post) sl sc src) (t1 ++ t2) v).
  { eapply steps_app; [exact Hs|]. rewrite <- (app_nil_r t2). econstructor; [exact He|exact Hrun|constructor]. }
  rewrite (lex_resume _ _ _ _ _ _ Hs2). unfold from_here. rewrite Hrv, map_app, Hm, Hm2, doc_outcome_split. reflexivity.
Qed.

(* Every line is covered: it opens a comment section or a block, or it is read
   as one list of tokens. *)
Lemma span_chars p (q : N -> Prop) (s : str) : (forall c, p c = true <-> q c) -> exists a b, s = a ++ b /\ all_chars q a /\ hd_not q b.
Proof.
  intros H. exists (fst (span p s)), (snd (span p s)). split; [symmetry; apply span_app|]. split.
  - intros c Hc. apply H. exact (proj1 (forallb_forall _ _) (span_fst_all p s) c Hc).
  - intros c r E X. pose proof (span_snd_hd p s c r E) as K. apply H in X. congruence.
Qed.
Lemma all_sps (s : str) : all_chars (one_of (lit " ")) s -> s = sps (length s).
Proof.
  induction s as [|a s IH]; intros H; [reflexivity|]. cbn. pose proof (H a (or_introl eq_refl)) as K. destruct K as [<-|[]].
  change (32%N :: s = SP :: sps (length s)). f_equal. apply IH. intros c Hc. apply H. right; exact Hc.
Qed.
Lemma span_sps (s : str) : exists k b, s = sps k ++ b /\ hd_not (one_of (lit " ")) b.
Proof. destruct (span_chars _ _ s sp_spec) as (a & b & -> & H1 & H2). rewrite (all_sps a H1). eauto. Qed.
Lemma fence_dec (l : str) : (exists c, l = fence c) \/ not_fence l.
Proof.
  destruct l as [|a l]; [right; intros c; discriminate|].
  destruct (list_eq_dec N.eq_dec l [a; a; a]) as [->|H]; [left; exists a; reflexivity|]. right. apply not_fence_lit, H.
Qed.

Lemma list_or_text i s : hd_not (one_of (lit " ")) s -> not_fence (sps i ++ s) ->
  (i > 0 \/ exists c r, s = c :: r /\ one_of (lit "*#") c) -> exists ts, reads (sps i ++ s) ts.
Proof.
  intros Hs Hf Hi. destruct (span_chars _ _ s list_chr_spec) as (m & b & -> & H1 & H2).
  destruct m as [|c m].
  - cbn [app] in *. destruct Hi as [Hi|(c & r & -> & Hc)]; [|exfalso; exact (H2 _ _ eq_refl Hc)].
    destruct b as [|c b]; [rewrite app_nil_r; eexists; apply r_blank|].
    destruct i as [|i]; [lia|]. eexists. apply r_text_indent; [discriminate|]. apply hd_not_app. intros K.
    vm_compute in K. destruct K as [K|[K|[K|[]]]].
    + apply (H2 _ _ eq_refl). left; exact K.
    + apply (H2 _ _ eq_refl). right; left; exact K.
    + apply (Hs _ _ eq_refl). left; exact K.
  - destruct (span_sps b) as ([|k] & b' & -> & H3).
    + eexists. apply r_text_mark; [discriminate|exact H1| |exact Hf]. cbn [sps repeat app] in *. intros x r E K.
      vm_compute in K. destruct K as [K|[K|[K|[]]]].
      * apply (H2 _ _ E). left; exact K.
      * apply (H2 _ _ E). right; left; exact K.
      * apply (H3 _ _ E). left; exact K.
    + eexists. apply r_list; [discriminate|exact H1|exact H3].
Qed.

Theorem C53_every_line l : no_chr NL l ->
  l = slashes \/ (exists c, fence_char c /\ l = fence c) \/ exists ts, reads l ts.
Proof.
  intros Hn. destruct l as [|c s].
  { right; right. eexists. apply (r_blank 0). }
  destruct (fence_dec (c :: s)) as [[d Hd]|Hf].
  { rewrite Hd in *. destruct (N.eq_dec d 47) as [->|N1]; [left; reflexivity|]. right.
    destruct (N.eq_dec d SP) as [->|N2]; [right; eexists; apply (r_blank 4)|]. left. exists d. split; [|reflexivity].
    split; [|auto]. intros ->. apply Hn. left; reflexivity. }
  right; right. destruct (in_dec N.eq_dec c (lit "/-=@<:[.*# ")) as [Hc|Hc]; [|eexists; apply r_text; assumption].
  vm_compute in Hc. destruct Hc as [<-|[<-|[<-|[<-|[<-|[<-|[<-|[<-|Hc]]]]]]]].
  - (* / *) destruct s as [|a s]; [eexists; apply (r_text_slash []); intros x r; discriminate|].
    destruct (N.eq_dec a 47) as [->|Na].
    + eexists. apply (r_comment s). intros ->. exact (Hf 47%N eq_refl).
    + eexists. apply (r_text_slash (a :: s)). apply hd_not_app. intros [K|[]]. exact (Na (eq_sym K)).
  - (* - *) destruct (list_eq_dec N.eq_dec s (lit "--")) as [->|K]; [eexists; apply r_rule|]. eexists. apply (r_text_dash s); assumption.
  - (* = *) destruct (span_chars _ _ (61%N :: s) eq_spec) as (a & b & E & H1 & H2).
    assert (Ha : exists n, a = EQ1 n).
    { destruct a as [|x a]; [exfalso; cbn in E; subst b; apply (H2 _ _ eq_refl); left; reflexivity|]. exists (length a). clear E. unfold EQ1.
      cbn [repeat]. f_equal; [destruct (H1 x (or_introl eq_refl)) as [<-|[]]; reflexivity|].
      assert (K : forall y, In y a -> y = EQUALS) by (intros y Hy; destruct (H1 y (or_intror Hy)) as [<-|[]]; reflexivity).
      clear - K. induction a as [|y a IH]; [reflexivity|]. cbn. f_equal; [apply K; left; reflexivity|]. apply IH. intros z Hz. apply K. right; exact Hz. }
    destruct Ha as [n ->]. rewrite E in *. destruct (span_sps b) as (k & b' & -> & H3).
    destruct b' as [|x b'].
    + rewrite app_nil_r in *. destruct k as [|k].
      * rewrite app_nil_r in *. destruct n as [|n]; [eexists; apply r_text_equals|]. eexists. apply r_header_equals, Hf.
      * eexists. apply r_header_spaces.
    + eexists. apply r_header; [discriminate|exact H3|]. intros ->. exact H2.
  - (* @ *) destruct (span_chars _ _ s lower_spec) as (op & b & -> & H1 & H2).
    destruct op as [|x op]; [eexists; apply (r_text_at b); assumption|].
    destruct (span_sps b) as (k & b' & -> & H3). eexists. apply (r_control (x :: op) k b'); [discriminate|exact H1|exact H3|].
    intros ->. exact H2.
  - (* < *) destruct s as [|a s]; [eexists; apply (r_text_angle []); intros x r; discriminate|].
    destruct (N.eq_dec a 60) as [->|Na]; [|eexists; apply (r_text_angle (a :: s)); apply hd_not_app; intros [K|[]]; exact (Na (eq_sym K))].
    destruct (span_sps s) as (k & b & -> & H3). destruct (span_chars _ _ b include_chr_spec) as (ty & b' & -> & H1 & H2).
    destruct ty as [|x ty].
    + eexists. apply (r_text_angles k b'); [|exact Hf]. intros y r E [K|K]; [exact (H2 _ _ E K)|]. apply (H3 _ _ E). left. exact (eq_sym K).
    + destruct b' as [|y b']; [eexists; apply (r_include_bare k (x :: ty) []); [discriminate|exact H1|intros z r; discriminate]|].
      destruct (N.eq_dec y 58) as [->|Ny]; [eexists; apply (r_include k (x :: ty) b'); [discriminate|exact H1]|].
      eexists. apply (r_include_bare k (x :: ty) (y :: b')); [discriminate|exact H1|]. apply hd_not_app. intros [K|K]; [exact (H2 _ _ eq_refl K)|congruence].
  - (* : *) destruct (span_chars _ _ s name_chr_spec) as (name & b & -> & H1 & H2).
    destruct name as [|x name]; [eexists; apply (r_text_colon b); assumption|].
    destruct b as [|y b]; [eexists; apply (r_variable_bare (x :: name) []); [discriminate|exact H1|intros z r; discriminate]|].
    destruct (N.eq_dec y 58) as [->|Ny]; [eexists; apply (r_variable (x :: name) b); [discriminate|exact H1]|].
    eexists. apply (r_variable_bare (x :: name) (y :: b)); [discriminate|exact H1|]. apply hd_not_app. intros [K|K]; [exact (H2 _ _ eq_refl K)|congruence].
  - (* [ *) destruct s as [|x s] using rev_ind; [eexists; apply (r_text_bracket []); [intros r E; destruct r; discriminate|exact Hf]|].
    destruct (N.eq_dec x 93) as [->|Nx]; [eexists; apply (r_arguments s)|].
    eexists. apply (r_text_bracket (s ++ [x])); [|exact Hf]. intros r E. apply app_inj_tail in E as [_ E]. exact (Nx E).
  - (* . *) destruct (span_chars _ _ s label_chr_spec) as (role & b & -> & H1 & H2).
    destruct (span_sps b) as (k & b' & -> & H3). eexists. apply (r_label role k b'); [exact H1|exact H3|intros ->; exact H2|exact Hf].
  - destruct (span_sps (c :: s)) as (k & b & E & H3). rewrite E in *. apply list_or_text; [exact H3|exact Hf|].
    destruct k as [|k]; [|left; lia]. right. cbn [sps repeat app] in E. subst b. exists c, s. split; [reflexivity|].
    destruct Hc as [Hc|[Hc|[Hc|[]]]]; [left; exact Hc|right; left; exact Hc|]. exfalso. apply (H3 _ _ eq_refl). left; exact Hc.
Qed.

Theorem C53_unambiguous l ts ts' : no_chr NL l -> reads l ts -> reads l ts' -> ts = ts'.
Proof.
  intros Hn H H'. pose proof (read_line _ _ H Hn) as K. pose proof (read_line _ _ H' Hn) as K'.
  assert (B : forall n, all_sp (sps n) = true) by (intros n; rewrite all_sp_repeat; unfold sps; rewrite repeat_length; reflexivity).
  destruct K as [(n & E & ->)|(A1 & _ & <-)], K' as [(n' & E' & ->)|(A1' & _ & <-)]; try reflexivity.
  - exfalso. subst l. rewrite B in A1'. discriminate.
  - exfalso. subst l. rewrite B in A1. discriminate.
Qed.

Example C53_ex :
  lexes_to [lit "text"] [(T_TEXT, lit "text")] /\
  reads (lit "== A title") [(T_HEADER, lit "=="); (T_TEXT, lit "A title")] /\
  reads (lit "  *# item") [(T_LIST, lit "*#"); (T_TEXT, lit "item")] /\
  reads (lit "*bold*") [(T_TEXT, lit "*bold*")] /\
  reads (lit "@if flag==1") [(T_CONTROL, lit "@"); (T_TEXT, lit "if"); (T_TEXT, lit "flag==1")].
Proof.
  split; [|split; [|split; [|split]]].
  - split; [|vm_compute; reflexivity]. repeat constructor; intros H; vm_compute in H; intuition discriminate.
  - apply (r_header 1 1 (lit "A title")); [discriminate|apply hd_not_app; vm_compute; intuition discriminate|discriminate].
  - apply (r_list 2 (lit "*#") 0 (lit "item")); [discriminate| |apply hd_not_app; vm_compute; intuition discriminate].
    intros c Hc. exact Hc.
  - apply (r_text_mark 0 (lit "*") (lit "bold*")); [discriminate| |apply hd_not_app; vm_compute; intuition discriminate|intros c; discriminate].
    intros c Hc. left. destruct Hc as [Hc|[]]. exact Hc.
  - apply (r_control (lit "if") 1 (lit "flag==1")); [discriminate| |apply hd_not_app; vm_compute; intuition discriminate|discriminate].
    intros c Hc. vm_compute in Hc |- *. intuition.
Qed.

Print Assumptions C53_line_syntax.
Print Assumptions C53_every_line.
Print Assumptions C53_unambiguous.
