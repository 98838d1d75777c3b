(* PropertiesLexer.v -- C01 to C11: lexing, positions and tokens.
   Only SpecLexer.v and the entry points of the model (tb_init, the five lex_*
   functions, merge_contexts, to_token_list, from_token_list) occur in the
   statements. *)
From Verif Require Import LexerThms.

(* The five lexers. *)
Definition is_lexer (lx : tbuf -> res (list token)) : Prop :=
  In lx [lex_document; lex_text; lex_args; lex_pre; lex_condition].
Definition is_inline_lexer (lx : tbuf -> res (list token)) : Prop :=
  In lx [lex_text; lex_args; lex_pre].

(* ------------------------------------------------------------------ C01 *)
Theorem C01_lexing_terminates lx text sl sc src : is_lexer lx ->
  (exists ts eof, lx (tb_init text sl sc src) = Ok (ts ++ [eof]) /\ t_type eof = T_EOF /\
     forall t, In t ts -> t_type t <> T_EOF)
  \/ (exists msg s pos, lx (tb_init text sl sc src) = Exc (ExMau (MsgLexer msg s pos))).
Proof.
  intros H. destruct (all_lexers_total lx text sl sc src H) as [[(toks & Hl & ts & eof & -> & H1 & H2)|H1] _].
  - left. exists ts, eof. split; [exact Hl|]. split; [exact H1|].
    intros t Ht. exact (proj1 (Forall_forall _ _) H2 t Ht).
  - right. exact H1.
Qed.

Example C01_ex : exists ts, lex_document (tb_init (lit "= Title

some text") 0 0 None) = Ok ts /\ length ts = 5.
Proof. eexists; split; [vm_compute; reflexivity|reflexivity]. Qed.

(* ------------------------------------------------------------------ C02 *)
(* The error is raised at a line i that opens a section and is not repeated later. *)
Theorem C02_document_lexer_errors text sl sc src e :
  lex_document (tb_init text sl sc src) = Exc e ->
  exists i, i < length (text_lines text) /\
    ~ In (nth i (text_lines text) []) (skipn (S i) (text_lines text)) /\
    ((nth i (text_lines text) [] = slashes /\
      e = ExMau (MsgLexer "Unclosed multiline comment." src (shifted sl sc (i, 0)))) \/
     (exists c, fence_char c /\ nth i (text_lines text) [] = fence c /\
      e = ExMau (MsgLexer "Unclosed block." src (shifted sl sc (i, 0))))).
Proof. apply doc_errors. Qed.

Example C02_ex : lex_document (tb_init (lit "a
++++
b") 5 3 None) = Exc (ExMau (MsgLexer "Unclosed block." None (6, 0))).
Proof. vm_compute. reflexivity. Qed.

(* ------------------------------------------------------------------ C03 *)
Theorem C03_inline_lexers_never_fail lx text sl sc src : is_inline_lexer lx ->
  exists toks, lx (tb_init text sl sc src) = Ok toks.
Proof.
  intros [<-|[<-|[<-|[]]]];
    [destruct (lex_text_ok text sl sc src) as (t & H & _)
    |destruct (lex_args_ok text sl sc src) as (t & H & _)
    |destruct (lex_pre_ok text sl sc src) as (t & H & _)]; eauto.
Qed.

Example C03_ex : exists toks, lex_args (tb_init (lit "\,=""") 0 0 None) = Ok toks /\ length toks = 5.
Proof. eexists; split; [vm_compute; reflexivity|reflexivity]. Qed.

(* ------------------------------------------------------------------ C04 *)
Lemma inline_lossless_any next fns
  (H1 : forall s, all_sp s = false -> snd (next s) <> [] /\ (exists r, s = snd (next s) ++ r))
  (H2 : forall s, all_sp s = false -> fst (next s) <> T_EOF)
  (H3 : forall tb, all_sp (Token.tail tb) = false ->
    run_functions (fns ++ [process_error]) tb =
    Ok ([fst (create_token tb (fst (next (Token.tail tb))) (snd (next (Token.tail tb))))],
        snd (create_token tb (fst (next (Token.tail tb))) (snd (next (Token.tail tb)))))) s sl sc src :
  no_chr NL s ->
  exists toks eof sp, lex fns (tb_init s sl sc src) = Ok (toks ++ [eof]) /\ t_type eof = T_EOF /\
    t_value eof = [] /\ all_sp sp = true /\ s = concat_str (map t_value toks) ++ sp.
Proof.
  intros Hnl. destruct (all_sp s) eqn:Hsp.
  - destruct (lex_inline next fns H1 H2 H3 s sl sc src) as (toks & Hl & Hm & _).
    assert (Hx : exists toks' eof sp, toks = toks' ++ [eof] /\ tv eof = (T_EOF, []) /\
              all_sp sp = true /\ s = concat_str (map t_value toks') ++ sp).
    { destruct s as [|a s].
      - destruct toks as [|t [|]]; try discriminate. exists [], t, []. cbn in Hm. injection Hm as A B.
        unfold tv. rewrite A, B. auto.
      - rewrite text_lines_single in Hm; [|exact Hnl|discriminate].
        unfold lines_toks in Hm. rewrite Hsp in Hm. cbn [app] in Hm.
        destruct toks as [|t1 [|t2 [|]]]; try discriminate.
        unfold tv in Hm. cbn [map] in Hm. injection Hm as T1 V1 T2 V2.
        exists [t1], t2, []. split; [reflexivity|]. unfold tv. rewrite T2, V2.
        split; [reflexivity|]. split; [reflexivity|]. cbn [map concat_str]. rewrite V1, !app_nil_r. reflexivity. }
    destruct Hx as (toks' & eof & sp & -> & He & Hp & Hs). unfold tv in He. injection He as He1 He2.
    exists toks', eof, sp. repeat split; auto.
  - destruct (inline_lossless next fns H1 H2 H3 s sl sc src Hnl Hsp) as (t & sp & eof & K1 & K2 & K3 & K4 & K5).
    exists t, eof, sp. repeat split; auto.
Qed.

(* The dropped suffix sp is a run of spaces at the end of the line. *)
Theorem C04_inline_lexing_lossless lx s sl sc src : is_inline_lexer lx -> no_chr NL s ->
  exists toks eof sp, lx (tb_init s sl sc src) = Ok (toks ++ [eof]) /\
    t_type eof = T_EOF /\ t_value eof = [] /\ all_sp sp = true /\
    s = concat_str (map t_value toks) ++ sp.
Proof.
  intros [<-|[<-|[<-|[]]]].
  - apply (inline_lossless_any text_next text_lexer_fns text_next_prefix text_next_type text_fns_next).
  - apply (inline_lossless_any args_next args_lexer_fns args_next_prefix args_next_type args_fns_next).
  - apply (inline_lossless_any pre_next pre_lexer_fns pre_next_prefix pre_next_type pre_fns_next).
Qed.

Example C04_ex : no_chr NL (lit "a [b](c) \*d  ") /\
  match lex_text (tb_init (lit "a [b](c) \*d  ") 0 0 None) with
  | Ok ts => concat_str (map t_value ts) = lit "a [b](c) \*d" | _ => False end.
Proof. split; [|vm_compute; reflexivity]. intros H. vm_compute in H. intuition discriminate. Qed.

(* ------------------------------------------------------------------ C05 *)
Lemma tokens_in_each lines sl sc src toks : forall p q t,
  tokens_in lines sl sc src toks p q -> In t toks -> exists a b, located lines sl sc src t a b.
Proof.
  induction toks as [|u toks IH]; intros p q t; [contradiction|].
  intros (a & b & _ & H1 & H2) [<-|Hin]; [eauto|]. exact (IH b q t H2 Hin).
Qed.

Theorem C05_contexts_locate_tokens lx text sl sc src toks t : is_lexer lx ->
  lx (tb_init text sl sc src) = Ok toks -> In t toks ->
  exists p q, located (text_lines text) sl sc src t p q.
Proof.
  intros H Hl Hin. destruct (all_lexers_total lx text sl sc src H) as [_ K].
  eapply tokens_in_each; [apply K; exact Hl|exact Hin].
Qed.

(* ... in particular a token that stays on one line is as wide as its value. *)
Theorem C05_context_width lx text sl sc src toks t : is_lexer lx ->
  lx (tb_init text sl sc src) = Ok toks -> In t toks ->
  c_start_line (t_ctx t) = c_end_line (t_ctx t) ->
  c_end_column (t_ctx t) = c_start_column (t_ctx t) + length (t_value t).
Proof.
  intros H Hl Hin Hline.
  destruct (C05_contexts_locate_tokens _ _ _ _ _ _ _ H Hl Hin) as (p & q & Vp & Vq & Hle & Hv & Hs & He & _).
  unfold shifted in Hs, He. injection Hs as S1 S2. injection He as E1 E2.
  assert (Hpq : fst p = fst q) by lia. rewrite Hv. unfold slice. rewrite Hpq, Nat.eqb_refl.
  rewrite firstn_length, skipn_length. destruct Vp as [_ Vp], Vq as [_ Vq]. rewrite <- Hpq in Vq.
  rewrite Hpq in S2. destruct Hle as [Hle|[_ Hle]]; [lia|].
  rewrite Hpq in Vp, Vq. lia.
Qed.

Example C05_ex : match lex_document (tb_init (lit "= Title") 3 4 (Some (lit "f"))) with
  | Ok (a :: b :: _) => t_value b = lit "Title" /\ t_ctx b = mkContext 3 6 3 11 (Some (lit "f"))
  | _ => False end.
Proof. vm_compute. auto. Qed.

(* ------------------------------------------------------------------ C06 *)
Lemma pos_le_tr p q r : pos_le p q -> pos_le q r -> pos_le p r.
Proof. unfold pos_le. lia. Qed.
Lemma shifted_le sl sc p q : pos_le p q -> pos_le (shifted sl sc p) (shifted sl sc q).
Proof.
  unfold pos_le, shifted. cbn [fst snd]. intros [H|[H1 H2]]; [left; lia|right; split; [lia|]].
  rewrite H1. lia.
Qed.

Lemma tokens_in_order lines sl sc src toks : forall p q i j a b,
  tokens_in lines sl sc src toks p q -> i < j ->
  nth_error toks i = Some a -> nth_error toks j = Some b ->
  pos_le (start_of a) (end_of a) /\ pos_le (end_of a) (start_of b).
Proof.
  assert (first : forall toks p q j b, tokens_in lines sl sc src toks p q -> nth_error toks j = Some b ->
            pos_le (shifted sl sc p) (start_of b)).
  { induction toks0 as [|t r IH]; intros p q j b H Hn; [destruct j; discriminate|].
    destruct H as (x & y & H1 & H2 & H3). destruct H2 as (_ & _ & Hxy & _ & Hs & _).
    destruct j as [|j]; cbn [nth_error] in Hn.
    - injection Hn as <-. unfold start_of. rewrite Hs. apply shifted_le; exact H1.
    - eapply pos_le_tr; [|exact (IH y q j b H3 Hn)].
      apply shifted_le. eapply pos_le_tr; [exact H1|exact Hxy]. }
  induction toks as [|t r IH]; intros p q i j a b H Hij Hi Hj; [destruct i; discriminate|].
  destruct H as (x & y & H1 & H2 & H3).
  destruct i as [|i], j as [|j]; try lia; cbn [nth_error] in Hi, Hj.
  - injection Hi as <-. destruct H2 as (_ & _ & Hxy & _ & Hs & He & _).
    unfold start_of at 1, end_of. rewrite Hs, He. split; [apply shifted_le; exact Hxy|].
    exact (first _ _ _ _ _ H3 Hj).
  - apply (IH y q i j a b H3); auto; lia.
Qed.

Theorem C06_tokens_in_source_order lx text sl sc src toks i j a b : is_lexer lx ->
  lx (tb_init text sl sc src) = Ok toks -> i < j ->
  nth_error toks i = Some a -> nth_error toks j = Some b ->
  pos_le (start_of a) (end_of a) /\ pos_le (end_of a) (start_of b).
Proof.
  intros H Hl. destruct (all_lexers_total lx text sl sc src H) as [_ K].
  apply (tokens_in_order _ _ _ _ _ _ _ i j a b (K _ Hl)).
Qed.

(* ------------------------------------------------------------------ C07 *)
(* The lines [pre] are a document of their own, whose tokens are [toks] and EOF. *)
Definition lexes_to (pre : list str) (toks : list (token_type * str)) : Prop :=
  Forall (no_chr NL) pre /\
  outcome (lex_document (tb_init (lines_text pre) 0 0 None)) = inl (toks ++ [(T_EOF, [])]).

Lemma fence_no_nl c : c <> NL -> no_chr NL (fence c).
Proof. intros H Hin. unfold fence in Hin. cbn [In] in Hin. intuition congruence. Qed.
Lemma slashes_no_nl : no_chr NL slashes.
Proof. intros H. vm_compute in H. intuition discriminate. Qed.

Lemma lexes_to_at pre toks sl sc src : lexes_to pre toks ->
  Forall (no_chr NL) pre /\
  outcome (lex_document (tb_init (lines_text pre) sl sc src)) = inl (toks ++ [(T_EOF, [])]).
Proof.
  intros [H1 H2]. split; [exact H1|]. rewrite doc_outcome_split in *.
  rewrite (doc_outcome_start _ sl sc src 0 0 None). exact H2.
Qed.

Theorem C07_block_content_verbatim pre toks c content post sl sc src :
  lexes_to pre toks -> fence_char c -> Forall (no_chr NL) content -> ~ In (fence c) content ->
  outcome (lex_document (tb_init
     (lines_text (pre ++ [fence c] ++ content ++ [fence c]) ++ post) sl sc src)) =
  prepend (toks ++ block_shape (fence c) content) (outcome (lex_document (tb_init post 0 0 None))).
Proof.
  intros Hp Hf Hc Hin. destruct (lexes_to_at _ _ sl sc src Hp) as [P1 P2].
  rewrite doc_outcome_split, split_lines_text.
  - rewrite <- !app_assoc. cbn [app]. rewrite (block_verbatim pre toks c content _ sl sc src P1 Hf Hin P2).
    rewrite doc_outcome_split. reflexivity.
  - assert (no_chr NL (fence c)) by (apply fence_no_nl; apply Hf).
    rewrite !Forall_app. repeat split; auto.
Qed.

Theorem C07_block_content_verbatim_at_end pre toks c content sl sc src :
  lexes_to pre toks -> fence_char c -> Forall (no_chr NL) content -> ~ In (fence c) content ->
  outcome (lex_document (tb_init (lines_text (pre ++ [fence c] ++ content) ++ fence c) sl sc src)) =
  inl (toks ++ block_shape (fence c) content ++ [(T_EOF, [])]).
Proof.
  intros Hp Hf Hc Hin. destruct (lexes_to_at _ _ sl sc src Hp) as [P1 P2].
  assert (Hn : no_chr NL (fence c)) by (apply fence_no_nl; apply Hf).
  rewrite doc_outcome_split, split_lines_text.
  - rewrite (split_on_none NL (fence c) Hn), <- !app_assoc. cbn [app].
    rewrite (block_verbatim pre toks c content [] sl sc src P1 Hf Hin P2).
    change (outcome (lex_lines [] 0 0 None)) with (@inl (list (token_type * str)) (option string) [(T_EOF, [])]).
    cbn [prepend]. rewrite <- !app_assoc. reflexivity.
  - rewrite !Forall_app. repeat split; auto.
Qed.

Example C07_ex : exists toks, lexes_to [lit "text"; []] toks /\ fence_char 43 /\
  ~ In (fence 43) [lit "a"; lit "////"; []; lit "+++"].
Proof.
  eexists. split; [split; [|vm_compute; instantiate (1 := [_; _]); reflexivity]|split].
  - repeat constructor; intros H; vm_compute in H; intuition discriminate.
  - repeat split; discriminate.
  - cbn. intuition discriminate.
Qed.

(* ------------------------------------------------------------------ C08 *)
(* A comment: a line that starts with // (but is not ////), or a closed //// section. *)
Definition comment_lines (ls : list str) : Prop :=
  (exists text, ls = [lit "//" ++ text] /\ text <> lit "//") \/
  (exists body, ls = [slashes] ++ body ++ [slashes] /\ ~ In slashes body).

Theorem C08_comments_invisible pre toks comment post sl sc src :
  lexes_to pre toks -> comment_lines comment -> Forall (no_chr NL) comment ->
  outcome (lex_document (tb_init (lines_text (pre ++ comment) ++ post) sl sc src)) =
  outcome (lex_document (tb_init (lines_text pre ++ post) sl sc src)).
Proof.
  intros Hp Hc Hn. destruct (lexes_to_at _ _ sl sc src Hp) as [P1 P2].
  rewrite !doc_outcome_split, !split_lines_text; [|exact P1|rewrite Forall_app; auto].
  rewrite <- app_assoc. apply (comment_invisible pre toks); auto.
  - destruct Hc as [(t & -> & Ht)|(b & -> & Hb)].
    + left. eexists; split; [reflexivity|]. split; [reflexivity|]. intros E. apply Ht. change slashes with (lit "//" ++ lit "//") in E. apply app_inv_head in E. exact E.
    + right. exists b. auto.
  - destruct post as [|a p]; [discriminate|]. cbn [split_on]. destruct (N.eqb a NL); [discriminate|].
    destruct (split_on NL p); discriminate.
Qed.

Example C08_ex : exists toks, lexes_to [lit "text"; []] toks /\ comment_lines [lit "//// x"] /\
  comment_lines [slashes; lit "++++"; slashes].
Proof.
  eexists. split; [split; [|vm_compute; instantiate (1 := [_; _]); reflexivity]|split].
  - repeat constructor; intros H; vm_compute in H; intuition discriminate.
  - left. exists (lit "// x"). split; [reflexivity|discriminate].
  - right. exists [lit "++++"]. split; [reflexivity|]. intros [H|[]]. discriminate.
Qed.

(* ------------------------------------------------------------------ C09 *)
Theorem C09_unclosed_detected pre toks f rest sl sc src :
  lexes_to pre toks -> (f = slashes \/ exists c, fence_char c /\ f = fence c) ->
  Forall (no_chr NL) rest -> ~ In f rest ->
  lex_document (tb_init (join [NL] (pre ++ f :: rest)) sl sc src) =
  Exc (ExMau (MsgLexer (if str_eqb f slashes then "Unclosed multiline comment." else "Unclosed block.")
                src (shifted sl sc (length pre, 0)))).
Proof.
  intros Hp Hf Hr Hin. destruct (lexes_to_at _ _ sl sc src Hp) as [P1 P2].
  rewrite lex_document_init.
  assert (Hn : no_chr NL f).
  { destruct Hf as [->|[c [Hc ->]]]; [apply slashes_no_nl|apply fence_no_nl; apply Hc]. }
  assert (Hs : split_on NL (join [NL] (pre ++ f :: rest)) = pre ++ f :: rest).
  { apply split_join; [destruct pre; discriminate|]. rewrite Forall_app. split; auto. }
  assert (Hne : join [NL] (pre ++ f :: rest) <> []).
  { intros E. rewrite E in Hs. cbn [split_on] in Hs.
    assert (In f [[]]) by (rewrite Hs; apply in_or_app; right; left; reflexivity).
    destruct H as [H|[]]. destruct Hf as [->|[c [_ ->]]]; discriminate. }
  unfold text_lines. destruct (join [NL] (pre ++ f :: rest)) eqn:E; [congruence|].
  rewrite Hs. apply (unclosed_detected pre toks f rest sl sc src P1 Hf Hin P2).
Qed.

Example C09_ex : exists toks, lexes_to [lit "text"] toks /\ ~ In (fence 61) [lit "==="; lit "====="].
Proof.
  eexists. split; [split; [|vm_compute; instantiate (1 := [_]); reflexivity]|].
  - repeat constructor; intros H; vm_compute in H; intuition discriminate.
  - cbn. intuition discriminate.
Qed.

(* ------------------------------------------------------------------ C10 *)
(* c covers d: it starts not after and ends not before d, in line and in column. *)
Definition covers (c d : context) : Prop :=
  c_start_line c <= c_start_line d /\ c_start_column c <= c_start_column d /\
  c_end_line d <= c_end_line c /\ c_end_column d <= c_end_column c.

Theorem C10_merge_covers_both a b :
  covers (merge_contexts a b) a /\ covers (merge_contexts a b) b /\
  c_source (merge_contexts a b) = c_source a /\
  (forall c, covers c a -> covers c b -> covers c (merge_contexts a b)).
Proof.
  unfold covers, merge_contexts; cbn. repeat split; try lia; intros c ? ?; repeat split; lia.
Qed.

Theorem C10_merge_algebra a b c :
  merge_contexts a a = a /\
  merge_contexts a (merge_contexts b c) = merge_contexts (merge_contexts a b) c.
Proof.
  unfold merge_contexts; cbn. split.
  - rewrite !Nat.min_id, !Nat.max_id. destruct a; reflexivity.
  - rewrite !Nat.min_assoc, !Nat.max_assoc. reflexivity.
Qed.

(* A token merged with a later one on another line gets the span in lines, but a
   box in columns: the start column is not the first token's. *)
Example C10_ex : merge_contexts (mkContext 0 5 0 9 None) (mkContext 1 0 1 2 (Some [])) = mkContext 0 0 1 9 None.
Proof. reflexivity. Qed.

(* ------------------------------------------------------------------ C11 *)
Lemma line_tokens_values c n lines : map t_value (line_tokens c n lines) = lines.
Proof. revert n; induction lines as [|l r IH]; intros n; cbn; [reflexivity|rewrite IH; reflexivity]. Qed.

Lemma line_tokens_nth c n lines i l : nth_error lines i = Some l ->
  nth_error (line_tokens c n lines) i = Some (line_token c (n + i) l).
Proof.
  revert n i; induction lines as [|x r IH]; intros n [|i] H; cbn in *; try discriminate.
  - injection H as <-. rewrite Nat.add_0_r. reflexivity.
  - rewrite (IH (S n) i H). f_equal. f_equal. lia.
Qed.

Theorem C11_split_join_lossless t :
  t_value (from_token_list (to_token_list t) [NL]) = t_value t /\
  map t_value (to_token_list t) = split_on NL (t_value t) /\
  (forall i u, nth_error (to_token_list t) i = Some u ->
     t_type u = T_TEXT /\ no_chr NL (t_value u) /\
     c_source (t_ctx u) = c_source (t_ctx t) /\
     c_start_line (t_ctx u) = c_start_line (t_ctx t) + i /\
     c_end_line (t_ctx u) = c_start_line (t_ctx t) + i /\
     c_start_column (t_ctx u) = c_start_column (t_ctx t) /\
     c_end_column (t_ctx u) = c_start_column (t_ctx t) + length (t_value u)).
Proof.
  assert (Hm : map t_value (to_token_list t) = split_on NL (t_value t)) by apply line_tokens_values.
  split; [|split; [exact Hm|]].
  - unfold from_token_list. destruct (to_token_list t) as [|u r] eqn:E.
    + destruct (t_value t) as [|a s]; [discriminate|]. cbn [map split_on] in Hm.
      destruct (N.eqb a NL); [discriminate|]. destruct (split_on NL s); discriminate.
    + cbn [t_value]. rewrite Hm. apply join_split.
  - intros i u Hu.
    assert (Hl : exists l, nth_error (split_on NL (t_value t)) i = Some l /\ u = line_token (t_ctx t) i l).
    { destruct (nth_error (split_on NL (t_value t)) i) as [l|] eqn:El.
      - exists l; split; [reflexivity|]. unfold to_token_list in Hu.
        rewrite (line_tokens_nth _ _ _ _ _ El) in Hu. injection Hu as <-. reflexivity.
      - exfalso. rewrite <- Hm, nth_error_map, Hu in El. discriminate. }
    destruct Hl as (l & Hl & ->). cbn.
    assert (Hnl : no_chr NL l).
    { apply nth_error_In in Hl. clear - Hl. revert l Hl.
      induction (t_value t) as [|a s IH]; intros l; cbn [split_on].
      - intros [<-|[]] [].
      - destruct (N.eqb_spec a NL) as [->|Hn]; [intros [<-|H]; [intros []|exact (IH l H)]|].
        destruct (split_on NL s) as [|p ps] eqn:E.
        + intros [<-|[]] [H|[]]. congruence.
        + intros [<-|H]; [intros [K|K]; [congruence|exact (IH p (or_introl eq_refl) K)]|apply IH; right; exact H]. }
    repeat split; auto; lia.
Qed.

Example C11_ex : map t_value (to_token_list (mkToken T_TEXT (lit "a

bc") (mkContext 4 2 6 2 None))) = [lit "a"; []; lit "bc"].
Proof. reflexivity. Qed.

Print Assumptions C01_lexing_terminates.
Print Assumptions C02_document_lexer_errors.
Print Assumptions C03_inline_lexers_never_fail.
Print Assumptions C04_inline_lexing_lossless.
Print Assumptions C05_contexts_locate_tokens.
Print Assumptions C05_context_width.
Print Assumptions C06_tokens_in_source_order.
Print Assumptions C07_block_content_verbatim.
Print Assumptions C07_block_content_verbatim_at_end.
Print Assumptions C08_comments_invisible.
Print Assumptions C09_unclosed_detected.
Print Assumptions C10_merge_covers_both.
Print Assumptions C10_merge_algebra.
Print Assumptions C11_split_join_lossless.
