(* DocFacts.v -- the document parser reads a document element by element *)
From Verif Require Export SpecDoc TermText.
From Verif Require Import LexerThms ParseFacts.

(* ------------------------------------ actions: they do not touch the tokens *)
Definition quiet {A} (m : D A) : Prop := forall x, exists x' r, fine_res r /\ forall rem, m (rem, x) = ((rem, x'), r).
Lemma quiet_ret {A} (a : A) : quiet (pret a).
Proof. intros x. exists x, (Ok a). split; [apply fine_ok|reflexivity]. Qed.
Lemma quiet_raise {A} e : e <> ExFuel -> e <> ExTokenError -> quiet (@praise dx A e).
Proof. intros H K x. exists x, (Exc e). split; [apply fine_exc; assumption|reflexivity]. Qed.
Lemma quiet_lift {A} (r : res A) : fine_res r -> quiet (plift r).
Proof. intros H x. exists x, r. split; [exact H|reflexivity]. Qed.
Lemma quiet_pget : quiet pget.
Proof. intros x. exists x, (Ok x). split; [apply fine_ok|reflexivity]. Qed.
Lemma quiet_pmod f : quiet (pmod f).
Proof. intros x. exists (f x), (Ok tt). split; [apply fine_ok|reflexivity]. Qed.
Lemma quiet_bind {A B} (m : D A) (f : A -> D B) : quiet m -> (forall a, quiet (f a)) -> quiet (pbind m f).
Proof.
  intros H K x. destruct (H x) as (x1 & r & [F1 F2] & E). destruct r as [a|e].
  - destruct (K a x1) as (x2 & r2 & F & E2). exists x2, r2. split; [exact F|]. intros rem. unfold pbind. rewrite E. apply E2.
  - exists x1, (Exc e). split; [split; congruence|]. intros rem. unfold pbind. rewrite E. reflexivity.
Qed.
Ltac quiet := repeat first
  [ assumption | apply quiet_ret | apply quiet_pget | apply quiet_pmod | (apply quiet_raise; discriminate)
  | (apply quiet_bind; [|intros ?]) ].

Lemma quiet_cases {A} (m : D A) x : quiet m ->
  (exists a x', runs m x a x') \/ (exists e, fails m x e /\ e <> ExFuel /\ e <> ExTokenError).
Proof.
  intros H. destruct (H x) as (x' & [a|e] & [F1 F2] & E).
  - left. exists a, x'. exact E.
  - right. exists e. split; [intros rem; rewrite E; reflexivity|]. split; congruence.
Qed.

Lemma pop_args_opt_quiet : quiet dp_pop_args_opt.
Proof. unfold dp_pop_args_opt. quiet. Qed.
Lemma pop_args_quiet : quiet dp_pop_args.
Proof. unfold dp_pop_args. apply quiet_bind; [apply pop_args_opt_quiet|]. intros a. quiet. Qed.
Lemma pop_labels_quiet : quiet dp_pop_labels.
Proof. unfold dp_pop_labels. quiet. Qed.
Lemma admitted_quiet : quiet dp_admitted.
Proof. unfold dp_admitted. quiet. destruct (dx_control _); [apply quiet_lift, run_control_fine|quiet]. Qed.
Lemma finish_quiet n : quiet (dp_finish n).
Proof. unfold dp_finish. apply quiet_bind; [apply admitted_quiet|]. intros [|]; unfold dp_save; quiet. Qed.
Lemma fresh_quiet : quiet dp_fresh.
Proof. unfold dp_fresh. quiet. Qed.
Lemma text_quiet cf text o : quiet (dp_text cf text o).
Proof.
  unfold dp_text. apply quiet_bind; [quiet|]. intros x. apply quiet_bind; [apply quiet_lift, preprocess_fine|]. intros t.
  apply quiet_bind; [apply quiet_lift, tp_run_fine|]. intros y. quiet.
Qed.
Lemma first_last_quiet {A} (l : list A) : quiet (first_last l).
Proof. destruct l; unfold first_last; quiet. Qed.
Lemma py_int_fine s : fine_res (py_int s).
Proof. unfold py_int. match goal with |- fine_res (match ?o with _ => _ end) => destruct o end; fine. Qed.
Lemma for_each_fine {A B} (f : A -> res B) l : (forall a, fine_res (f a)) -> fine_res (for_each f l).
Proof. intros H. induction l as [|a l IH]; [apply fine_ok|]. cbn [for_each]. fine; [apply H|exact IH]. Qed.

Section Quiet.
  Context (cf : config) (run : run_fn) (run_ok : forall e n d f t o, fine_res (run e n d f t o)).

  Lemma rule_quiet t : quiet (dp_do_rule t).
  Proof.
    unfold dp_do_rule. apply quiet_bind; [apply pop_args_quiet|]. intros a. apply quiet_bind; [apply pop_labels_quiet|]. intros l. apply finish_quiet.
  Qed.
  Lemma variable_quiet o n c v : quiet (dp_do_variable o n c v).
  Proof.
    unfold dp_do_variable. destruct (match v with Some v => _ | None => _ end) as [value ctx]. apply quiet_bind; [quiet|]. intros x.
    apply quiet_bind.
    - destruct (startswith _ _); [quiet|]. destruct (startswith _ _); [quiet|]. destruct value; [quiet|].
      apply quiet_bind; [apply quiet_lift, preprocess_fine|]. intros t. quiet.
    - intros nv. destruct (snd nv); quiet.
  Qed.
  Lemma label_quiet p t : quiet (dp_do_label cf p t).
  Proof. unfold dp_do_label. apply quiet_bind; [apply text_quiet|]. intros nodes. quiet. Qed.
  Lemma control_quiet p op c : quiet (dp_do_control p op c).
  Proof. unfold dp_do_control. apply quiet_bind; [quiet|]. intros x. apply quiet_bind; [apply quiet_lift, make_control_fine|]. intros k. quiet. Qed.
  Lemma arguments_quiet t : quiet (dp_do_arguments t).
  Proof.
    unfold dp_do_arguments. apply quiet_bind; [quiet|]. intros x. apply quiet_bind; [apply quiet_lift, process_arguments_with_variables_fine|]. intros p. quiet.
  Qed.
  Lemma hm_add_fine m n h : fine_res (hm_add_header m n h).
  Proof. unfold hm_add_header. destruct (dmem _ _); fine. Qed.
  Lemma header_quiet h t : quiet (dp_do_header cf h t).
  Proof.
    unfold dp_do_header. apply quiet_bind; [apply fresh_quiet|]. intros id. apply quiet_bind; [apply text_quiet|]. intros nodes.
    apply quiet_bind; [apply pop_args_quiet|]. intros a. destruct (pop_arg a _) as [internal a1]. destruct (pop_arg a1 _) as [name a2].
    apply quiet_bind; [apply first_last_quiet|]. intros fl. apply quiet_bind; [apply pop_labels_quiet|]. intros l.
    apply quiet_bind; [apply admitted_quiet|]. intros [|]; [|quiet].
    apply quiet_bind; [|intros _; unfold dp_save; quiet]. destruct name as [[|c n]|]; [quiet| |quiet].
    apply quiet_bind; [quiet|]. intros x. apply quiet_bind; [apply quiet_lift, hm_add_fine|]. intros m. quiet.
  Qed.
  Lemma item_quiet h t : quiet (dp_do_item cf h t).
  Proof. unfold dp_do_item. apply quiet_bind; [apply text_quiet|]. intros c. apply quiet_bind; [apply first_last_quiet|]. intros fl. quiet. Qed.
  Lemma list_quiet h i r : quiet (dp_do_list h i r).
  Proof.
    unfold dp_do_list. apply quiet_bind; [apply pop_args_quiet|]. intros a. apply quiet_bind; [quiet|]. intros x.
    apply quiet_bind.
    - destruct (dget _ _) as [v|]; [|quiet]. destruct (str_eqb _ _); [quiet|]. apply quiet_bind; [apply quiet_lift, py_int_fine|]. intros z. quiet.
    - intros start. apply quiet_bind; [apply pop_labels_quiet|]. intros l. apply finish_quiet.
  Qed.
  Lemma line_nodes_quiet ls : quiet (dp_line_nodes cf ls).
  Proof.
    induction ls as [|t ls IH]; cbn [dp_line_nodes]; [quiet|]. apply quiet_bind; [apply text_quiet|]. intros nodes.
    apply quiet_bind; [exact IH|]. intros rest. quiet.
  Qed.
  Lemma paragraph_quiet ls : quiet (dp_do_paragraph cf ls).
  Proof.
    unfold dp_do_paragraph. apply quiet_bind; [apply line_nodes_quiet|]. intros lines. apply quiet_bind; [apply pop_args_quiet|]. intros a.
    apply quiet_bind; [apply first_last_quiet|]. intros fl. apply quiet_bind; [apply pop_labels_quiet|]. intros l. apply finish_quiet.
  Qed.
  Lemma source_line_fine d p df al c n l : fine_res (source_line_of d p df al c n l).
  Proof.
    unfold source_line_of. destruct (negb _); [fine|]. apply fine_bind.
    - unfold py_split. destruct d; fine.
    - intros splits. destruct (_ <? _); [fine|]. destruct (startswith _ _); [fine|]. destruct (last splits []); fine.
  Qed.
  Lemma source_block_fine e t a : fine_res (source_block e t a).
  Proof.
    unfold source_block. destruct (pop_arg a _) as [d a1]. destruct (pop_arg a1 _) as [p a2]. destruct (pop_arg a2 _) as [df a3].
    apply fine_bind.
    - unfold style_aliases. destruct (env_get e _); fine. apply asdict_fine.
    - intros al. destruct (pop_arg _ _) as [lg a4]. apply fine_bind; [apply for_each_fine; intros [n l]; apply source_line_fine|].
      intros lines. fine.
  Qed.
  Lemma default_engine_quiet c a : quiet (dp_default_engine run c a).
  Proof.
    unfold dp_default_engine. destruct c as [t|]; [|quiet]. destruct (token_truthy t); [|quiet].
    apply quiet_bind; [quiet|]. intros x. apply quiet_bind; [apply quiet_lift, run_ok|]. intros y. quiet. destruct (str_eqb _ _); quiet.
  Qed.
  Lemma engine_quiet en ctx c cl a : quiet (dp_engine run en ctx c cl a).
  Proof.
    unfold dp_engine. destruct (str_eqb _ _); [apply quiet_bind; [apply default_engine_quiet|]; intros n; quiet|].
    destruct (str_eqb _ _); [quiet|]. destruct (str_eqb _ _); [|quiet]. destruct c as [t|]; [|quiet]. destruct (token_truthy t); [|quiet].
    apply quiet_bind; [quiet|]. intros x. apply quiet_bind; [apply quiet_lift, source_block_fine|]. intros [[lg ls] a']. quiet.
  Qed.
  Lemma block_quiet o t c : quiet (dp_do_block run o t c).
  Proof.
    unfold dp_do_block. apply quiet_bind; [apply pop_args_quiet|]. intros a. destruct (pop_arg a _) as [cl a1]. destruct (pop_arg a1 _) as [en a2].
    apply quiet_bind; [apply engine_quiet|]. intros [[node a3] nctx]. apply quiet_bind; [apply pop_labels_quiet|]. intros l.
    destruct (nonempty (dget (lit "footnote") _)) as [name|].
    - apply quiet_bind; [quiet|]. intros x. apply quiet_bind; [apply quiet_lift; unfold fm_add_body; destruct (dmem _ _); fine|]. intros m. quiet.
    - destruct (nonempty (dget (lit "group") _)) as [g|]; [|apply finish_quiet]. destruct (nonempty (dget (lit "position") _)) as [p|]; [|apply finish_quiet].
      apply quiet_bind; [quiet|]. intros x. apply quiet_bind; [apply quiet_lift; unfold gm_add_block; destruct (dmem _ _); fine|]. intros m. quiet.
  Qed.
  Lemma need_uri_quiet u c : quiet (need_uri u c).
  Proof. unfold need_uri. destruct (nonempty u); quiet. Qed.
  Lemma read_quiet u c : quiet (dp_read cf u c).
  Proof. unfold dp_read. destruct (cf_files cf u); quiet. Qed.
  Lemma nest_env_fine e : fine_res (env_from_environment e None).
  Proof. unfold env_from_environment. fine. apply asdict_fine. Qed.
  Lemma mau_quiet a ctx : quiet (dp_mau cf run a ctx).
  Proof.
    unfold dp_mau. destruct (pop_arg _ _) as [u a1]. destruct (pop_arg _ _) as [pass a2]. apply quiet_bind; [apply need_uri_quiet|]. intros uri.
    apply quiet_bind; [quiet|]. intros _. apply quiet_bind; [quiet|]. intros x. destruct (source_in _ _); [quiet|]. cbv zeta.
    apply quiet_bind; [quiet|]. intros _. apply quiet_bind; [apply read_quiet|]. intros text. apply quiet_bind; [quiet|]. intros x2.
    apply quiet_bind; [destruct (str_eqb _ _); [apply quiet_lift, nest_env_fine|quiet]|]. intros e.
    apply quiet_bind; [apply quiet_lift, run_ok|]. intros y. quiet.
  Qed.
  Lemma include_quiet ty ctx a : quiet (dp_do_include cf run ty ctx a).
  Proof.
    unfold dp_do_include. apply quiet_bind.
    - destruct (str_eqb _ _).
      { unfold dp_image. destruct (pop_arg _ _) as [u a1]. apply quiet_bind; [apply need_uri_quiet|]. intros uri.
        destruct (pop_arg a1 _) as [al a2]. destruct (pop_arg a2 _) as [cl a3]. quiet. }
      destruct (str_eqb _ _); [apply mau_quiet|].
      destruct (str_eqb _ _).
      { unfold dp_include_raw. destruct (pop_arg _ _) as [u a1]. apply quiet_bind; [apply need_uri_quiet|]. intros uri.
        apply quiet_bind; [apply read_quiet|]. intros text. quiet. }
      destruct (str_eqb _ _).
      { apply quiet_bind; [unfold dp_toc; apply quiet_bind; [apply fresh_quiet|]; intros id; quiet|]. intros f. quiet. }
      destruct (str_eqb _ _).
      { apply quiet_bind; [unfold dp_footnotes; apply quiet_bind; [apply fresh_quiet|]; intros id; quiet|]. intros f. quiet. }
      destruct (str_eqb _ _); [|quiet].
      unfold dp_blockgroup. destruct (pop_arg _ _) as [g a1]. destruct g; [|quiet]. apply quiet_bind; [apply fresh_quiet|]. intros id. quiet.
    - intros r. apply quiet_bind; [apply pop_labels_quiet|]. intros l. apply finish_quiet.
  Qed.
  Lemma inline_args_quiet t : quiet (dp_inline_args t).
  Proof.
    unfold dp_inline_args. apply quiet_bind; [quiet|]. intros x. apply quiet_bind; [apply quiet_lift, process_arguments_with_variables_fine|].
    intros p. quiet.
  Qed.
  Lemma element_quiet el : quiet (do_element cf run el).
  Proof.
    destruct el as [t|t|o n c v|r t|o op c|o t c|h t|o t c|o ty [[c t]|]|items|ls]; cbn [do_element].
    - quiet.
    - apply rule_quiet.
    - apply variable_quiet.
    - apply label_quiet.
    - apply control_quiet.
    - apply arguments_quiet.
    - apply header_quiet.
    - apply block_quiet.
    - apply quiet_bind; [apply pop_args_opt_quiet|]. intros [a|]; [quiet|]. apply quiet_bind; [apply inline_args_quiet|]. intros a. apply include_quiet.
    - apply quiet_bind; [apply pop_args_quiet|]. intros a. apply include_quiet.
    - quiet.
    - apply paragraph_quiet.
  Qed.
End Quiet.

(* ------------------------------------------------------- reading the tokens *)
(* the tokens of a document: EOF is at the end and nowhere else *)
Definition doc_tokens (rem : list token) : Prop :=
  exists body eof, rem = body ++ [eof] /\ Forall (fun t => t_type t <> T_EOF) body /\ t_type eof = T_EOF.
Lemma doc_tokens_cons t r : doc_tokens (t :: r) -> t_type t <> T_EOF -> doc_tokens r /\ r <> [].
Proof.
  intros (b & eof & E & Hb & He) Ht. destruct b as [|t' b]; injection E as -> E; [congruence|]. subst r. inversion Hb.
  split; [exists b, eof; auto|destruct b; discriminate].
Qed.
Lemma doc_tokens_ne r : doc_tokens r -> r <> [].
Proof. intros (b & eof & -> & _). destruct b; discriminate. Qed.
Lemma doc_tokens_eof t r : doc_tokens (t :: r) -> t_type t = T_EOF -> r = [].
Proof.
  intros (b & eof & E & Hb & He) Ht. destruct b as [|t' b]; injection E as -> E; [exact E|]. inversion Hb. congruence.
Qed.

Lemma check_ty t ty : check_token t (Some ty) None None = if tt_eqb (t_type t) ty then Ok t else Exc ExTokenError.
Proof. unfold check_token. destruct (tt_eqb (t_type t) ty); reflexivity. Qed.
Lemma check_tv t ty v : check_token t (Some ty) (Some v) None = if tt_eqb (t_type t) ty && str_eqb (t_value t) v then Ok t else Exc ExTokenError.
Proof. unfold check_token. destruct (tt_eqb (t_type t) ty); [|reflexivity]. cbn [negb andb]. destruct (str_eqb (t_value t) v); reflexivity. Qed.

(* a read that succeeds, and one that does not *)
Lemma get_ty_ok {A} ty t r x (g : token -> D A) : t_type t = ty -> doc_tokens (t :: r) -> ty <> T_EOF ->
  pbind (get_ty ty) g (t :: r, x) = g t (r, x).
Proof.
  intros H Hd Hn. unfold pbind, get_ty, pget_token. cbn [fst peek_tok]. rewrite check_ty, H, tt_eqb_refl. cbn [snd].
  destruct (doc_tokens_cons t r Hd) as [_ Hr]; [congruence|]. destruct r; [congruence|reflexivity].
Qed.
Lemma get_tv_ok {A} ty v t r x (g : token -> D A) : t_type t = ty -> t_value t = v -> doc_tokens (t :: r) -> ty <> T_EOF ->
  pbind (get_tv ty v) g (t :: r, x) = g t (r, x).
Proof.
  intros H Hv Hd Hn. unfold pbind, get_tv, pget_token. cbn [fst peek_tok]. rewrite check_tv, H, Hv, tt_eqb_refl, str_eqb_refl. cbn [snd andb].
  destruct (doc_tokens_cons t r Hd) as [_ Hr]; [congruence|]. destruct r; [congruence|reflexivity].
Qed.
Lemma get_ty_no {A} ty t r x (g : token -> D A) : t_type t <> ty -> pbind (get_ty ty) g (t :: r, x) = ((t :: r, x), Exc ExTokenError).
Proof.
  intros H. unfold pbind, get_ty, pget_token. cbn [fst peek_tok]. rewrite check_ty. destruct (tt_eqb_spec (t_type t) ty); [contradiction|reflexivity].
Qed.
Lemma get_tv_no {A} ty v t r x (g : token -> D A) : ~ (t_type t = ty /\ t_value t = v) -> pbind (get_tv ty v) g (t :: r, x) = ((t :: r, x), Exc ExTokenError).
Proof.
  intros H. unfold pbind, get_tv, pget_token. cbn [fst peek_tok]. rewrite check_tv. destruct (tt_eqb_spec (t_type t) ty); [|reflexivity].
  destruct (str_eqb_spec (t_value t) v); [tauto|reflexivity].
Qed.
Lemma peek_now {A} t r x (g : token -> D A) : pbind (ppeek None None None) g (t :: r, x) = g t (t :: r, x).
Proof. reflexivity. Qed.
Lemma is_ty_now {A} ty t r x (g : bool -> D A) : pbind (is_ty ty) g (t :: r, x) = g (tt_eqb (t_type t) ty) (t :: r, x).
Proof. unfold pbind, is_ty, peek_is. cbn [fst peek_tok]. rewrite check_ty. destruct (tt_eqb (t_type t) ty); reflexivity. Qed.
Lemma is_tv_now {A} ty v t r x (g : bool -> D A) : pbind (is_tv ty v) g (t :: r, x) = g (tt_eqb (t_type t) ty && str_eqb (t_value t) v) (t :: r, x).
Proof. unfold pbind, is_tv, peek_is. cbn [fst peek_tok]. rewrite check_tv. destruct (_ && _); reflexivity. Qed.

Lemma runs_bind {A B} (m : D A) (f : A -> D B) x a x' rem : runs m x a x' -> pbind m f (rem, x) = f a (rem, x').
Proof. intros H. unfold pbind. rewrite H. reflexivity. Qed.
Lemma fails_bind {A B} (m : D A) (f : A -> D B) x e rem : fails m x e -> snd (pbind m f (rem, x)) = Exc e.
Proof. intros H. specialize (H rem). unfold pbind. destruct (m (rem, x)) as [s r]. cbn [snd] in H. subst r. reflexivity. Qed.

Lemma bind_exc {A B} (m : D A) (f : A -> D B) s e : snd (m s) = Exc e -> snd (pbind m f s) = Exc e.
Proof. unfold pbind. destruct (m s) as [s' r]. cbn [snd]. intros ->. reflexivity. Qed.
Lemma bind_ok {A B} (m : D A) (f : A -> D B) s s' a : m s = (s', Ok a) -> pbind m f s = f a s'.
Proof. unfold pbind. intros ->. reflexivity. Qed.

Section Read.
  Context (cf : config).

  Definition pair_tokens (it : token * token) : list token := [fst it; snd it].
  Lemma tokens_of_list items : tokens_of (EItems items) = flat_map pair_tokens items.
  Proof. reflexivity. Qed.

  (* an item *)
  Lemma item_read t r x : doc_tokens (t :: r) -> t_type t = T_LIST ->
    (exists u r' n x', r = u :: r' /\ t_type u = T_TEXT /\ doc_tokens r' /\ runs (dp_do_item cf t u) x n x' /\ dp_item cf (t :: r, x) = ((r', x'), Ok n)) \/
    (exists e, snd (dp_item cf (t :: r, x)) = Exc e /\ e <> ExFuel /\
       ((e = ExTokenError /\ exists u r', r = u :: r' /\ t_type u <> T_TEXT) \/ exists u r', r = u :: r' /\ t_type u = T_TEXT /\ fails (dp_do_item cf t u) x e)).
  Proof.
    intros Hd Ht. unfold dp_item. rewrite (get_ty_ok T_LIST t r x _ Ht Hd ltac:(discriminate)).
    destruct (doc_tokens_cons t r Hd) as [Hr Hne]; [congruence|]. destruct r as [|u r']; [congruence|].
    destruct (tt_eqb_spec (t_type u) T_TEXT) as [Hu|Hu].
    2:{ right. exists ExTokenError. rewrite (get_ty_no T_TEXT u r' x _ Hu). cbn [snd]. split; [reflexivity|]. split; [discriminate|eauto 6]. }
    rewrite (get_ty_ok T_TEXT u r' x _ Hu Hr ltac:(discriminate)).
    destruct (doc_tokens_cons u r' Hr) as [Hr' _]; [congruence|].
    destruct (quiet_cases _ x (item_quiet cf t u)) as [(n & x' & H)|(e & H & F1 & F2)].
    - left. exists u, r', n, x'. split; [reflexivity|]. split; [exact Hu|]. split; [exact Hr'|]. split; [exact H|apply H].
    - right. exists e. split; [apply H|]. split; [exact F1|]. right. exists u, r'. auto.
  Qed.

  Lemma reads_items_app a b x i1 x1 i2 x2 : reads_items cf a x i1 x1 -> reads_items cf b x1 i2 x2 -> reads_items cf (a ++ b) x (i1 ++ i2) x2.
  Proof. induction 1 as [|h t r x n x1 its x2' Hr _ IH]; [auto|]. intros H. cbn. econstructor; [exact Hr|auto]. Qed.
  Lemma reads_items_fst a x its x1 : reads_items cf a x its x1 -> map fst its = a.
  Proof. induction 1; [reflexivity|]. cbn. f_equal; assumption. Qed.

  (* the reason why the items of a list cannot be read: what follows some of them is not
     an item, or one of them fails *)
  Definition pair_types (it : token * token) : Prop := t_type (fst it) = T_LIST /\ t_type (snd it) = T_TEXT.
  Definition bad_item (l : nat) (rest : list token) : Prop := exists t b, rest = t :: b /\
    ((t_type t <> T_LIST /\ token_in t list_stops = false) \/
     (t_type t = T_LIST /\ l <= length (t_value t) /\ exists u b', b = u :: b' /\ t_type u <> T_TEXT)).
  (* a parser error at some of the tokens *)
  Definition at_tokens (rem : list token) (e : exn) : Prop := exists msg t u, In t rem /\ In u rem /\ token_eqb t EOF_tok = false /\ e = parser_error msg (Some (merge_contexts (t_ctx t) (t_ctx u))).
  Lemma not_eof t : t_type t <> T_EOF -> token_eqb t EOF_tok = false.
  Proof. intros H. unfold token_eqb, EOF_tok, generate. cbn [t_type]. destruct (tt_eqb_spec (t_type t) T_EOF); [contradiction|reflexivity]. Qed.
  Lemma at_token rem t msg : In t rem -> token_eqb t EOF_tok = false -> at_tokens rem (parser_error msg (Some (t_ctx t))).
  Proof.
    intros H He. exists msg, t, t. split; [exact H|]. split; [exact H|]. split; [exact He|]. destruct (t_ctx t) as [a b c d o]. unfold merge_contexts. cbn.
    rewrite !Nat.min_id, !Nat.max_id. reflexivity.
  Qed.
  Lemma at_tokens_app p rem e : at_tokens rem e -> at_tokens (p ++ rem) e.
  Proof. intros (msg & t & u & H1 & H2 & H3 & H4). exists msg, t, u. rewrite !in_app_iff. auto. Qed.
  Definition item_error (l : nat) (rem : list token) (x : dx) (e : exn) : Prop :=
    ((e = ExTokenError \/ at_tokens rem e) /\
     exists p rest, rem = flat_map pair_tokens p ++ rest /\ Forall pair_types p /\ Forall (fun it => l <= level_of it) p /\ bad_item l rest) \/
    (exists p its y h u b, rem = flat_map pair_tokens (p ++ [(h, u)]) ++ b /\ Forall pair_types (p ++ [(h, u)]) /\
       reads_items cf p x its y /\ fails (dp_do_item cf h u) y e).
  Lemma item_error_app l l' p x its y rem e : Forall pair_types p -> Forall (fun it => l <= level_of it) p -> l <= l' -> reads_items cf p x its y ->
    item_error l' rem y e -> item_error l (flat_map pair_tokens p ++ rem) x e.
  Proof.
    intros Hp Hl Hll Hr [(He & q & rest & -> & H1 & H2 & H3)|(q & its2 & z & h & u & b & -> & H1 & H2 & H3)].
    - left. split; [destruct He as [He|He]; [left; exact He|right; apply at_tokens_app, He]|]. exists (p ++ q), rest. rewrite flat_map_app, app_assoc. split; [reflexivity|]. split; [apply Forall_app; auto|].
      split; [apply Forall_app; split; [exact Hl|]; eapply Forall_impl; [|exact H2]; cbv beta; intros; lia|].
      destruct H3 as (t & b & -> & H3). exists t, b. split; [reflexivity|]. destruct H3 as [H3|(A & B & C)]; [left; exact H3|right]. split; [exact A|]. split; [lia|exact C].
    - right. exists (p ++ q), (its ++ its2), z, h, u, b. rewrite <- (app_assoc p q). split; [rewrite (flat_map_app _ p), app_assoc; reflexivity|]. split; [apply Forall_app; auto|].
      split; [eapply reads_items_app; eassumption|exact H3].
  Qed.
  Lemma item_error_first l t r x e : t_type t = T_LIST -> l <= length (t_value t) ->
    ((e = ExTokenError /\ exists u r', r = u :: r' /\ t_type u <> T_TEXT) \/ exists u r', r = u :: r' /\ t_type u = T_TEXT /\ fails (dp_do_item cf t u) x e) ->
    item_error l (t :: r) x e.
  Proof.
    intros Ht Hl [(-> & u & r' & -> & Hu)|(u & r' & -> & Hu & Hf)].
    - left. split; [auto|]. exists [], (t :: u :: r'). split; [reflexivity|]. split; [constructor|]. split; [constructor|].
      exists t, (u :: r'). split; [reflexivity|]. right. eauto 6.
    - right. exists [], [], x, t, u, r'. split; [reflexivity|]. split; [constructor; [split; assumption|constructor]|]. split; [constructor|exact Hf].
  Qed.

  Lemma items_read n : forall l rem x, doc_tokens rem -> length rem < n ->
    (exists items its nodes rest x', rem = flat_map pair_tokens items ++ rest /\ doc_tokens rest /\ reads_items cf items x its x' /\
       nested l its nodes /\ list_ends l rest /\ Forall (fun i => l <= level i) its /\
       Forall (fun it => t_type (fst it) = T_LIST /\ t_type (snd it) = T_TEXT) items /\
       dp_items cf n l (rem, x) = ((rest, x'), Ok nodes)) \/
    (exists e, snd (dp_items cf n l (rem, x)) = Exc e /\ e <> ExFuel /\ item_error l rem x e).
  Proof.
    induction n as [|n IH]; intros l rem x Hd Hn; [lia|]. cbn [dp_items].
    destruct rem as [|t r]; [destruct (doc_tokens_ne _ Hd eq_refl)|]. rewrite peek_now.
    destruct (token_in t list_stops) eqn:Es.
    { left. exists [], [], [], (t :: r), x. split; [reflexivity|]. split; [exact Hd|]. split; [constructor|]. split; [constructor|].
      split; [exists t, r; auto|]. split; [constructor|]. split; [constructor|reflexivity]. }
    rewrite is_ty_now. destruct (tt_eqb_spec (t_type t) T_LIST) as [Ht|Ht]; cbn [negb].
    2:{ right. eexists. split; [reflexivity|]. split; [discriminate|]. left. split; [right; apply at_token; [left; reflexivity|unfold token_in, list_stops in Es; cbn [existsb] in Es; apply orb_false_iff in Es; apply Es]|]. exists [], (t :: r).
        split; [reflexivity|]. split; [constructor|]. split; [constructor|]. exists t, r. auto. }
    destruct (length (t_value t) =? l) eqn:El; [apply Nat.eqb_eq in El|].
    - (* the same level *)
      destruct (item_read t r x Hd Ht) as [(u & r' & nd & x1 & -> & Hu & Hd' & Hr & E)|(e & E & F & He)].
      2:{ right. exists e. split; [apply bind_exc; exact E|]. split; [exact F|]. apply item_error_first; [exact Ht|lia|exact He]. }
      rewrite (bind_ok _ _ _ _ _ E).
      destruct (IH l r' x1 Hd' ltac:(cbn in Hn; lia)) as [(items & its & nodes & rest & x2 & -> & H1 & H2 & H3 & H4 & H5 & H6 & H7)|(e & E2 & F & He)].
      2:{ right. exists e. split; [apply bind_exc; exact E2|]. split; [exact F|]. (apply (item_error_app l l [(t, u)] x [((t, u), nd)] x1 r' e); [constructor; [split; assumption|constructor]|constructor; [cbn; unfold level_of; cbn; lia|constructor]|lia|econstructor; [exact Hr|constructor]|exact He]). }
      left. exists ((t, u) :: items), (((t, u), nd) :: its), (nd :: nodes), rest, x2.
      split; [reflexivity|]. split; [exact H1|]. split; [econstructor; eassumption|].
      split; [apply (nested_same l ((t, u), nd)); [exact El|exact H3]|]. split; [exact H4|].
      split; [constructor; [cbn; unfold level, level_of; cbn; lia|exact H5]|]. split; [constructor; [auto|exact H6]|].
      rewrite (bind_ok _ _ _ _ _ H7). reflexivity.
    - apply Nat.eqb_neq in El. destruct (l <? length (t_value t)) eqn:Eg; [apply Nat.ltb_lt in Eg|].
      + (* a deeper list *)
        destruct (item_read t r x Hd Ht) as [(u & r' & nd & x1 & -> & Hu & Hd' & Hr & E)|(e & E & F & He)].
        2:{ right. exists e. split; [apply bind_exc; exact E|]. split; [exact F|]. apply item_error_first; [exact Ht|lia|exact He]. }
        rewrite (bind_ok _ _ _ _ _ E).
        destruct (IH (length (t_value t)) r' x1 Hd' ltac:(cbn in Hn; lia)) as [(items & its & nodes & rest & x2 & -> & H1 & H2 & H3 & H4 & H5 & H6 & H7)|(e & E2 & F & He)].
        2:{ right. exists e. split; [apply bind_exc; exact E2|]. split; [exact F|]. (apply (item_error_app l (length (t_value t)) [(t, u)] x [((t, u), nd)] x1 r' e); [constructor; [split; assumption|constructor]|constructor; [cbn; unfold level_of; cbn; lia|constructor]|lia|econstructor; [exact Hr|constructor]|exact He]). }
        rewrite (bind_ok _ _ _ _ _ H7). cbv zeta.
        destruct (IH l rest x2 H1 ltac:(cbn [length] in Hn; rewrite app_length in Hn; lia)) as [(items2 & its2 & nodes2 & rest2 & x3 & -> & G1 & G2 & G3 & G4 & G5 & G6 & G7)|(e & E2 & F & He)].
        2:{ right. exists e. split; [apply bind_exc; exact E2|]. split; [exact F|]. 
            apply (item_error_app l l ((t, u) :: items) x (((t, u), nd) :: its) x2 rest e); [constructor; [split; assumption|exact H6]| |lia|econstructor; eassumption|exact He].
            constructor; [unfold level_of; cbn; lia|]. pose proof (reads_items_fst _ _ _ _ H2) as M. rewrite <- M. apply Forall_map.
            eapply Forall_impl; [|exact H5]. cbv beta. unfold level. intros; lia. }
        left. exists ((t, u) :: items ++ items2), (((t, u), nd) :: its ++ its2). do 3 eexists.
        split; [cbn; rewrite flat_map_app, app_assoc; reflexivity|]. split; [exact G1|].
        split; [econstructor; [exact Hr|eapply reads_items_app; eassumption]|].
        split; [apply (nested_deeper l ((t, u), nd) its its2 nodes nodes2)|].
        * exact Eg.
        * exact H5.
        * intros j r2 ->. inversion G2 as [|h t' r3 x4 n4 x5 its5 x6 _ _]. subst. cbn [flat_map app] in H4.
          destruct H4 as (t0 & r0 & E0 & K). change (pair_tokens (h, t') ++ flat_map pair_tokens r3) with (h :: t' :: flat_map pair_tokens r3) in E0.
          injection E0 as <- _. destruct K as [K|[_ K]]; [|exact K]. exfalso. inversion G6 as [|? ? [Q _] _]. cbn in Q.
          unfold token_in, list_stops in K. cbn [existsb] in K. unfold token_eqb in K. rewrite Q in K. cbn in K. discriminate K.
        * exact H3.
        * exact G3.
        * split; [exact G4|]. split; [|split; [constructor; [auto|apply Forall_app; auto]|]].
          { constructor; [unfold level, level_of; cbn; lia|]. apply Forall_app. split; [|exact G5].
            eapply Forall_impl; [|exact H5]. cbv beta. intros a Ha. lia. }
          rewrite (bind_ok _ _ _ _ _ G7). reflexivity.
      + apply Nat.ltb_ge in Eg. left. exists [], [], [], (t :: r), x. split; [reflexivity|]. split; [exact Hd|]. split; [constructor|]. split; [constructor|].
        split; [exists t, r; split; [reflexivity|right; split; [exact Ht|lia]]|]. split; [constructor|]. split; [constructor|reflexivity].
  Qed.

  (* the lines of a paragraph *)
  Lemma lines_read n : forall rem x, doc_tokens rem -> length rem < n ->
    exists ls rest, rem = ls ++ rest /\ doc_tokens rest /\ Forall (is_type T_TEXT) ls /\ ~ starts_text rest /\ dp_lines n (rem, x) = ((rest, x), Ok ls).
  Proof.
    induction n as [|n IH]; intros rem x Hd Hn; [lia|]. cbn [dp_lines]. destruct rem as [|t r]; [destruct (doc_tokens_ne _ Hd eq_refl)|].
    rewrite peek_now. destruct (tt_eqb_spec (t_type t) T_TEXT) as [Ht|Ht].
    - rewrite (get_ty_ok T_TEXT t r x _ Ht Hd ltac:(discriminate)). destruct (doc_tokens_cons t r Hd) as [Hr _]; [congruence|].
      destruct (IH r x Hr ltac:(cbn in Hn; lia)) as (ls & rest & -> & H1 & H2 & H3 & H4). exists (t :: ls), rest.
      split; [reflexivity|]. split; [exact H1|]. split; [constructor; auto|]. split; [exact H3|]. rewrite (bind_ok _ _ _ _ _ H4). reflexivity.
    - exists [], (t :: r). split; [reflexivity|]. split; [exact Hd|]. split; [constructor|]. split; [|reflexivity].
      intros (t' & r' & E & K). injection E as <- <-. contradiction.
  Qed.
End Read.

(* ------------------------------------------ every processor gives True *)
Definition gives_true (m : D bool) : Prop := forall s s' a, m s = (s', Ok a) -> a = true.
Lemma true_ret : gives_true (pret true).
Proof. intros s s' a H. injection H as _ <-. reflexivity. Qed.
Lemma true_raise e : gives_true (praise e).
Proof. intros s s' a H. discriminate H. Qed.
Lemma true_bind {A} (m : D A) f : (forall a, gives_true (f a)) -> gives_true (pbind m f).
Proof. intros H s s' a. unfold pbind. destruct (m s) as [s1 [b|e]]; [apply H|discriminate]. Qed.
Ltac gtrue := repeat first [ apply true_ret | apply true_raise | (apply true_bind; intros ?) ].
Lemma finish_true n : gives_true (dp_finish n).
Proof. unfold dp_finish. apply true_bind. intros [|]; gtrue. Qed.
Ltac gtrue ::= repeat first [ apply finish_true | apply true_ret | apply true_raise | (apply true_bind; intros ?) ].
Lemma element_true cf run el : gives_true (do_element cf run el).
Proof.
  destruct el as [t|t|o n c v|r t|o op c|o t c|h t|o t c|o ty [[c t]|]|items|ls]; cbn [do_element].
  - gtrue.
  - unfold dp_do_rule. gtrue.
  - unfold dp_do_variable. destruct (match v with Some v => _ | None => _ end). gtrue. destruct (snd _); gtrue.
  - unfold dp_do_label. gtrue.
  - unfold dp_do_control. gtrue.
  - unfold dp_do_arguments. gtrue.
  - unfold dp_do_header. apply true_bind; intros id. apply true_bind; intros nodes. apply true_bind; intros a.
    destruct (pop_arg a _) as [i a1]. destruct (pop_arg a1 _) as [nm a2]. gtrue. match goal with |- gives_true (if ?b then _ else _) => destruct b end; gtrue.
  - unfold dp_do_block. apply true_bind; intros a. destruct (pop_arg a _) as [i a1]. destruct (pop_arg a1 _) as [nm a2].
    apply true_bind; intros [[node a3] nctx]. apply true_bind; intros l. destruct (nonempty _); [gtrue|].
    destruct (nonempty _); [|apply finish_true]. destruct (nonempty _); [gtrue|apply finish_true].
  - apply true_bind; intros [b|]; [gtrue|]. apply true_bind; intros a. unfold dp_do_include. gtrue.
  - apply true_bind; intros a. unfold dp_do_include. gtrue.
  - gtrue.
  - unfold dp_do_paragraph. gtrue.
Qed.
Lemma list_true h i r : gives_true (dp_do_list h i r).
Proof. unfold dp_do_list. gtrue. Qed.

(* ---------------------------------------------------- the functions, in turn *)
Lemma ptry_skip (f : D bool) fs rem x s' : f (rem, x) = (s', Exc ExTokenError) -> ptry (f :: fs) (rem, x) = ptry fs (rem, snd s').
Proof. intros E. cbn [ptry]. unfold pbind, pwith. rewrite E. reflexivity. Qed.
Lemma ptry_hit (f : D bool) fs s s' : f s = (s', Ok true) -> ptry (f :: fs) s = (s', Ok true).
Proof. intros E. cbn [ptry]. unfold pbind, pwith. rewrite E. reflexivity. Qed.
Lemma ptry_exc (f : D bool) fs s e : snd (f s) = Exc e -> e <> ExTokenError -> snd (ptry (f :: fs) s) = Exc e.
Proof. intros E H. cbn [ptry]. unfold pbind, pwith. destruct (f s) as [s' r]. cbn [snd] in E. subst r. destruct e; [congruence| | |]; reflexivity. Qed.

Section Dispatch.
  Context (cf : config) (run : run_fn) (run_ok : forall e n d f t o, fine_res (run e n d f t o)).

  (* what one of the functions does: it reads the tokens of an element and acts, or
     it gives up *)
  Definition read_as (f : D bool) (rem : list token) (x : dx) : Prop :=
    (exists el rest, rem = tokens_of el ++ rest /\ doc_tokens rest /\ shaped el /\ maximal el rest /\ (forall items, el <> EItems items) /\
       f (rem, x) = do_element cf run el (rest, x)) \/
    (exists s', f (rem, x) = (s', Exc ExTokenError)) \/
    (exists m, snd (f (rem, x)) = Exc (ExMau m) /\
       ((malformed rem /\ at_tokens rem (ExMau m)) \/ exists el rest, rem = tokens_of el ++ rest /\ shaped el /\ (forall items, el <> EItems items) /\ fails (do_element cf run el) x (ExMau m))).

  Lemma no_type {ty} (m : token -> D bool) t r x : t_type t <> ty -> exists s', pbind (get_ty ty) m (t :: r, x) = (s', Exc ExTokenError) /\ snd s' = x.
  Proof. intros H. rewrite get_ty_no by exact H. eexists; split; reflexivity. Qed.

  (* the type of the first token *)
  Definition head_type (el : element) : token_type :=
    match el with
    | EBlank _ => T_EOL | ERule _ => T_HORIZONTAL_RULE | EVariable _ _ _ _ => T_VARIABLE | ELabel _ _ => T_LABEL | EControl _ _ _ => T_CONTROL
    | EArguments _ _ _ => T_ARGUMENTS | EHeader _ _ => T_HEADER | EBlock _ _ _ => T_BLOCK | EInclude _ _ _ => T_INCLUDE
    | EItems _ => T_LIST | EParagraph _ => T_TEXT
    end.
  Lemma head_typed el rest t r : shaped el -> t :: r = tokens_of el ++ rest -> t_type t = head_type el.
  Proof.
    intros Hs E. destruct el as [a|a|a b c d|a b|a b c|a b c|a b|a b c|a b d|[|[a b] items]|[|a ls]]; cbn [tokens_of app fst snd flat_map] in E; cbn [shaped head_type] in *;
      unfold is_tok, is_type in Hs.
    10, 12: destruct Hs as [Q _]; congruence.
    all: injection E as <- _.
    3, 5, 6: destruct Hs as [[H _] _]; exact H.
    3-6: exact (proj1 Hs).
    1-2: exact Hs.
    - destruct Hs as [_ Hs]. inversion Hs as [|? ? [Q _] _]. exact Q.
    - destruct Hs as [_ Hs]. inversion Hs as [|? ? Q _]. exact Q.
  Qed.

  (* reads of further tokens: the tokens of an element after its first one *)
  Lemma then_ty {A} ty r x (g : token -> D A) : doc_tokens r -> ty <> T_EOF ->
    (exists u r', r = u :: r' /\ t_type u = ty /\ doc_tokens r' /\ pbind (get_ty ty) g (r, x) = g u (r', x)) \/
    (exists s', pbind (get_ty ty) g (r, x) = (s', Exc ExTokenError)).
  Proof.
    intros Hd Hty. destruct r as [|u r]; [destruct (doc_tokens_ne _ Hd eq_refl)|]. destruct (tt_eqb_spec (t_type u) ty) as [E|E].
    - left. exists u, r. split; [reflexivity|]. split; [exact E|]. split; [apply (doc_tokens_cons u r Hd); congruence|]. apply get_ty_ok; assumption.
    - right. rewrite get_ty_no by exact E. eauto.
  Qed.
  Lemma then_tv {A} ty v r x (g : token -> D A) : doc_tokens r -> ty <> T_EOF ->
    (exists u r', r = u :: r' /\ t_type u = ty /\ t_value u = v /\ doc_tokens r' /\ pbind (get_tv ty v) g (r, x) = g u (r', x)) \/
    (exists s', pbind (get_tv ty v) g (r, x) = (s', Exc ExTokenError)).
  Proof.
    intros Hd Hty. destruct r as [|u r]; [destruct (doc_tokens_ne _ Hd eq_refl)|]. destruct (tt_eqb_spec (t_type u) ty) as [E|E].
    - destruct (str_eqb_spec (t_value u) v) as [E2|E2].
      + left. exists u, r. split; [reflexivity|]. split; [exact E|]. split; [exact E2|]. split; [apply (doc_tokens_cons u r Hd); congruence|]. apply get_tv_ok; assumption.
      + right. rewrite get_tv_no by tauto. eauto.
    - right. rewrite get_tv_no by tauto. eauto.
  Qed.

  Lemma read_eol t r x : doc_tokens (t :: r) -> read_as dp_eol (t :: r) x.
  Proof.
    intros Hd. destruct (then_ty T_EOL (t :: r) x (fun _ => pret true) Hd ltac:(discriminate)) as [(u & r' & E & Hu & Hr & K)|[s' K]].
    - injection E as <- <-. left. exists (EBlank t), r. split; [reflexivity|]. split; [exact Hr|]. split; [exact Hu|]. split; [exact I|]. split; [discriminate|exact K].
    - right; left. exists s'. exact K.
  Qed.
  Lemma read_rule t r x : doc_tokens (t :: r) -> read_as dp_rule (t :: r) x.
  Proof.
    intros Hd. destruct (then_ty T_HORIZONTAL_RULE (t :: r) x dp_do_rule Hd ltac:(discriminate)) as [(u & r' & E & Hu & Hr & K)|[s' K]].
    - injection E as <- <-. left. exists (ERule t), r. split; [reflexivity|]. split; [exact Hr|]. split; [exact Hu|]. split; [exact I|]. split; [discriminate|exact K].
    - right; left. exists s'. exact K.
  Qed.
  Lemma read_variable t r x : doc_tokens (t :: r) -> read_as dp_variable (t :: r) x.
  Proof.
    intros Hd. unfold read_as, dp_variable.
    match goal with |- context [pbind (get_tv ?ty ?v) ?g] => destruct (then_tv ty v (t :: r) x g Hd ltac:(discriminate)) as [(u & r1 & E & Hu & Hv & Hr & K)|[s' K]] end.
    2:{ right; left; exists s'; exact K. } injection E as <- <-. rewrite K. clear K.
    match goal with |- context [pbind (get_ty ?ty) ?g] => destruct (then_ty ty r x g Hr ltac:(discriminate)) as [(n & r1 & -> & Hn & Hr1 & K)|[s' K]] end.
    2:{ right; left; exists s'; exact K. } rewrite K. clear K.
    match goal with |- context [pbind (get_tv ?ty ?v) ?g] => destruct (then_tv ty v r1 x g Hr1 ltac:(discriminate)) as [(c & r2 & -> & Hc & Hcv & Hr2 & K)|[s' K]] end.
    2:{ right; left; exists s'; exact K. } rewrite K. clear K.
    destruct r2 as [|v r3]; [destruct (doc_tokens_ne _ Hr2 eq_refl)|]. rewrite peek_now. left.
    destruct (tt_eqb_spec (t_type v) T_TEXT) as [Ev|Ev].
    - exists (EVariable t n c (Some v)), r3. split; [reflexivity|]. destruct (doc_tokens_cons v r3 Hr2) as [H _]; [congruence|]. split; [exact H|].
      split; [split; [split; assumption|]; split; [exact Hn|]; split; [split; assumption|]; constructor; [exact Ev|constructor]|].
      split; [exact I|]. split; [discriminate|]. cbn [do_element]. destruct r3; [destruct (doc_tokens_ne _ H eq_refl)|]. reflexivity.
    - exists (EVariable t n c None), (v :: r3). split; [reflexivity|]. split; [exact Hr2|].
      split; [split; [split; assumption|]; split; [exact Hn|]; split; [split; assumption|]; constructor|].
      split; [intros (a & b & E & Q); injection E as <- <-; contradiction|]. split; [discriminate|]. reflexivity.
  Qed.
  Lemma read_label t r x : doc_tokens (t :: r) -> read_as (dp_label cf) (t :: r) x.
  Proof.
    intros Hd. unfold read_as, dp_label.
    match goal with |- context [pbind (get_ty ?ty) ?g] => destruct (then_ty ty (t :: r) x g Hd ltac:(discriminate)) as [(u & r1 & E & Hu & Hr & K)|[s' K]] end.
    2:{ right; left; exists s'; exact K. } injection E as <- <-. rewrite K. clear K.
    match goal with |- context [pbind (get_ty ?ty) ?g] => destruct (then_ty ty r x g Hr ltac:(discriminate)) as [(n & r1 & -> & Hn & Hr1 & K)|[s' K]] end.
    2:{ right; left; exists s'; exact K. } rewrite K. clear K. left.
    exists (ELabel t n), r1. split; [reflexivity|]. split; [exact Hr1|]. split; [split; assumption|]. split; [exact I|]. split; [discriminate|reflexivity].
  Qed.
  Lemma read_control t r x : doc_tokens (t :: r) -> read_as dp_control (t :: r) x.
  Proof.
    intros Hd. unfold read_as, dp_control.
    match goal with |- context [pbind (get_tv ?ty ?v) ?g] => destruct (then_tv ty v (t :: r) x g Hd ltac:(discriminate)) as [(u & r1 & E & Hu & Hv & Hr & K)|[s' K]] end.
    2:{ right; left; exists s'; exact K. } injection E as <- <-. rewrite K. clear K.
    match goal with |- context [pbind (get_ty ?ty) ?g] => destruct (then_ty ty r x g Hr ltac:(discriminate)) as [(n & r1 & -> & Hn & Hr1 & K)|[s' K]] end.
    2:{ right; left; exists s'; exact K. } rewrite K. clear K.
    match goal with |- context [pbind (get_ty ?ty) ?g] => destruct (then_ty ty r1 x g Hr1 ltac:(discriminate)) as [(c & r2 & -> & Hc & Hr2 & K)|[s' K]] end.
    2:{ right; left; exists s'; exact K. } rewrite K. clear K. left.
    exists (EControl t n c), r2. split; [reflexivity|]. split; [exact Hr2|]. split; [split; [split; assumption|split; assumption]|]. split; [exact I|]. split; [discriminate|reflexivity].
  Qed.
  Lemma read_arguments t r x : doc_tokens (t :: r) -> read_as dp_arguments (t :: r) x.
  Proof.
    intros Hd. unfold read_as, dp_arguments.
    match goal with |- context [pbind (get_tv ?ty ?v) ?g] => destruct (then_tv ty v (t :: r) x g Hd ltac:(discriminate)) as [(u & r1 & E & Hu & Hv & Hr & K)|[s' K]] end.
    2:{ right; left; exists s'; exact K. } injection E as <- <-. rewrite K. clear K.
    match goal with |- context [pbind (get_ty ?ty) ?g] => destruct (then_ty ty r x g Hr ltac:(discriminate)) as [(n & r1 & -> & Hn & Hr1 & K)|[s' K]] end.
    2:{ right; left; exists s'; exact K. } rewrite K. clear K.
    match goal with |- context [pbind (get_tv ?ty ?v) ?g] => destruct (then_tv ty v r1 x g Hr1 ltac:(discriminate)) as [(c & r2 & -> & Hc & Hcv & Hr2 & K)|[s' K]] end.
    2:{ right; left; exists s'; exact K. } rewrite K. clear K. left.
    exists (EArguments t n c), r2. split; [reflexivity|]. split; [exact Hr2|].
    split; [split; [split; assumption|split; [exact Hn|split; assumption]]|]. split; [exact I|]. split; [discriminate|reflexivity].
  Qed.
  Lemma read_header t r x : doc_tokens (t :: r) -> read_as (dp_header cf) (t :: r) x.
  Proof.
    intros Hd. unfold read_as, dp_header.
    match goal with |- context [pbind (get_ty ?ty) ?g] => destruct (then_ty ty (t :: r) x g Hd ltac:(discriminate)) as [(u & r1 & E & Hu & Hr & K)|[s' K]] end.
    2:{ right; left; exists s'; exact K. } injection E as <- <-. rewrite K. clear K.
    match goal with |- context [pbind (get_ty ?ty) ?g] => destruct (then_ty ty r x g Hr ltac:(discriminate)) as [(n & r1 & -> & Hn & Hr1 & K)|[s' K]] end.
    2:{ right; left; exists s'; exact K. } rewrite K. clear K. left.
    exists (EHeader t n), r1. split; [reflexivity|]. split; [exact Hr1|]. split; [split; assumption|]. split; [exact I|]. split; [discriminate|reflexivity].
  Qed.
  Lemma read_block t r x : doc_tokens (t :: r) -> read_as (dp_block run) (t :: r) x.
  Proof.
    intros Hd. unfold read_as, dp_block.
    match goal with |- context [pbind (get_ty ?ty) ?g] => destruct (then_ty ty (t :: r) x g Hd ltac:(discriminate)) as [(u & r1 & E & Hu & Hr & K)|[s' K]] end.
    2:{ right; left; exists s'; exact K. } injection E as <- <-. rewrite K. clear K.
    destruct r as [|v r1]; [destruct (doc_tokens_ne _ Hr eq_refl)|]. rewrite peek_now.
    destruct (tt_eqb_spec (t_type v) T_TEXT) as [Ev|Ev].
    - assert (K : forall g : option token -> D bool, pbind (let* t0 := get_ty T_TEXT in pret (Some t0)) g (v :: r1, x) = g (Some v) (r1, x)).
      { intros g. erewrite bind_ok; [reflexivity|]. rewrite get_ty_ok; [reflexivity|exact Ev|exact Hr|discriminate]. }
      rewrite K. clear K. destruct (doc_tokens_cons v r1 Hr) as [Hr1 _]; [congruence|].
      match goal with |- context [pbind (get_ty ?ty) ?g] => destruct (then_ty ty r1 x g Hr1 ltac:(discriminate)) as [(c & r2 & -> & Hc & Hr2 & K)|[s' K]] end.
      2:{ right; left; exists s'; exact K. } rewrite K. clear K. left.
      exists (EBlock t (Some v) c), r2. split; [reflexivity|]. split; [exact Hr2|].
      split; [split; [exact Hu|split; [constructor; [exact Ev|constructor]|exact Hc]]|]. split; [exact I|]. split; [discriminate|reflexivity].
    - assert (K : forall g : option token -> D bool, pbind (pret None) g (v :: r1, x) = g None (v :: r1, x)) by reflexivity.
      rewrite K. clear K.
      match goal with |- context [pbind (get_ty ?ty) ?g] => destruct (then_ty ty (v :: r1) x g Hr ltac:(discriminate)) as [(c & r2 & E & Hc & Hr2 & K)|[s' K]] end.
      2:{ right; left; exists s'; exact K. } rewrite K. clear K. injection E as <- <-. left.
      exists (EBlock t None v), r1. split; [reflexivity|]. split; [exact Hr2|].
      split; [split; [exact Hu|split; [constructor|exact Hc]]|]. split; [exact I|]. split; [discriminate|reflexivity].
  Qed.
  Lemma pop_opt_run x : runs dp_pop_args_opt x (dx_args x) (set_args x None).
  Proof. intros rem. reflexivity. Qed.
  Lemma read_include t r x : doc_tokens (t :: r) -> read_as (dp_include cf run) (t :: r) x.
  Proof.
    intros Hd. unfold read_as, dp_include.
    match goal with |- context [pbind (get_ty ?ty) ?g] => destruct (then_ty ty (t :: r) x g Hd ltac:(discriminate)) as [(u & r1 & E & Hu & Hr & K)|[s' K]] end.
    2:{ right; left; exists s'; exact K. } injection E as <- <-. rewrite K. clear K.
    match goal with |- context [pbind (get_ty ?ty) ?g] => destruct (then_ty ty r x g Hr ltac:(discriminate)) as [(n & r1 & -> & Hn & Hr1 & K)|[s' K]] end.
    2:{ right; left; exists s'; exact K. } rewrite K. clear K. cbv zeta.
    rewrite (runs_bind _ _ _ _ _ _ (pop_opt_run x)).
    destruct r1 as [|v r2]; [destruct (doc_tokens_ne _ Hr1 eq_refl)|]. rewrite is_tv_now.
    destruct (tt_eqb (t_type v) T_LITERAL && str_eqb (t_value v) (lit ":")) eqn:Ev.
    - apply andb_true_iff in Ev as [E1 E2]. destruct (tt_eqb_spec (t_type v) T_LITERAL) as [Ev|]; [|discriminate]. apply str_eqb_eq in E2.
      destruct (doc_tokens_cons v r2 Hr1) as [Hr2 Hne]; [congruence|]. destruct r2 as [|w r3]; [congruence|].
      destruct (dx_args x) as [boxed|] eqn:Eb.
      + right; right. eexists. split; [reflexivity|]. destruct (tt_eqb_spec (t_type w) T_TEXT) as [Ew|Ew].
        * right. exists (EInclude t n (Some (v, w))), r3. split; [reflexivity|]. split; [split; [exact Hu|split; [exact Hn|split; [split; assumption|exact Ew]]]|].
          split; [discriminate|]. intros rem. cbn [do_element]. rewrite (runs_bind _ _ _ _ _ _ (pop_opt_run x)), Eb. reflexivity.
        * left. split; [|eexists _, t, n; split; [left; reflexivity|split; [right; left; reflexivity|split; [apply not_eof; rewrite Hu; discriminate|reflexivity]]]]. intros el rest Hs Hm E.
          pose proof (head_typed el rest _ _ Hs E) as Q. rewrite Hu in Q. destruct el as [| | | | | | | |a b [[c d]|]| |]; try discriminate Q; cbn [tokens_of app] in E.
          -- injection E as -> -> -> -> _. destruct Hs as (_ & _ & _ & Hd'). contradiction.
          -- injection E as -> -> <-. cbn in Hm. apply Hm. exists v, (w :: r3). split; [reflexivity|split; assumption].
      + destruct (tt_eqb_spec (t_type w) T_TEXT) as [Ew|Ew].
        * left. exists (EInclude t n (Some (v, w))), r3. split; [reflexivity|].
          destruct (doc_tokens_cons w r3 Hr2) as [Hr3 _]; [congruence|].
          split; [exact Hr3|]. split; [split; [exact Hu|split; [exact Hn|split; [split; assumption|exact Ew]]]|].
          split; [exact I|]. split; [discriminate|]. cbn [do_element]. rewrite (runs_bind _ _ _ _ _ _ (pop_opt_run x)), Eb.
          assert (K : (get_tv T_LITERAL (lit ":");;; let* t0 := get_ty T_TEXT in dp_inline_args t0) (v :: w :: r3, set_args x None) = dp_inline_args w (r3, set_args x None)).
          { rewrite get_tv_ok; [|exact Ev|exact E2|exact Hr1|discriminate]. apply get_ty_ok; [exact Ew|exact Hr2|discriminate]. }
          unfold pbind at 1. rewrite K. reflexivity.
        * right; left.
          assert (K : (get_tv T_LITERAL (lit ":");;; let* t0 := get_ty T_TEXT in dp_inline_args t0) (v :: w :: r3, set_args x None) = ((w :: r3, set_args x None), Exc ExTokenError)).
          { rewrite get_tv_ok; [|exact Ev|exact E2|exact Hr1|discriminate]. apply get_ty_no, Ew. }
          unfold pbind at 1. rewrite K. eexists; reflexivity.
    - left. exists (EInclude t n None), (v :: r2). split; [reflexivity|]. split; [exact Hr1|].
      split; [split; [exact Hu|split; [exact Hn|exact I]]|]. split.
      { intros (a & b & E & [Q1 Q2]). injection E as <- <-. rewrite Q1, Q2 in Ev. discriminate Ev. }
      split; [discriminate|]. reflexivity.
  Qed.

  (* a paragraph: when the first token is not text, there are no lines *)
  Lemma read_paragraph t r x : doc_tokens (t :: r) -> t_type t = T_TEXT -> read_as (dp_paragraph cf) (t :: r) x.
  Proof.
    intros Hd Ht. left. unfold dp_paragraph. destruct (lines_read (S (length (t :: r))) (t :: r) x Hd ltac:(lia)) as (ls & rest & E & H1 & H2 & H3 & H4).
    exists (EParagraph ls), rest. split; [exact E|]. split; [exact H1|]. split; [split; [|exact H2]|split; [exact H3|split; [discriminate|]]].
    - intros ->. cbn in E. subst rest. apply H3. exists t, r. auto.
    - cbn [fst]. rewrite (bind_ok _ _ _ _ _ H4). reflexivity.
  Qed.
  Lemma no_paragraph t r x : t_type t <> T_TEXT -> snd (dp_paragraph cf (t :: r, x)) = Exc (ExPy "IndexError").
  Proof.
    intros H. unfold dp_paragraph. cbn [fst length dp_lines]. erewrite bind_ok.
    2:{ rewrite peek_now. destruct (tt_eqb_spec (t_type t) T_TEXT); [contradiction|]. reflexivity. }
    reflexivity.
  Qed.

  (* a list *)
  Lemma read_list t r x : doc_tokens (t :: r) -> t_type t = T_LIST ->
    (exists items i its nodes rest x1, t :: r = tokens_of (EItems items) ++ rest /\ doc_tokens rest /\ shaped (EItems items) /\ maximal (EItems items) rest /\
       reads_items cf items x (i :: its) x1 /\ nested (level i) its nodes /\
       dp_list cf (t :: r, x) = dp_do_list (fst (fst i)) (snd i) nodes (rest, x1)) \/
    (exists e, snd (dp_list cf (t :: r, x)) = Exc e /\ e <> ExFuel /\ item_error cf (length (t_value t)) (t :: r) x e).
  Proof.
    intros Hd Ht. unfold dp_list.
    assert (P : forall A (g : token -> D A), pbind (ppeek (Some T_LIST) None None) g (t :: r, x) = g t (t :: r, x)).
    { intros A g. unfold pbind, ppeek. cbn [fst peek_tok]. rewrite check_ty, Ht, tt_eqb_refl. reflexivity. }
    rewrite P. clear P. cbn [fst].
    destruct (item_read cf t r x Hd Ht) as [(u & r' & nd & x1 & -> & Hu & Hd' & Hr & E)|(e & E & F & He)].
    2:{ right. exists e. split; [apply bind_exc; exact E|]. split; [exact F|]. apply item_error_first; [exact Ht|lia|exact He]. }
    rewrite (bind_ok _ _ _ _ _ E).
    destruct (items_read cf (S (length (t :: u :: r'))) (length (t_value t)) r' x1 Hd' ltac:(cbn; lia))
      as [(items & its & nodes & rest & x2 & -> & H1 & H2 & H3 & H4 & H5 & H6 & H7)|(e & E2 & F & He)].
    2:{ right. exists e. split; [apply bind_exc; exact E2|]. split; [exact F|]. 
        apply (item_error_app cf _ (length (t_value t)) [(t, u)] x [((t, u), nd)] x1 r' e); [constructor; [split; assumption|constructor]|constructor; [cbn; unfold level_of; cbn; lia|constructor]|lia|econstructor; [exact Hr|constructor]|exact He]. }
    left. exists ((t, u) :: items), ((t, u), nd), its, nodes, rest, x2. split; [reflexivity|]. split; [exact H1|].
    split; [split; [discriminate|constructor; [auto|exact H6]]|].
    split.
    { exists (t, u), items. split; [reflexivity|]. split; [|exact H4]. pose proof (reads_items_fst _ _ _ _ _ H2) as M. rewrite <- M.
      apply Forall_map. exact H5. }
    split; [econstructor; eassumption|]. split; [exact H3|]. rewrite (bind_ok _ _ _ _ _ H7). reflexivity.
  Qed.
  Lemma no_list t r x : t_type t <> T_LIST -> exists s', dp_list cf (t :: r, x) = (s', Exc ExTokenError).
  Proof.
    intros H. unfold dp_list. unfold pbind at 1. cbn [ppeek fst peek_tok]. unfold ppeek. cbn [fst peek_tok]. rewrite check_ty.
    destruct (tt_eqb_spec (t_type t) T_LIST); [contradiction|]. eauto.
  Qed.

  (* the function that reads an element reads all of it *)
  Definition fn_of (el : element) : D bool :=
    match el with
    | EBlank _ => dp_eol | ERule _ => dp_rule | EVariable _ _ _ _ => dp_variable | ELabel _ _ => dp_label cf | EControl _ _ _ => dp_control
    | EArguments _ _ _ => dp_arguments | EHeader _ _ => dp_header cf | EBlock _ _ _ => dp_block run | EInclude _ _ _ => dp_include cf run
    | EItems _ => dp_list cf | EParagraph _ => dp_paragraph cf
    end.
  Lemma read_back el rest x : doc_tokens (tokens_of el ++ rest) -> shaped el -> maximal el rest -> (forall items, el <> EItems items) ->
    snd (fn_of el (tokens_of el ++ rest, x)) = snd (do_element cf run el (rest, x)).
  Proof.
    intros Hd Hs Hm Hl.
    assert (Hr : forall t r, doc_tokens (t :: r) -> t_type t <> T_EOF -> doc_tokens r) by (intros t r H H1; apply (doc_tokens_cons t r H H1)).
    destruct el as [t|t|o n c [v|]|p t|o op c|o t c|h t|o [t|] c|o ty [[c t]|]|items|ls]; cbn [fn_of tokens_of do_element shaped app opt_list] in *; unfold is_tok, is_literal, is_type in *.
    - unfold dp_eol. rewrite get_ty_ok; [reflexivity|exact Hs|exact Hd|discriminate].
    - unfold dp_rule. rewrite get_ty_ok; [reflexivity|exact Hs|exact Hd|discriminate].
    - destruct Hs as ((H1 & H1') & H2 & (H3 & H3') & H4). inversion H4 as [|? ? H4' _]; subst.
      assert (D1 := Hr _ _ Hd ltac:(congruence)). assert (D2 := Hr _ _ D1 ltac:(congruence)). assert (D3 := Hr _ _ D2 ltac:(congruence)). assert (D4 := Hr _ _ D3 ltac:(congruence)).
      unfold dp_variable. rewrite get_tv_ok by (assumption || discriminate). rewrite get_ty_ok by (assumption || discriminate). rewrite get_tv_ok by (assumption || discriminate).
      rewrite peek_now, H4'. cbn [tt_eqb]. destruct rest; [destruct (doc_tokens_ne _ D4 eq_refl)|]. reflexivity.
    - destruct Hs as ((H1 & H1') & H2 & (H3 & H3') & H4).
      assert (D1 := Hr _ _ Hd ltac:(congruence)). assert (D2 := Hr _ _ D1 ltac:(congruence)). assert (D3 := Hr _ _ D2 ltac:(congruence)).
      unfold dp_variable. rewrite get_tv_ok by (assumption || discriminate). rewrite get_ty_ok by (assumption || discriminate). rewrite get_tv_ok by (assumption || discriminate).
      destruct rest as [|u rest]; [destruct (doc_tokens_ne _ D3 eq_refl)|]. rewrite peek_now. destruct (tt_eqb_spec (t_type u) T_TEXT) as [Eu|_]; [|reflexivity]. destruct Hm. exists u, rest. auto.
    - destruct Hs as (H1 & H2). assert (D1 := Hr _ _ Hd ltac:(congruence)). unfold dp_label. rewrite !get_ty_ok by (assumption || discriminate). reflexivity.
    - destruct Hs as ((H1 & H1') & H2 & H3). assert (D1 := Hr _ _ Hd ltac:(congruence)). assert (D2 := Hr _ _ D1 ltac:(congruence)).
      unfold dp_control. rewrite get_tv_ok by (assumption || discriminate). rewrite !get_ty_ok by (assumption || discriminate). reflexivity.
    - destruct Hs as ((H1 & H1') & H2 & (H3 & H3')). assert (D1 := Hr _ _ Hd ltac:(congruence)). assert (D2 := Hr _ _ D1 ltac:(congruence)).
      unfold dp_arguments. rewrite get_tv_ok by (assumption || discriminate). rewrite get_ty_ok by (assumption || discriminate). rewrite get_tv_ok by (assumption || discriminate). reflexivity.
    - destruct Hs as (H1 & H2). assert (D1 := Hr _ _ Hd ltac:(congruence)). unfold dp_header. rewrite !get_ty_ok by (assumption || discriminate). reflexivity.
    - destruct Hs as (H1 & H2 & H3). inversion H2 as [|? ? H2' _]; subst. assert (D1 := Hr _ _ Hd ltac:(congruence)). assert (D2 := Hr _ _ D1 ltac:(congruence)).
      unfold dp_block. rewrite get_ty_ok by (assumption || discriminate). rewrite peek_now, H2', tt_eqb_refl.
      assert (K : (let* t0 := get_ty T_TEXT in pret (Some t0)) (t :: c :: rest, x) = ((c :: rest, x), Ok (Some t))) by (rewrite get_ty_ok by (assumption || discriminate); reflexivity).
      rewrite (bind_ok _ _ _ _ _ K). rewrite get_ty_ok by (assumption || discriminate). reflexivity.
    - destruct Hs as (H1 & H2 & H3). assert (D1 := Hr _ _ Hd ltac:(congruence)).
      unfold dp_block. rewrite get_ty_ok by (assumption || discriminate). rewrite peek_now, H3. change (tt_eqb T_BLOCK T_TEXT) with false. cbv iota.
      change (pbind (pret None)) with (fun f : option token -> D bool => f None). cbv beta. rewrite get_ty_ok by (assumption || discriminate). reflexivity.
    - destruct Hs as (H1 & H2 & (H3 & H3') & H4). assert (D1 := Hr _ _ Hd ltac:(congruence)). assert (D2 := Hr _ _ D1 ltac:(congruence)). assert (D3 := Hr _ _ D2 ltac:(congruence)).
      unfold dp_include. rewrite !get_ty_ok by (assumption || discriminate). cbv zeta. rewrite !(runs_bind _ _ _ _ _ _ (pop_opt_run x)). rewrite is_tv_now, H3, H3', tt_eqb_refl, str_eqb_refl. cbn [andb].
      destruct (dx_args x); [reflexivity|]. unfold pbind at 1. rewrite get_tv_ok by (assumption || discriminate). rewrite get_ty_ok by (assumption || discriminate). reflexivity.
    - destruct Hs as (H1 & H2 & _). assert (D1 := Hr _ _ Hd ltac:(congruence)). assert (D2 := Hr _ _ D1 ltac:(congruence)).
      unfold dp_include. rewrite !get_ty_ok by (assumption || discriminate). cbv zeta. unfold dp_pop_args. rewrite !(runs_bind _ _ _ _ _ _ (pop_opt_run x)).
      destruct rest as [|u rest]; [destruct (doc_tokens_ne _ D2 eq_refl)|]. rewrite is_tv_now.
      destruct (tt_eqb_spec (t_type u) T_LITERAL) as [Eu|_]; [destruct (str_eqb_spec (t_value u) (lit ":")) as [Ev|_]|]; [destruct Hm; exists u, rest; split; [reflexivity|split; assumption]| |];
        cbn [andb]; unfold pbind, dp_pop_args_opt, pget, pmod, pret; reflexivity.
    - destruct (Hl items eq_refl).
    - destruct Hs as [H1 H2]. unfold dp_paragraph. destruct (lines_read (S (length (ls ++ rest))) (ls ++ rest) x Hd ltac:(lia)) as (ls' & rest' & E & A1 & A2 & A3 & A4).
      cbn [fst]. rewrite (bind_ok _ _ _ _ _ A4).
      assert (K : ls' = ls /\ rest' = rest).
      { clear - H2 A2 A3 E Hm. revert ls' A2 E. induction ls as [|t ls IH]; intros [|t' ls'] A2 E; cbn in E.
        - split; [reflexivity|]. symmetry. exact E.
        - exfalso. apply Hm. exists t', (ls' ++ rest'). inversion A2; subst. auto.
        - exfalso. apply A3. exists t, (ls ++ rest). inversion H2; subst. auto.
        - injection E as <- E. inversion H2 as [|? ? _ Q1]; inversion A2 as [|? ? _ Q2]; subst. destruct (IH Q1 Hm ls' Q2 E) as [-> ->]. auto. }
      destruct K as [-> ->]. reflexivity.
  Qed.
  (* a list cannot be read when an item is not well formed *)
  Lemma list_malformed t r p rest : t_type t = T_LIST -> t :: r = flat_map pair_tokens p ++ rest -> Forall pair_types p ->
    Forall (fun it => length (t_value t) <= level_of it) p -> bad_item (length (t_value t)) rest -> malformed (t :: r).
  Proof.
    intros Ht E Hp Hl Hb el rest' Hs Hm E'. pose proof (head_typed el rest' _ _ Hs E') as Q. rewrite Ht in Q. destruct el as [| | | | | | | | |items|]; try discriminate Q. clear Q.
    rewrite tokens_of_list in E'. destruct Hm as (it & its & -> & Hge & Hend). destruct it as [a b]. assert (a = t) as -> by (cbn in E'; congruence).
    unfold level_of in Hend. cbn [fst] in Hend. destruct Hs as [_ Hs]. remember ((t, b) :: its) as items eqn:Ei. clear Ei Hge. set (l := length (t_value t)) in *. clearbody l.
    rewrite E in E'. clear E Ht t r b its. revert items Hs E'. induction Hp as [|[h u] p [Hh Hu] Hp IH]; intros items Hs E'; cbn [flat_map app pair_tokens fst snd] in *.
    - destruct items as [|[h u] items].
      + cbn in E'. subst rest'. destruct Hb as (t & b & -> & Hb). destruct Hend as (t' & r' & E & He). injection E as <- <-.
        destruct Hb as [[B1 B2]|(B1 & B2 & _)]; destruct He as [He|[He1 He2]]; try congruence; [|lia].
        unfold token_in, list_stops in He. cbn [existsb] in He. unfold token_eqb in He. rewrite B1 in He. discriminate He.
      + inversion Hs as [|? ? [H1 H2] _]. unfold is_type in *. cbn in H1, H2. cbn [flat_map pair_tokens fst snd app] in E'. destruct Hb as (t & b & -> & Hb). injection E' as -> E'.
        destruct Hb as [[B1 B2]|(B1 & B2 & u' & b' & -> & B3)]; [contradiction|]. injection E' as -> _. contradiction.
    - inversion Hl as [|? ? Hl1 Hl2]. destruct items as [|[h' u'] items].
      + cbn in E'. subst rest'. destruct Hend as (t' & r' & E & He). injection E as <- _. cbn in Hh, Hl1. unfold level_of in Hl1. cbn in Hl1. destruct He as [He|[_ He]]; [|lia].
        unfold token_in, list_stops in He. cbn [existsb] in He. unfold token_eqb in He. rewrite Hh in He. discriminate He.
      + inversion Hs as [|? ? _ Hs']. cbn [flat_map pair_tokens fst snd app] in E'. injection E' as _ _ E'. exact (IH Hl2 items Hs' E').
  Qed.

  (* why a document cannot be read further: its next element fails, or there is no
     element there *)
  Definition blamed (rem : list token) (x : dx) (e : exn) : Prop :=
    (exists el rest, rem = tokens_of el ++ rest /\ shaped el /\ element_fails cf run el x e) \/
    ((e = ExPy "IndexError" \/ at_tokens rem e) /\ malformed rem).
  Lemma not_list_fails el x e : (forall items, el <> EItems items) -> fails (do_element cf run el) x e -> element_fails cf run el x e.
  Proof. intros H F. destruct el; try exact F. destruct (H _ eq_refl). Qed.

  (* one function after the other *)
  Definition dispatched (fs : list (D bool)) (t : token) (r : list token) (x : dx) : Prop :=
    (exists el rest x', t :: r = tokens_of el ++ rest /\ doc_tokens rest /\ shaped el /\ maximal el rest /\ acts cf run el x x' /\
       ptry fs (t :: r, x) = ((rest, x'), Ok true)) \/
    (exists e, snd (ptry fs (t :: r, x)) = Exc e /\ e <> ExFuel /\ e <> ExTokenError /\ blamed (t :: r) x e).
  Definition gives_up (t : token) (r : list token) (f : D bool) : Prop := forall x, f (t :: r, x) = ((t :: r, x), Exc ExTokenError).
  Lemma skip_all gs fs t r x : Forall (gives_up t r) gs -> ptry (gs ++ fs) (t :: r, x) = ptry fs (t :: r, x).
  Proof. induction 1 as [|f gs Hf _ IH]; [reflexivity|]. cbn [app]. rewrite (ptry_skip _ _ _ _ _ (Hf x)). exact IH. Qed.

  Lemma dispatch_one gs1 f gs2 t r x : Forall (gives_up t r) gs1 -> Forall (gives_up t r) gs2 -> t_type t <> T_TEXT ->
    doc_tokens (t :: r) -> (forall el, head_type el = t_type t -> fn_of el = f /\ forall items, el <> EItems items) ->
    read_as f (t :: r) x -> dispatched (gs1 ++ f :: gs2 ++ [dp_paragraph cf]) t r x.
  Proof.
    intros H1 H2 Ht Hdoc Hfn Hf. unfold dispatched. rewrite (skip_all _ _ _ _ _ H1). destruct Hf as [(el & rest & E & Hr & Hs & Hm & Hl & Hd)|[[s' Hd]|(m & Hd & Hb)]].
    - destruct (quiet_cases _ x (element_quiet cf run run_ok el)) as [(a & x' & R)|(e & R & F1 & F2)].
      + assert (a = true) as -> by (eapply (element_true cf run el); apply (R [])).
        left. exists el, rest, x'. split; [exact E|]. split; [exact Hr|]. split; [exact Hs|]. split; [exact Hm|].
        split; [destruct el; try exact R; destruct (Hl _ eq_refl)|]. apply ptry_hit. rewrite Hd. apply R.
      + right. exists e. split; [apply ptry_exc; [rewrite Hd; apply R|exact F2]|]. split; [exact F1|]. split; [exact F2|].
        left. exists el, rest. split; [exact E|]. split; [exact Hs|]. apply not_list_fails; [exact Hl|exact R].
    - right. exists (ExPy "IndexError"). split; [|split; [discriminate|]; split; [discriminate|]].
      + rewrite (ptry_skip _ _ _ _ _ Hd), (skip_all _ _ _ _ _ H2). apply ptry_exc; [apply no_paragraph, Ht|discriminate].
      + right. split; [auto|]. intros el rest Hs Hm E. pose proof (head_typed el rest _ _ Hs E) as Q. destruct (Hfn el (eq_sym Q)) as [Hf Hl].
        assert (Hd' : snd (f (t :: r, x)) = Exc ExTokenError) by (rewrite Hd; reflexivity).
        rewrite <- Hf, E in Hd'. rewrite read_back in Hd'; [|rewrite <- E; exact Hdoc|exact Hs|exact Hm|exact Hl].
        destruct (quiet_cases _ x (element_quiet cf run run_ok el)) as [(a & x' & R)|(e & R & F1 & F2)]; rewrite (R rest) in Hd'; [discriminate Hd'|congruence].
    - right. exists (ExMau m). split; [apply ptry_exc; [exact Hd|discriminate]|]. split; [discriminate|]. split; [discriminate|].
      destruct Hb as [[Hb1 Hb2]|(el & rest & E & Hs & Hl & Hb)]; [right; auto|]. left. exists el, rest. split; [exact E|]. split; [exact Hs|]. apply not_list_fails; assumption.
  Qed.
  Lemma dispatch_list gs1 t r x : Forall (gives_up t r) gs1 -> doc_tokens (t :: r) -> t_type t = T_LIST ->
    dispatched (gs1 ++ [dp_list cf; dp_paragraph cf]) t r x.
  Proof.
    intros H1 Hd Ht. unfold dispatched. rewrite (skip_all _ _ _ _ _ H1).
    destruct (read_list t r x Hd Ht) as [(items & i & its & nodes & rest & x1 & E & Hr & Hs & Hm & R1 & R2 & R3)|(e & E & F & He)].
    - destruct (quiet_cases _ x1 (list_quiet (fst (fst i)) (snd i) nodes)) as [(a & x' & R)|(e & R & F1 & F2)].
      + assert (a = true) as -> by (eapply list_true; apply (R [])).
        left. exists (EItems items), rest, x'. split; [exact E|]. split; [exact Hr|]. split; [exact Hs|]. split; [exact Hm|].
        split; [exists i, its, nodes, x1; auto|]. apply ptry_hit. rewrite R3. apply R.
      + right. exists e. split; [apply ptry_exc; [rewrite R3; apply R|exact F2]|]. split; [exact F1|]. split; [exact F2|].
        left. exists (EItems items), rest. split; [exact E|]. split; [exact Hs|]. right. exists i, its, nodes, x1. auto.
    - right. destruct He as [(He & p & rest & E' & Hp & Hl & Hb)|(p & its & y & h & u & b & E' & Hp & R1 & R2)].
      + pose proof (list_malformed t r p rest Ht E' Hp Hl Hb) as M. destruct He as [->|He].
        * destruct (dp_list cf (t :: r, x)) as [s' r'] eqn:El. cbn [snd] in E. subst r'. exists (ExPy "IndexError").
          split; [rewrite (ptry_skip _ _ _ _ _ El); apply ptry_exc; [apply no_paragraph; congruence|discriminate]|]. split; [discriminate|]. split; [discriminate|]. right. auto.
        * assert (Fe : e <> ExTokenError) by (destruct He as (msg & a & b & _ & _ & _ & ->); discriminate). exists e. split; [apply ptry_exc; [exact E|exact Fe]|]. split; [exact F|]. split; [exact Fe|]. right. eauto.
      + assert (F2 : e <> ExTokenError). { destruct (quiet_cases _ y (item_quiet cf h u)) as [(n & x' & R)|(e' & R & _ & F2)]; specialize (R2 []); rewrite (R []) in R2; [discriminate R2|congruence]. }
        exists e. split; [apply ptry_exc; assumption|]. split; [exact F|]. split; [exact F2|]. left. exists (EItems (p ++ [(h, u)])), b.
        split; [exact E'|]. split; [split; [destruct p; discriminate|exact Hp]|]. left. exists p, h, u, [], its, y. auto.
  Qed.
  Lemma dispatch_text gs1 t r x : Forall (gives_up t r) gs1 -> doc_tokens (t :: r) -> t_type t = T_TEXT ->
    dispatched (gs1 ++ [dp_paragraph cf]) t r x.
  Proof.
    intros H1 Hd Ht. unfold dispatched. rewrite (skip_all _ _ _ _ _ H1). destruct (read_paragraph t r x Hd Ht) as [(el & rest & E & Hr & Hs & Hm & Hl & Hd')|[[s' Hd']|(m & Hd' & Hb)]].
    - destruct (quiet_cases _ x (element_quiet cf run run_ok el)) as [(a & x' & R)|(e & R & F1 & F2)].
      + assert (a = true) as -> by (eapply (element_true cf run el); apply (R [])).
        left. exists el, rest, x'. split; [exact E|]. split; [exact Hr|]. split; [exact Hs|]. split; [exact Hm|].
        split; [destruct el; try exact R; destruct (Hl _ eq_refl)|]. apply ptry_hit. rewrite Hd'. apply R.
      + right. exists e. split; [apply ptry_exc; [rewrite Hd'; apply R|exact F2]|]. split; [exact F1|]. split; [exact F2|].
        left. exists el, rest. split; [exact E|]. split; [exact Hs|]. apply not_list_fails; [exact Hl|exact R].
    - exfalso. unfold dp_paragraph in Hd'. destruct (lines_read (S (length (t :: r))) (t :: r) x Hd ltac:(lia)) as (ls & rest & E & _ & _ & _ & H4).
      cbn [fst] in Hd'. rewrite (bind_ok _ _ _ _ _ H4) in Hd'. destruct (paragraph_quiet cf ls x) as (x' & r' & [_ F] & K). rewrite K in Hd'. congruence.
    - right. exists (ExMau m). split; [apply ptry_exc; [exact Hd'|discriminate]|]. split; [discriminate|]. split; [discriminate|].
      destruct Hb as [[Hb1 Hb2]|(el & rest & E & Hs & Hl & Hb)]; [right; auto|]. left. exists el, rest. split; [exact E|]. split; [exact Hs|]. apply not_list_fails; assumption.
  Qed.

  Ltac up := intros ?; first [ (unfold dp_eol; apply get_ty_no; congruence) | (unfold dp_rule; apply get_ty_no; congruence)
    | (unfold dp_variable; apply get_tv_no; intros [? _]; congruence) | (unfold dp_label; apply get_ty_no; congruence)
    | (unfold dp_control; apply get_tv_no; intros [? _]; congruence) | (unfold dp_arguments; apply get_tv_no; intros [? _]; congruence)
    | (unfold dp_header; apply get_ty_no; congruence) | (unfold dp_block; apply get_ty_no; congruence)
    | (unfold dp_include; apply get_ty_no; congruence) ].
  Lemma list_up t r : t_type t <> T_LIST -> gives_up t r (dp_list cf).
  Proof.
    intros H x. unfold dp_list. unfold pbind at 1. unfold ppeek. cbn [fst peek_tok]. rewrite check_ty.
    destruct (tt_eqb_spec (t_type t) T_LIST); [contradiction|]. reflexivity.
  Qed.
  Ltac ups := repeat (apply Forall_cons; [first [ up | (apply list_up; congruence) ]|]); apply Forall_nil.

  Lemma dispatch t r x : doc_tokens (t :: r) -> t_type t <> T_EOF -> dispatched (dp_fns cf run) t r x.
  Proof.
    intros Hd Hn. unfold dp_fns.
    destruct (t_type t) eqn:Ht; try congruence.
    (* the types that start no element *)
    all: try (refine (dispatch_one [] dp_eol [dp_rule; dp_variable; dp_label cf; dp_control; dp_arguments; dp_header cf; dp_block run; dp_include cf run; dp_list cf] t r x _ _ _ _ _ _);
      [ups|ups|congruence|exact Hd|intros [] Q; cbn in Q |- *; first [discriminate Q | congruence | (split; [reflexivity|discriminate])]|apply read_eol, Hd]).
    all: first
    [ (refine (dispatch_one [dp_eol] dp_rule [dp_variable; dp_label cf; dp_control; dp_arguments; dp_header cf; dp_block run; dp_include cf run; dp_list cf] t r x _ _ _ _ _ _);
      [ups|ups|congruence|exact Hd|intros [] Q; cbn in Q |- *; first [discriminate Q | congruence | (split; [reflexivity|discriminate])]|apply read_rule, Hd])
    | (refine (dispatch_one [dp_eol; dp_rule] dp_variable [dp_label cf; dp_control; dp_arguments; dp_header cf; dp_block run; dp_include cf run; dp_list cf] t r x _ _ _ _ _ _);
      [ups|ups|congruence|exact Hd|intros [] Q; cbn in Q |- *; first [discriminate Q | congruence | (split; [reflexivity|discriminate])]|apply read_variable, Hd])
    | (refine (dispatch_one [dp_eol; dp_rule; dp_variable] (dp_label cf) [dp_control; dp_arguments; dp_header cf; dp_block run; dp_include cf run; dp_list cf] t r x _ _ _ _ _ _);
      [ups|ups|congruence|exact Hd|intros [] Q; cbn in Q |- *; first [discriminate Q | congruence | (split; [reflexivity|discriminate])]|apply read_label, Hd])
    | (refine (dispatch_one [dp_eol; dp_rule; dp_variable; dp_label cf] dp_control [dp_arguments; dp_header cf; dp_block run; dp_include cf run; dp_list cf] t r x _ _ _ _ _ _);
      [ups|ups|congruence|exact Hd|intros [] Q; cbn in Q |- *; first [discriminate Q | congruence | (split; [reflexivity|discriminate])]|apply read_control, Hd])
    | (refine (dispatch_one [dp_eol; dp_rule; dp_variable; dp_label cf; dp_control] dp_arguments [dp_header cf; dp_block run; dp_include cf run; dp_list cf] t r x _ _ _ _ _ _);
      [ups|ups|congruence|exact Hd|intros [] Q; cbn in Q |- *; first [discriminate Q | congruence | (split; [reflexivity|discriminate])]|apply read_arguments, Hd])
    | (refine (dispatch_one [dp_eol; dp_rule; dp_variable; dp_label cf; dp_control; dp_arguments] (dp_header cf) [dp_block run; dp_include cf run; dp_list cf] t r x _ _ _ _ _ _);
      [ups|ups|congruence|exact Hd|intros [] Q; cbn in Q |- *; first [discriminate Q | congruence | (split; [reflexivity|discriminate])]|apply read_header, Hd])
    | (refine (dispatch_one [dp_eol; dp_rule; dp_variable; dp_label cf; dp_control; dp_arguments; dp_header cf] (dp_block run) [dp_include cf run; dp_list cf] t r x _ _ _ _ _ _);
      [ups|ups|congruence|exact Hd|intros [] Q; cbn in Q |- *; first [discriminate Q | congruence | (split; [reflexivity|discriminate])]|apply read_block, Hd])
    | (refine (dispatch_one [dp_eol; dp_rule; dp_variable; dp_label cf; dp_control; dp_arguments; dp_header cf; dp_block run] (dp_include cf run) [dp_list cf] t r x _ _ _ _ _ _);
      [ups|ups|congruence|exact Hd|intros [] Q; cbn in Q |- *; first [discriminate Q | congruence | (split; [reflexivity|discriminate])]|apply read_include, Hd])
    | (refine (dispatch_list [dp_eol; dp_rule; dp_variable; dp_label cf; dp_control; dp_arguments; dp_header cf; dp_block run; dp_include cf run] t r x _ Hd Ht); ups)
    | (refine (dispatch_text [dp_eol; dp_rule; dp_variable; dp_label cf; dp_control; dp_arguments; dp_header cf; dp_block run; dp_include cf run; dp_list cf] t r x _ Hd Ht); ups) ].
  Qed.
End Dispatch.

Lemma tokens_of_ne el : shaped el -> tokens_of el <> [].
Proof.
  destruct el as [t|t|o n c v|r t|o op c|o t c|h t|o t c|o ty [[c t]|]|items|ls]; cbn; intros H; try discriminate.
  - destruct items; [destruct H as [H _]; congruence|]. discriminate.
  - exact (proj1 H).
Qed.

Section Loop.
  Context (cf : config) (run : run_fn) (run_ok : forall e n d f t o, fine_res (run e n d f t o)).

  Definition stops (rem : list token) (x : dx) (e : exn) : Prop :=
    exists els rest x', begins rem els rest /\ act_all cf run els x x' /\ (blamed cf run rest x' e \/ at_tokens rest e).
  Lemma loop_read n : forall last rem x, doc_tokens rem -> length rem < n ->
    (exists els s' x', made_of rem els /\ act_all cf run els x x' /\ ploop n (dp_fns cf run) last (rem, x) = (s', Ok tt) /\ snd s' = x') \/
    (exists e, snd (ploop n (dp_fns cf run) last (rem, x)) = Exc e /\ e <> ExFuel /\ e <> ExTokenError /\ stops rem x e).
  Proof.
    induction n as [|n IH]; intros last rem x Hd Hn; [lia|]. destruct rem as [|t r]; [destruct (doc_tokens_ne _ Hd eq_refl)|].
    destruct (tt_eqb_spec (t_type t) T_EOF) as [Ht|Ht].
    { left. exists [], (t :: r, x), x. rewrite (doc_tokens_eof t r Hd Ht). split; [constructor; exact Ht|]. split; [constructor|].
      split; [apply ploop_eof, Ht|reflexivity]. }
    destruct (same_token t last) eqn:Es.
    { right. cbn [ploop]. rewrite is_ty_now. destruct (tt_eqb_spec (t_type t) T_EOF); [contradiction|].
      rewrite peek_now. fold (same_token t last). rewrite Es. eexists. split; [reflexivity|]. split; [discriminate|]. split; [discriminate|].
      exists [], (t :: r), x. split; [constructor|]. split; [constructor|]. right. apply at_token; [left; reflexivity|apply not_eof, Ht]. }
    destruct (dispatch cf run run_ok t r x Hd Ht) as [(el & rest & x' & E & Hr & Hs & Hm & Ha & Hp)|(e & He & F1 & F2 & Hb)].
    - rewrite (ploop_step n _ last t r x _ Ht Es Hp). rewrite E in Hn. rewrite app_length in Hn.
      pose proof (tokens_of_ne el Hs) as Hne. destruct (tokens_of el) as [|t0 ts] eqn:Et; [congruence|]. cbn [length] in Hn.
      destruct (IH t rest x' Hr ltac:(lia)) as [(els & s' & x2 & M & A & P & S')|(e & He & F1 & F2 & els & rest2 & x2 & B1 & B2 & B3)].
      + left. exists (el :: els), s', x2. rewrite E, <- Et. split; [constructor; assumption|]. split; [econstructor; eassumption|]. auto.
      + right. exists e. split; [exact He|]. split; [exact F1|]. split; [exact F2|]. exists (el :: els), rest2, x2. rewrite E, <- Et.
        split; [constructor; assumption|]. split; [econstructor; eassumption|exact B3].
    - right. exists e. split; [|split; [exact F1|split; [exact F2|]]].
      + cbn [ploop]. rewrite is_ty_now. destruct (tt_eqb_spec (t_type t) T_EOF); [contradiction|].
        rewrite peek_now. fold (same_token t last). rewrite Es. apply bind_exc, He.
      + exists [], (t :: r), x. split; [constructor|]. split; [constructor|]. left. exact Hb.
  Qed.
  Lemma prun_read toks x : doc_tokens toks ->
    (exists els x', made_of toks els /\ act_all cf run els x x' /\ prun (Ok toks) x (dp_fns cf run) = Ok x') \/
    (exists e, prun (Ok toks) x (dp_fns cf run) = Exc e /\ e <> ExFuel /\ e <> ExTokenError /\ stops toks x e).
  Proof.
    intros Hd. unfold prun, pparse. cbn [rbind fst].
    destruct (loop_read (S (S (2 * length toks))) start_token toks x Hd ltac:(lia)) as [(els & s' & x' & M & A & P & <-)|(e & He & F)].
    - left. exists els, (snd s'). rewrite P. auto.
    - right. exists e. destruct (ploop _ _ _ _) as [s' r]. cbn [snd] in He. subst r. auto.
  Qed.
End Loop.

Lemma lex_doc_tokens text o toks : lex_document (buffer text o) = Ok toks -> doc_tokens toks.
Proof.
  unfold buffer. destruct (doc_total text (o_line o) (o_column o) (o_source o)) as [[(ts & E & pre & eof & -> & H1 & H2)|(a & b & c & E)] _]; rewrite E; [|discriminate].
  intros K. apply Ok_inv in K. subst toks. exists pre, eof. auto.
Qed.
Lemma lex_doc_fine text o : fine_res (lex_document (buffer text o)).
Proof.
  unfold buffer. destruct (doc_total text (o_line o) (o_column o) (o_source o)) as [[(ts & E & _)|(a & b & c & E)] _]; rewrite E; [apply fine_ok|fine].
Qed.
Lemma finalise_fine cf e x : fine_res (dp_finalise cf e x).
Proof.
  unfold dp_finalise. apply fine_bind.
  { unfold fm_process. apply fine_bind; [apply for_each_fine; intros [n [nm b]]; cbv zeta; apply fine_bind; [destruct (not_function _); fine|intros; fine]|].
    intros f. apply fine_bind; [apply for_each_fine; intros m; unfold fm_link; destruct (dget _ _); fine|]. intros l. fine. }
  intros [fl fs]. apply fine_bind.
  { unfold tm_process. destruct (tm_headers _); [fine|]. apply fine_bind; [|intros; fine].
    apply for_each_fine. intros hh. unfold give_internal. destruct (h_internal hh); [fine|]. apply fine_bind; [destruct (not_function _); fine|intros; fine]. }
  intros [[toc ids] tocs]. apply fine_bind.
  { unfold hm_process. apply for_each_fine. intros m. unfold hm_link. destruct (dget _ _); fine. }
  intros hl. apply fine_bind; [|intros; fine].
  unfold gm_process. apply for_each_fine. intros g. unfold gm_link. destruct (dget _ _); fine.
Qed.
Lemma init_fine e n d f : fine_res (dp_init e n d f).
Proof. unfold dp_init. destruct (not_callable _); fine. Qed.

(* no parser ever reaches a bound on the number of its steps *)
Lemma dp_run_fine n : forall cf e next done forbidden text o, fine_res (dp_run n cf e next done forbidden text o).
Proof.
  induction n as [|n IH]; intros cf e next done forb text o; [fine|]. cbn [dp_run].
  destruct (lex_doc_fine text o) as [L1 L2]. destruct (lex_document (buffer text o)) as [toks|ex] eqn:El; cbn [rbind]; [|split; congruence].
  apply fine_bind; [apply init_fine|]. intros x0. apply fine_bind; [|intros x; apply finalise_fine].
  destruct (prun_read cf (dp_run n cf) (fun e n' d f t o => IH cf e n' d f t o) toks x0 (lex_doc_tokens _ _ _ El)) as [(els & x' & _ & _ & ->)|(ex & -> & F1 & F2 & _)].
  - fine.
  - apply fine_exc; assumption.
Qed.

(* a failed run, in parts *)
Lemma dp_run_fails n cf e next done forb text o ex : dp_run (S n) cf e next done forb text o = Exc ex ->
  lex_document (buffer text o) = Exc ex \/ dp_init e next done forb = Exc ex \/
  exists toks x0, lex_document (buffer text o) = Ok toks /\ dp_init e next done forb = Ok x0 /\
    (stops cf (dp_run n cf) toks x0 ex \/
     exists els x, made_of toks els /\ act_all cf (dp_run n cf) els x0 x /\ dp_finalise cf (dx_env x0) x = Exc ex).
Proof.
  cbn [dp_run]. destruct (lex_document (buffer text o)) as [toks|ex1] eqn:El; [|cbn [rbind]; intros H; left; congruence]. cbn [rbind].
  destruct (dp_init e next done forb) as [x0|ex1] eqn:Ei; [|cbn [rbind]; intros H; right; left; congruence]. cbn [rbind]. intros H. right; right. exists toks, x0. split; [reflexivity|]. split; [reflexivity|].
  destruct (prun_read cf (dp_run n cf) (fun e n' d f t o => dp_run_fine n cf e n' d f t o) toks x0 (lex_doc_tokens _ _ _ El)) as [(els & x & M & A & P)|(ex1 & P & _ & _ & Hs)];
    rewrite P in H; cbn [rbind] in H.
  - right. exists els, x. auto.
  - left. assert (ex1 = ex) as <- by congruence. exact Hs.
Qed.

(* a successful run, in parts *)
Lemma dp_run_inv n cf e next done forb text o y : dp_run n cf e next done forb text o = Ok y ->
  exists m toks x0 els x, n = S m /\ lex_document (buffer text o) = Ok toks /\ dp_init e next done forb = Ok x0 /\
    made_of toks els /\ act_all cf (dp_run m cf) els x0 x /\ dp_finalise cf (dx_env x0) x = Ok y.
Proof.
  destruct n as [|m]; [discriminate|]. cbn [dp_run]. destruct (lex_document (buffer text o)) as [toks|ex] eqn:El; [|discriminate]. cbn [rbind].
  destruct (dp_init e next done forb) as [x0|ex] eqn:Ei; [|discriminate]. cbn [rbind].
  destruct (prun_read cf (dp_run m cf) (fun e n' d f t o => dp_run_fine m cf e n' d f t o) toks x0 (lex_doc_tokens _ _ _ El)) as [(els & x & M & A & P)|(ex & P & _)];
    rewrite P; cbn [rbind]; [|discriminate]. intros Hf. exists m, toks, x0, els, x. auto 10.
Qed.
