(* PropertiesErrors.v -- C47: failures *)
From Verif Require Import DocFacts LexerThms ErrDoc PropertiesDoc PropertiesInclude.
From Verif Require Export SpecErrors.

Lemma lex_py text o c : lex_document (buffer text o) <> Exc (ExPy c).
Proof. unfold buffer. destruct (doc_total text (o_line o) (o_column o) (o_source o)) as [[(ts & E & _)|(a & b & d & E)] _]; rewrite E; discriminate. Qed.
Lemma finalise_err cf e0 x : okres (fun c => c = "TypeError"%string /\ (not_function (env_get e0 (lit "mau.parser.footnote_unique_id_function")) = true \/
                             not_function (env_get e0 (lit "mau.parser.header_internal_id_function")) = true)) (dp_finalise cf e0 x).
Proof.
  unfold dp_finalise. cbv zeta. generalize (not_function (env_get e0 (lit "mau.parser.footnote_unique_id_function"))) (not_function (env_get e0 (lit "mau.parser.header_internal_id_function"))).
  intros nf nh. apply okres_bind.
  { unfold fm_process. apply okres_bind; [apply okres_each; intros [n [nm b]]; cbv zeta; apply okres_bind; [|intros; exact I]; destruct nf; [split; auto|exact I]|].
    intros f _. apply okres_bind; [apply okres_each; intros m; unfold fm_link; destruct (dget _ _); exact I|]. intros l _. exact I. }
  intros [fl fs] _. apply okres_bind.
  { unfold tm_process. destruct (tm_headers _); [exact I|]. apply okres_bind; [|intros; exact I].
    apply okres_each. intros hh. unfold give_internal. destruct (h_internal hh); [exact I|]. apply okres_bind; [|intros; exact I].
    destruct nh; [split; auto|exact I]. }
  intros [[toc ids] tocs] _. apply okres_bind.
  { unfold hm_process. apply okres_each. intros m. unfold hm_link. destruct (dget _ _); exact I. }
  intros hl _. apply okres_bind; [|intros; exact I].
  unfold gm_process. apply okres_each. intros g. unfold gm_link. destruct (dget _ _); exact I.
Qed.
Lemma init_err e next done forb c : dp_init e next done forb = Exc (ExPy c) ->
  c = "TypeError"%string /\ not_callable (env_get (env_update e base_env None false) (lit "mau.parser.document_wrapper")) = true.
Proof. unfold dp_init. cbv zeta. destruct (not_callable _) eqn:E; [|discriminate]. intros H. split; [congruence|reflexivity]. Qed.
Lemma init_env e next done forb x : dp_init e next done forb = Ok x -> dx_env x = env_update e base_env None false.
Proof. unfold dp_init. cbv zeta. destruct (not_callable _); [discriminate|]. intros H. apply Ok_inv in H. subst x. reflexivity. Qed.

(* Every failure that is not a MauException has one of the known causes. *)
Theorem C47_explained_partial n cf e next done forb text o c :
  dp_run (S n) cf e next done forb text o = Exc (ExPy c) -> explained cf (dp_run n cf) e next done forb text o c.
Proof.
  intros H. destruct (dp_run_fails _ _ _ _ _ _ _ _ _ H) as [L|[Hi|(toks & x0 & L & Hi & [(els & rest & x & B1 & B2 & B3)|(els & x & _ & _ & F)])]].
  - destruct (lex_py _ _ _ L).
  - left. exact (init_err _ _ _ _ _ Hi).
  - right; right. exists toks, x0, els, rest, x. split; [exact L|]. split; [exact Hi|]. split; [exact B1|]. split; [exact B2|].
    destruct B3 as [[(el & rest' & E & Hs & Hf)|[[Hc|(m & t & u & _ & _ & _ & Hc)] Hm]]|(m & t & u & _ & _ & _ & Hc)].
    + left. exists el, rest'. split; [exact E|]. split; [exact Hs|]. split; [exact Hf|]. apply raises_err; assumption.
    + right. split; [congruence|exact Hm].
    + discriminate Hc.
    + discriminate Hc.
  - right; left. pose proof (finalise_err cf (dx_env x0) x) as K. rewrite F in K. rewrite (init_env _ _ _ _ _ Hi) in K. exact K.
Qed.

(* Their classes. *)
Theorem C47_classes_partial n cf : forall e next done forb text o c,
  dp_run n cf e next done forb text o = Exc (ExPy c) -> known_class c \/ exists uri, cf_files cf uri = Unreadable c.
Proof.
  assert (K : forall c, In c ["IndexError"; "AttributeError"; "KeyError"; "ValueError"; "TypeError"; "RecursionError"]%string -> known_class c) by (intros c H; exact H).
  assert (C : forall tidy c, config_error tidy c -> known_class c) by (intros tidy c [[-> | ->] _]; apply K; cbn; auto 10).
  assert (T : forall e c, text_error e c -> known_class c) by (intros e c [[-> | ->]|H]; [apply K; cbn; auto 10|apply K; cbn; auto 10|exact (C _ _ H)]).
  induction n as [|n IH]; intros e next done forb text o c H; [cbn in H; left; apply K; assert (c = "RecursionError"%string) as -> by congruence; cbn; auto 10|].
  assert (In' : inside (dp_run n cf) c -> known_class c \/ exists uri, cf_files cf uri = Unreadable c) by (intros (e' & n' & d & f & t & o' & E); exact (IH _ _ _ _ _ _ _ E)).
  destruct (C47_explained_partial _ _ _ _ _ _ _ _ _ H) as [[-> _]|[[-> _]|(toks & x0 & els & rest & x & _ & _ & _ & _ & [(el & rest' & _ & _ & _ & M)|[-> _]])]];
    [left; apply K; cbn; auto 10|left; apply K; cbn; auto 10| |left; apply K; cbn; auto 10].
  destruct el as [t|t|a b k v|r t|a op k|a t k|h t|a t k|a ty args|items|ls]; cbn [may_raise] in M.
  - destruct M.
  - destruct M.
  - destruct M.
  - left. exact (T _ _ M).
  - destruct M as [-> _]. left; apply K; cbn; auto 10.
  - left. exact (C _ _ M).
  - destruct M as [M|[-> _]]; [left; exact (T _ _ M)|left; apply K; cbn; auto 10].
  - destruct M as [_ [[_ [[-> _]|M]]|M]]; [left; apply K; cbn; auto 10|left; exact (C _ _ M)|exact (In' M)].
  - destruct M as [[_ M]|[[_ ->]|[[_ M]|[_ [M|M]]]]]; [left; exact (C _ _ M)|left; apply K; cbn; auto 10|right; exact M|left; exact (C _ _ M)|exact (In' M)].
  - destruct M as [M|[[-> _]|[-> _]]]; [left; exact (T _ _ M)|left; apply K; cbn; auto 10|left; apply K; cbn; auto 10].
  - left. exact (T _ _ M).
Qed.

(* Each cause is met by a document: the full claim is false. *)
Definition outcome_of (text : string) : option exn :=
  match parse_document 5 cf_files1 [] (mau text) (mkOrigin 0 0 None) with Ok _ => None | Exc e => Some e end.
Theorem C47_refuted :
  outcome_of ":smile" = Some (ExPy "IndexError") /\
  outcome_of "<< mau:" = Some (ExPy "IndexError") /\
  outcome_of "* " = Some (ExPy "IndexError") /\
  outcome_of "@if" = Some (ExPy "AttributeError") /\
  outcome_of "[if:](x)" = Some (ExPy "AttributeError") /\
  outcome_of "<< blockgroup" = Some (ExPy "KeyError") /\
  outcome_of "[start=x]|* a" = Some (ExPy "ValueError") /\
  outcome_of "[engine=source,marker_delimiter=]|----|a|----" = Some (ExPy "ValueError") /\
  outcome_of ":mau.parser.document_wrapper:x|----|a|----" = Some (ExPy "TypeError") /\
  outcome_of ":a:1|:a.b:2|<< mau:f" = Some (ExPy "TypeError") /\
  outcome_of ":mau.parser.aliases:x|[@a]" = Some (ExPy "AttributeError") /\
  outcome_of "[engine=source]|:mau.parser.source_highlight_style_aliases:x|----|a|----" = Some (ExPy "AttributeError").
Proof. vm_compute. repeat split. Qed.
(* Also a mutual include (C45_refuted_block), for every depth. *)

(* In most cases the exception is a MauException, with the text of the error. *)
Example C47_ex : map outcome_of ["[a] |[[|{v}"; "[footnote](a)"; "<< other"; "= A|* b|  "; "[engine=x]|----|----"]%string =
  [Some (ExMau (MsgParser "Variable has not been defined." (Some (mkContext 2 0 2 3 None))));
   Some (ExMau (MsgParser "Footnote has not been defined." (Some (mkContext 0 0 0 13 None)))); None;
   Some (ExMau (MsgParser "Wrong syntax encountered while processing the list." (Some (mkContext 2 0 2 2 None))));
   Some (ExMau (MsgParser "Engine is not available." (Some (mkContext 1 0 2 4 None))))].
Proof. vm_compute. reflexivity. Qed.
