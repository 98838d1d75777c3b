(* PropertiesPlaces.v -- errors point at the text that caused them *)
From Verif Require Import SimFacts RunFacts DocFacts TermFacts PlaceRun PropertiesErrors PropertiesDoc PropertiesInclude.
#[local] Notation length := List.length.

(* C76: a MauException of a document names a place in the document: its source, and
   lines that are lines of the document; or a place in a file that is included.  The
   exceptions are a footnote that is defined twice, and texts where a variable has an
   empty name; the values of the environment are of one line. *)
Theorem C76_document n cf e text o m :
  calm_env e -> parse_document n cf e text o = Exc (ExMau m) ->
  nameless cf n e 0 [] [] text o \/ accounted cf (o_source o) (o_line o) (last_line text (o_line o)) m.
Proof. intros He H. destruct (run_places (fun _ => True) cf n (fun _ _ _ _ _ => I) e 0 [] [] text o He (fun _ _ => I) (Forall_nil _)) as [K|K]; [left; exact K|right]. unfold parse_document in H. rewrite H in K. exact K. Qed.

(* More precisely, if an element fails the place is in the lines of that element, from
   its first token a to its last one; a condition on a variable that is not defined is
   found later, but the place is that of the condition. *)
Theorem C76_element cf n e next dn forb text o toks x0 els el rest x m a r :
  calm_env e -> lex_document (buffer text o) = Ok toks -> dp_init e next dn forb = Ok x0 ->
  begins toks els (tokens_of el ++ rest) -> act_all cf (dp_run n cf) els x0 x -> shaped el -> tokens_of el = a :: r ->
  element_fails cf (dp_run n cf) el x (ExMau m) ->
  nameless cf (S n) e next dn forb text o \/
  accounted cf (o_source o) (c_start_line (t_ctx a)) (c_end_line (t_ctx (last (tokens_of el) a))) m \/
  exists c, dx_control x = Some c /\ m = no_variable c.
Proof. intros. eapply element_places; eassumption. Qed.

(* The errors in a text of one line are on that line. *)
Theorem C76_text depth e text o next m :
  calm_env e -> dget [] e = None -> one_line text -> tp_run depth e text o next = Exc (ExMau m) ->
  placed (o_source o) (o_line o) (o_line o) m.
Proof.
  intros He H0 Hl H. destruct (tp_run_places depth e text o next He H0 Hl) as [K _]. rewrite H in K. exact K.
Qed.

(* ---- documents where every variable has a name *)
(* The names of variables are not empty, and there are no blocks and no includes. *)
Definition simple_tokens (toks : list token) : Prop :=
  Forall (fun t => t_type t <> T_BLOCK /\ t_type t <> T_INCLUDE) toks /\
  forall pre o n post, toks = pre ++ o :: n :: post -> t_type o = T_VARIABLE -> t_value n <> [] /\ t_value n <> lit "+" /\ t_value n <> lit "-".
Definition simple (el : element) : Prop :=
  match el with
  | EVariable _ n _ _ => t_value n <> [] /\ t_value n <> lit "+" /\ t_value n <> lit "-"
  | EBlock _ _ _ | EInclude _ _ _ => False
  | _ => True
  end.
Lemma set_named e k v : k <> [] -> dget [] e = None -> dget [] (env_set e k (EStr v)) = None.
Proof.
  intros Hk H. change (env_set e k (EStr v)) with (dset k (EStr v) e). rewrite dget_dset. destruct (str_eqb_spec [] k); [congruence|exact H].
Qed.
Lemma variable_named o n c v x b z : runs (dp_do_variable o n c v) x b z -> t_value n <> [] -> t_value n <> lit "+" -> t_value n <> lit "-" -> dget [] (dx_env x) = None -> dget [] (dx_env z) = None.
Proof.
  intros H N1 N2 N3 H0. specialize (H []). unfold dp_do_variable in H. destruct (match v with Some v => _ | None => _ end) as [value ctx]. unfold pbind at 1, pget in H. cbn [snd] in H.
  assert (S : forall p, startswith (lit p) (t_value n) = true -> length (lit p) = 1 -> t_value n <> lit p -> skipn 1 (t_value n) <> []).
  { intros p Hp Hl Hn E. apply Hn. destruct (t_value n) as [|ch l]; [congruence|]. cbn [skipn] in E. subst l. destruct (lit p) as [|q [|? ?]]; try discriminate Hl. cbn in Hp. destruct (N.eqb_spec q ch); [congruence|discriminate Hp]. }
  destruct (startswith (lit "+") (t_value n)) eqn:E1.
  { unfold pbind, pret, pmod in H. cbn [snd fst] in H. assert (z = set_env x (env_set (dx_env x) (skipn 1 (t_value n)) (EStr (lit "true")))) as -> by (cbn in H |- *; congruence). apply set_named; [|exact H0]. apply (S "+"%string); auto. }
  destruct (startswith (lit "-") (t_value n)) eqn:E2.
  { unfold pbind, pret, pmod in H. cbn [snd fst] in H. assert (z = set_env x (env_set (dx_env x) (skipn 1 (t_value n)) (EStr (lit "false")))) as -> by (cbn in H |- *; congruence). apply set_named; [|exact H0]. apply (S "-"%string); auto. }
  destruct value as [|ch value]; [unfold pbind, pret, praise in H; cbn [snd fst] in H; discriminate H|]. unfold pbind, plift, pret in H. destruct (preprocess _ _ _) as [t|]; cbn [snd fst] in H; [|discriminate H].
  destruct (t_value t) as [|c1 l1]; [discriminate H|]. unfold pmod in H. cbn [snd fst] in H. assert (z = set_env x (env_set (dx_env x) (t_value n) (EStr (c1 :: l1)))) as -> by congruence. apply set_named; [exact N1|exact H0].
Qed.
Lemma simple_keeps cf run el x z : simple el -> acts cf run el x z -> dget [] (dx_env x) = None -> dget [] (dx_env z) = None.
Proof.
  intros Hs H H0. destruct el as [t|t|o nm c v|r t|o op c|o t c|h t|o content c|o ty args|items|ls]; cbn [simple] in Hs; try contradiction; cbn [acts do_element] in H.
  - apply runs_ret in H as [_ ->]. exact H0.
  - apply do_rule_inv in H as (ok & _ & ->). destruct ok; exact H0.
  - destruct Hs as (N1 & N2 & N3). eapply variable_named; eassumption.
  - apply do_label_inv in H as (nodes & ms & hs & next & ->). exact H0.
  - apply do_control_inv in H as (k & _ & ->). exact H0.
  - apply do_arguments_inv in H as (p & _ & ->). exact H0.
  - apply do_header_inv in H as (nodes & ms & hs & next & ctx & ok & H). cbv zeta in H. destruct H as (_ & _ & H). destruct ok; [destruct H as (links & _ & ->)|rewrite H]; exact H0.
  - destruct H as (i & its & nodes & x1 & H1 & H2 & H3). apply runs_items in H1 as (ms & hs & next & ->). apply do_list_inv in H3 as (st & lt & ctx & ok & H3). cbv zeta in H3. destruct H3 as (_ & -> & _). destruct ok; exact H0.
  - apply do_paragraph_inv in H as (lines & ms & hs & next & ctx & ok & _ & ->). destruct ok; exact H0.
Qed.

Lemma simple_here toks pre el rest : simple_tokens toks -> toks = pre ++ tokens_of el ++ rest -> shaped el -> simple el.
Proof.
  intros [H1 H2] E Hs. rewrite Forall_forall in H1. assert (Hin : forall t, In t (tokens_of el) -> t_type t <> T_BLOCK /\ t_type t <> T_INCLUDE) by (intros t Ht; apply H1; rewrite E; apply in_or_app; right; apply in_or_app; left; exact Ht).
  destruct el as [t|t|o nm c v|r t|o op c|o t c|h t|o content c|o ty args|items|ls]; cbn [simple]; try exact I.
  - destruct Hs as ([Ho _] & _). cbn [tokens_of app] in E. exact (H2 pre o nm _ E Ho).
  - destruct Hs as (Ho & _). destruct (Hin o (or_introl eq_refl)) as [K _]. exact (K Ho).
  - destruct Hs as (Ho & _). destruct (Hin o (or_introl eq_refl)) as [_ K]. exact (K Ho).
Qed.
Lemma simple_all toks els rest : begins toks els rest -> forall all pre, simple_tokens all -> all = pre ++ toks -> Forall simple els.
Proof.
  intros H. induction H as [toks|el toks els rest Hs Hm Hb IH]; intros all pre Hall E; [constructor|]. constructor; [eapply simple_here; eassumption|].
  eapply (IH all (pre ++ tokens_of el)); [exact Hall|]. rewrite <- app_assoc. exact E.
Qed.
Lemma named_reach cf run els x z : act_all cf run els x z -> Forall simple els -> dget [] (dx_env x) = None -> dget [] (dx_env z) = None.
Proof. intros H. induction H as [x|el els x y z Ha Hr IH]; intros Hs Hx; [exact Hx|]. inversion Hs; subst. apply IH; [assumption|]. eapply simple_keeps; eassumption. Qed.
Lemma named_init e next dn forb x0 : NoDup (keys e) -> dget [] e = None -> dp_init e next dn forb = Ok x0 -> dget [] (dx_env x0) = None.
Proof.
  intros Hd H0 H. unfold dp_init in H. destruct (not_callable _); [discriminate H|]. apply Ok_inv in H. subst x0. cbn [dx_env].
  unfold env_update. rewrite dget_dupd by exact Hd. rewrite H0. vm_compute. reflexivity.
Qed.
Lemma simple_asks cf el x e n d f t o : simple el -> ~ asks cf el x e n d f t o.
Proof.
  intros Hs H. pose proof (H (fun _ _ _ _ _ _ => Exc ExFuel) _ eq_refl) as F. clear H.
  assert (K : forall {A} (m : D A) y, quiet m -> ~ fails m y ExFuel).
  { intros A m y Q Fm. destruct (Q y) as (y' & rr & [Hf _] & E). specialize (Fm []). rewrite E in Fm. cbn [snd] in Fm. exact (Hf Fm). }
  destruct el as [t1|t1|o1 nm c v|r t1|o1 op c|o1 t1 c|h t1|o1 content c|o1 ty args|items|ls]; cbn [simple] in Hs; try contradiction; cbn [element_fails do_element] in F.
  - revert F. apply K, quiet_ret.
  - revert F. apply K, rule_quiet.
  - revert F. apply K, variable_quiet.
  - revert F. apply K, label_quiet.
  - revert F. apply K, control_quiet.
  - revert F. apply K, arguments_quiet.
  - revert F. apply K, header_quiet.
  - destruct F as [(b & h & t1 & a & its & x1 & _ & _ & F)|(i & its & nodes & x1 & _ & _ & F)]; revert F; apply K; [apply item_quiet|apply list_quiet].
  - revert F. apply K, paragraph_quiet.
Qed.
Lemma simple_named cf n e next dn forb text o toks : lex_document (buffer text o) = Ok toks -> simple_tokens toks -> NoDup (keys e) -> dget [] e = None -> ~ nameless cf n e next dn forb text o.
Proof.
  intros El Hs Hd H0 H. destruct H as [n e next dn forb text o toks1 x0 els rest x El1 Ei Hb Ha Hx|n e next dn forb text o toks1 x0 els el rest x e' n' d' f' t' o' El1 Ei Hb Ha Hsh Hask _].
  - assert (toks1 = toks) as -> by congruence. apply Hx. eapply named_reach; [exact Ha| |eapply named_init; eassumption]. eapply (simple_all _ _ _ Hb toks []); [exact Hs|reflexivity].
  - assert (toks1 = toks) as -> by congruence. destruct (begins_tokens _ _ _ Hb) as [pre Epre]. exact (simple_asks _ _ _ _ _ _ _ _ _ (simple_here _ _ _ _ Hs Epre Hsh) Hask).
Qed.
(* C76 for the documents that have no blocks and no includes. *)
Theorem C76_simple n cf e text o toks m :
  calm_env e -> NoDup (keys e) -> dget [] e = None -> lex_document (buffer text o) = Ok toks -> simple_tokens toks ->
  parse_document n cf e text o = Exc (ExMau m) ->
  accounted cf (o_source o) (o_line o) (last_line text (o_line o)) m.
Proof. intros He Hd H0 El Hs H. destruct (C76_document n cf e text o m He H) as [K|K]; [|exact K]. destruct (simple_named cf n e 0 [] [] text o toks El Hs Hd H0 K). Qed.

(* Each condition is needed.  A footnote that is defined twice: the place is nowhere,
   and it is the same wherever the footnotes are. *)
Definition error_in (e : env) (text : string) : option exn :=
  match parse_document 5 cf_files1 e (mau text) (mkOrigin 0 0 (Some (lit "doc"))) with Ok _ => None | Exc ex => Some ex end.
Theorem C76_refuted_footnote :
  error_in [] "||[footnote=a]|----|x|----||[footnote=a]|----|y|----" = Some (ExMau twice) /\
  ~ placed (Some (lit "doc")) 0 (last_line (mau "||[footnote=a]|----|x|----||[footnote=a]|----|y|----") 0) twice.
Proof. split; [vm_compute; reflexivity|]. intros (H & _). discriminate H. Qed.
(* A variable that has an empty name: the error is nowhere, or on the next line. *)
Theorem C76_refuted_nameless : exists m m',
  error_in [([], EStr (lit "[footnote]()")); (lit "a", EStr (lit "1"))] "x||[ifeval:a==1]("""")" = Some (ExMau m) /\ ~ placed (Some (lit "doc")) 0 2 m /\ m <> twice /\
  error_in [([], EStr (lit "[footnote]()")); (lit "a", EStr (lit "1"))] "x||[ifeval:a==1](\ )" = Some (ExMau m') /\ ~ placed (Some (lit "doc")) 0 2 m'.
Proof.
  eexists _, _. split; [vm_compute; reflexivity|]. split; [intros (H & _); discriminate H|]. split; [discriminate|]. split; [vm_compute; reflexivity|]. intros (_ & H & _). cbn in H. lia.
Qed.
(* A value of the environment that has more lines: the error is after the end. *)
Theorem C76_refuted_lines : exists m,
  error_in [(lit "a", EStr (mau "x|y|[footnote](q)"))] "x||{a}" = Some (ExMau m) /\ ~ placed (Some (lit "doc")) 0 (last_line (mau "x||{a}") 0) m.
Proof. eexists. split; [vm_compute; reflexivity|]. intros (_ & H & _). vm_compute in H. lia. Qed.

(* The hypotheses hold for errors of all the kinds. *)
Definition lines_of_error (text : string) : option (nat * nat) :=
  match error_in [(lit "v", EStr (lit "w"))] text with
  | Some (ExMau (MsgParser _ (Some c))) => Some (c_start_line c, c_end_line c)
  | Some (ExMau (MsgLexer _ _ p)) => Some (fst p, fst p)
  | _ => None
  end.
Example C76_ex : map lines_of_error
  ["a||b|{none}|c"; "a||----|b||[footnote](q)|----"; "a||////|b"; ":x:"; "@if:q==1|x||y"; "a||[engine=x]|----|a|----|"; "a||b [link]()|c"; "[header](z)||a"; "<< blockgroup:x||y"; "= A|* b|  "]%string =
  [Some (3, 3); Some (5, 5); Some (2, 2); Some (0, 0); Some (0, 0); Some (3, 5); Some (2, 2); Some (0, 0); Some (0, 0); Some (2, 2)].
Proof. vm_compute. reflexivity. Qed.
Example C76_ex_hypotheses : calm_env [(lit "v", EStr (lit "w"))] /\ NoDup (keys [(lit "v", EStr (lit "w"))]) /\
  exists toks, lex_document (buffer (mau "a||:x:1|b {none}|c") (mkOrigin 0 0 (Some (lit "doc")))) = Ok toks /\ simple_tokens toks.
Proof.
  split; [constructor; [intros [H|[]]; discriminate H|constructor]|]. split; [repeat constructor; intros []|]. eexists. split; [vm_compute; reflexivity|].
  split; [repeat (constructor; [split; discriminate|]); constructor|].
  intros pre o n post E Ho. repeat (destruct pre as [|? pre]; [injection E as <- <- _; try discriminate Ho; repeat split; discriminate|injection E as _ E]).
  all: destruct pre as [|? [|? pre]]; discriminate E.
Qed.
