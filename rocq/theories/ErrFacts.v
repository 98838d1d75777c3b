(* ErrFacts.v -- which Python exceptions other than MauException each part raises *)
From Verif Require Import DocFacts SimFacts LexerThms InlineInst ParseFacts RunFacts.
From Verif Require Export SpecErrors.

Definition okres {A} (S : string -> Prop) (r : res A) : Prop := match r with Exc (ExPy c) => S c | _ => True end.
Lemma okres_weak {A} (S S' : string -> Prop) (r : res A) : (forall c, S c -> S' c) -> okres S r -> okres S' r.
Proof. intros H. destruct r as [|[]]; cbn; auto. Qed.
Lemma okres_bind {A B} S (r : res A) (f : A -> res B) : okres S r -> (forall a, r = Ok a -> okres S (f a)) -> okres S (rbind r f).
Proof. destruct r as [a|[]]; cbn; auto. Qed.
Lemma okres_each {A B} S (f : A -> res B) l : (forall a, okres S (f a)) -> okres S (for_each f l).
Proof.
  intros H. induction l as [|a l IH]; [exact I|]. cbn [for_each]. apply okres_bind; [apply H|]. intros b _. apply okres_bind; [exact IH|]. intros bs _. exact I.
Qed.

(* [raises I J K S m]: when I holds of the tokens left, and J of the state, then I holds
   of the tokens left after m, K of the state, and m raises no other class than those of S *)
Definition raises {X A} (I : list token -> Prop) (J K : X -> Prop) (S : string -> Prop) (m : P X A) : Prop :=
  forall s, fst s <> [] -> I (fst s) -> J (snd s) ->
    fst (fst (m s)) <> [] /\ I (fst (fst (m s))) /\ okres S (snd (m s)) /\ (forall a, snd (m s) = Ok a -> K (snd (fst (m s)))).

Section Raises.
  Context {X : Type} (I : list token -> Prop) (Hc : closed I) (J K L : X -> Prop) (S : string -> Prop).
  Lemma r_ret {A} (a : A) : raises I J J S (pret a).
  Proof. intros s H0 H1 H2. cbn. auto. Qed.
  Lemma r_mau {A} m : raises I J K S (praise (ExMau m) : P X A).
  Proof. intros s H0 H1 H2. cbn. repeat split; auto. discriminate. Qed.
  Lemma r_fuel {A} : raises I J K S (praise ExFuel : P X A).
  Proof. intros s H0 H1 H2. cbn. repeat split; auto. discriminate. Qed.
  Lemma r_py {A} c : S c -> raises I J K S (praise (ExPy c) : P X A).
  Proof. intros H s H0 H1 H2. cbn. repeat split; auto. discriminate. Qed.
  Lemma r_lift {A} (r : res A) : okres S r -> raises I J J S (plift r).
  Proof. intros H s H0 H1 H2. cbn. auto. Qed.
  Lemma r_get : raises I J J S pget.
  Proof. intros s H0 H1 H2. cbn. auto. Qed.
  Lemma r_mod g : (forall x, J x -> K (g x)) -> raises I J K S (pmod g).
  Proof. intros H s H0 H1 H2. cbn. auto. Qed.
  Lemma r_weak {A} (m : P X A) (J' K' : X -> Prop) : (forall x, J' x -> J x) -> (forall x, K x -> K' x) -> raises I J K S m -> raises I J' K' S m.
  Proof. intros HJ HK H s H0 H1 H2. destruct (H s H0 H1 (HJ _ H2)) as (A1 & A2 & A3 & A4). repeat split; auto. intros a Ha. exact (HK _ (A4 a Ha)). Qed.
  Lemma check_okres t ty v f : okres S (check_token t ty v f).
  Proof.
    unfold check_token. destruct ty; [destruct (negb _); [exact Logic.I|]|]; (destruct v; [destruct (negb _); [exact Logic.I|]|]); (destruct f; [destruct (negb _); exact Logic.I|exact Logic.I]).
  Qed.
  Lemma r_peek ty v f : raises I J J S (ppeek ty v f).
  Proof. intros [[|t r] x] H0 H1 H2; [destruct (H0 eq_refl)|]. cbn [fst snd ppeek]. repeat split; auto. apply check_okres. Qed.
  Lemma r_peek_is ty v f : raises I J J S (peek_is ty v f).
  Proof.
    intros [[|t r] x] H0 H1 H2; [destruct (H0 eq_refl)|]. cbn [fst snd peek_is peek_tok]. repeat split; auto.
    pose proof (check_okres t ty v f) as H. destruct (check_token t ty v f) as [|[]]; cbn in *; auto.
  Qed.
  Lemma r_get_token ty v f : raises I J J S (pget_token ty v f).
  Proof.
    intros [[|t r] x] H0 H1 H2; [destruct (H0 eq_refl)|]. unfold pget_token. cbn [fst snd peek_tok]. pose proof (check_okres t ty v f) as H.
    destruct (check_token t ty v f) as [u|e]; cbn [fst snd]; [|repeat split; auto].
    assert (N : next_rem (t :: r) <> []) by (apply next_ne; discriminate). repeat split; auto. exact (Hc _ _ N (suffix_next _) H1).
  Qed.
  Lemma r_bind {A B} (m : P X A) (f : A -> P X B) : raises I J K S m -> (forall a, raises I K L S (f a)) -> raises I J L S (pbind m f).
  Proof.
    intros H1 H2 s A0 A1 A2. destruct (H1 s A0 A1 A2) as (B0 & B1 & B2 & B3). unfold pbind. destruct (m s) as [s' [a|e]]; cbn [fst snd] in *.
    - apply (H2 a s' B0 B1). exact (B3 a eq_refl).
    - repeat split; auto. discriminate.
  Qed.
  Lemma r_collect (He : forall r, I r -> to_eof r) stops p : raises I J J S (pcollect stops p).
  Proof.
    intros s A0 A1 A2. unfold pcollect. destruct (collect_calm (stops ++ [EOF_tok]) p (fst s) (He _ A1)) as (c & rest & -> & R1 & R2 & _).
    { unfold token_in. rewrite existsb_app. cbn. rewrite orb_true_r. reflexivity. }
    cbn [fst snd]. repeat split; auto. exact (Hc _ _ R2 R1 A1).
  Qed.
  Lemma r_collect_join (He : forall r, I r -> to_eof r) stops j p : raises I J J S (pcollect_join stops j p).
  Proof.
    intros s A0 A1 A2. destruct (r_collect He stops p s A0 A1 A2) as (B0 & B1 & B2 & B3). unfold pcollect_join, pbind. destruct (pcollect stops p s) as [s' [a|e]]; cbn [fst snd] in *.
    - repeat split; auto. intros ? _. exact (B3 a eq_refl).
    - repeat split; auto. discriminate.
  Qed.
End Raises.

Section Raises2.
  Context {X : Type} (I : list token -> Prop) (Hc : closed I) (J : X -> Prop) (S : string -> Prop).
  (* here the state may be anything *)
  Definition any (x : X) : Prop := True.
  Lemma r_with {A} (m : P X A) : raises I any any S m -> raises I any any S (pwith m).
  Proof.
    intros H s A0 A1 A2. destruct (H s A0 A1 A2) as (B0 & B1 & B2 & _). unfold pwith. destruct (m s) as [s' [a|[]]]; cbn [fst snd] in *; repeat split; auto.
  Qed.
  Lemma r_try fns : Forall (raises I any any S) fns -> raises I any any S (ptry fns).
  Proof.
    induction 1 as [|f l H _ IH]; [apply r_ret|]. cbn [ptry]. apply (r_bind I any any any); [apply r_with, H|]. intros [[|]|]; [apply r_ret|exact IH|exact IH].
  Qed.
  Lemma r_loop n fns : Forall (raises I any any S) fns -> forall last, raises I any any S (ploop n fns last).
  Proof.
    intros H. induction n as [|n IH]; intros last; [apply r_fuel|]. cbn [ploop]. apply (r_bind I any any any); [apply r_peek_is|]. intros [|]; [apply r_ret|].
    apply (r_bind I any any any); [apply r_peek|]. intros t. destruct (_ && _); [apply r_mau|]. apply (r_bind I any any any); [apply r_try, H|]. intros [|]; [apply IH|].
    apply (r_bind I any any any); [apply r_peek|]. intros u. apply r_mau.
  Qed.
  Lemma r_run toks x0 fns : toks <> [] -> I toks -> Forall (raises I any any S) fns -> okres S (prun (Ok toks) x0 fns).
  Proof.
    intros H0 H1 H. unfold prun, pparse. cbn [rbind fst]. destruct (r_loop (Datatypes.S (Datatypes.S (2 * length toks))) fns H start_token (toks, x0) H0 H1 Logic.I) as (_ & _ & K & _).
    destruct (ploop _ fns start_token (toks, x0)) as [s [u|e]]; cbn [snd] in K; [exact Logic.I|exact K].
  Qed.
End Raises2.

Ltac rs I J := repeat first
  [ apply r_ret | apply r_mau | apply r_fuel | apply r_get | apply r_peek | apply r_peek_is
  | (apply r_get_token; assumption) | (apply r_collect; assumption) | (apply r_collect_join; assumption)
  | (apply r_mod; solve [auto])
  | (apply (r_bind I J J J); [|intro])
  | match goal with |- raises _ _ _ _ (if ?c then _ else _) => destruct c | |- raises _ _ _ _ (match ?c with _ => _ end) => destruct c end ].

(* ------------------------------------------------- preprocessing, arguments *)
Lemma lexed_eof next fns text o :
  (forall text sl sc src, exists toks, lex fns (tb_init text sl sc src) = Ok toks /\
      map tv toks = lines_toks next (text_lines text) ++ [(T_EOF, [])] /\
      tokens_in (text_lines text) sl sc src toks (0, 0) (length (text_lines text), 0)) ->
  exists toks, lex fns (buffer text o) = Ok toks /\ toks <> [] /\ to_eof toks.
Proof. intros H. destruct (inline_eof next fns text (o_line o) (o_column o) (o_source o) H) as (toks & H1 & H2 & H3 & _). exists toks. auto. Qed.

Definition none (c : string) : Prop := False.
Lemma preprocess_err e text o : okres none (preprocess e text o).
Proof.
  unfold preprocess, lex_pre. destruct (lexed_eof pre_next pre_lexer_fns text o lex_pre_ok) as (toks & -> & Hn & He). pose proof closed_eof as Hc.
  assert (Hid : forall r, to_eof r -> to_eof r) by auto.
  apply okres_bind; [|intros; exact I].
  apply (r_run to_eof none); auto. unfold pp_fns, pp_escaped, pp_verbatim, pp_curly, pp_pass, pp_save, get_tv, get_tok, is_tv.
  repeat (apply Forall_cons; [rs to_eof (@any pp_state)|]). apply Forall_nil.
Qed.
Lemma isolate_err e ctx x : okres (args_error e) (isolate e ctx x).
Proof.
  unfold isolate. destruct (1 <? _); [exact I|]. destruct (1 <? _); [exact I|]. destruct (hd_error _) as [alias|]; [|exact I].
  apply okres_bind; [|intros [[u n] s] _; exact I]. unfold expand_alias, args_error, config_error, tidy_aliases.
  destruct (env_get e (lit "mau.parser.aliases")) as [v|a|]; cbn [rbind].
  - split; [left; reflexivity|auto].
  - destruct (env_asdict a) as [d|ex] eqn:Ea; cbn [rbind].
    + destruct (dget (t_value alias) d) as [v|] eqn:Ed; [|exact I].
      assert (T : forall P : Prop, (forall r, v = EDict r -> (dget (lit "args") r = None \/ exists args, dget (lit "args") r = Some (EDict args)) ->
                    (forall repr, dget (lit "names") r <> Some (EOther repr)) -> P) ->
                 ~ P -> ~ exists d0, Ok d = Ok d0 /\ forall name v0, dget name d0 = Some v0 -> exists r, v0 = EDict r /\
                    (dget (lit "args") r = None \/ exists args, dget (lit "args") r = Some (EDict args)) /\ (forall repr, dget (lit "names") r <> Some (EOther repr))).
      { intros P HP HN (d0 & E0 & K). apply Ok_inv in E0. subst d0. destruct (K _ _ Ed) as (r & E & K1 & K2). apply HN. exact (HP r E K1 K2). }
      destruct v as [s|l|s|r]; try (split; [left; reflexivity|]; apply (T False); [intros ? ? _ _; discriminate|auto]).
      apply okres_bind.
      { destruct (dget (lit "args") r) as [w|] eqn:Ew; [|exact I]. destruct w as [s|l|s|args]; try exact I;
          (split; [left; reflexivity|]; apply (T False); [|auto]; intros r0 E0 [K|[args K]] _; injection E0 as <-; rewrite Ew in K; discriminate K). }
      intros args _. apply okres_bind.
      { destruct (dget (lit "names") r) as [w|] eqn:Ew; [|exact I]. destruct w as [s|l|s|nd]; try exact I.
        split; [right; reflexivity|]. apply (T False); [|auto]. intros r0 E0 _ K. injection E0 as <-. exact (K s Ew). }
      intros names _. destruct (set_names _ _ names) as [u n]. exact I.
    + assert (A : okres (fun c => c = "AttributeError" \/ c = "TypeError")%string (Exc ex : res (dict env_val))).
      { rewrite <- Ea. unfold env_asdict, nest_flattened_dict. generalize (@nil (str * env_val)). clear. induction a as [|[k v] a IH]; intros acc; [exact I|].
        cbn [nest_items]. apply okres_bind; [|intros; apply IH]. generalize (split_on DOT k) as parts, v, acc. clear.
        induction parts as [|k rest IH]; intros v out; [exact I|]. cbn [split_into]. destruct rest as [|k2 rest]; [exact I|].
        destruct (dget k out) as [[]|]; try (apply okres_bind; [apply IH|intros; exact I]);
          (cbn; destruct rest; [right|left]; reflexivity). }
      destruct ex as [| |c|]; try exact I. split; [exact A|]. intros (d & E & _). discriminate E.
  - exact I.
Qed.
Lemma asdict_err e : okres (fun c => (c = "AttributeError" \/ c = "TypeError")%string /\ forall d, env_asdict e <> Ok d) (env_asdict e).
Proof.
  assert (A : okres (fun c => c = "AttributeError" \/ c = "TypeError")%string (env_asdict e)).
  { unfold env_asdict, nest_flattened_dict. generalize (@nil (str * env_val)). induction e as [|[k v] a IH]; intros acc; [exact I|].
    cbn [nest_items]. apply okres_bind; [|intros; apply IH]. generalize (split_on DOT k) as parts, v, acc. clear.
    induction parts as [|k rest IH]; intros v out; [exact I|]. cbn [split_into]. destruct rest as [|k2 rest]; [exact I|].
    destruct (dget k out) as [[]|]; try (apply okres_bind; [apply IH|intros; exact I]);
      (cbn; destruct rest; [right|left]; reflexivity). }
  destruct (env_asdict e) as [d|[| |c|]]; try exact I. split; [exact A|]. discriminate.
Qed.
Lemma parse_arguments_err e text o : okres (args_error e) (parse_arguments e text o).
Proof.
  unfold parse_arguments, lex_args. destruct (lexed_eof args_next args_lexer_fns text o lex_args_ok) as (toks & -> & Hn & He). pose proof closed_eof as Hc.
  assert (Hid : forall r, to_eof r -> to_eof r) by auto. cbn [rbind]. apply okres_bind; [|intros; apply isolate_err].
  apply (okres_weak none); [intros c []|]. apply (r_run to_eof none); auto.
  assert (V : raises to_eof any any none ap_value).
  { unfold ap_value, get_tv, get_ty, is_tv. repeat first [apply r_with | progress rs to_eof (@any ap_state)]. }
  unfold ap_fns, ap_named_argument, ap_unnamed_argument, get_tv, get_ty. revert V. generalize ap_value. intros value V.
  repeat (apply Forall_cons; [repeat first [exact V | progress rs to_eof (@any ap_state)]|]). apply Forall_nil.
Qed.
Lemma process_arguments_with_variables_err e t : okres (args_error e) (process_arguments_with_variables e t).
Proof.
  unfold process_arguments_with_variables. apply okres_bind; [|intros; apply parse_arguments_err].
  apply (okres_weak none); [intros c []|apply preprocess_err].
Qed.

(* ------------------------------------------------------------- conditions *)
Definition a_comparison (s : str) : Prop := s = lit "==" \/ s = lit "!=".
Inductive groups : list token -> Prop :=
| g_nil : groups []
| g_one t l : t_type t <> T_TEXT -> groups l -> groups (t :: l)
| g_cond t1 t2 t3 l : t_type t1 = T_TEXT -> t_type t2 = T_TEXT -> t_type t3 = T_TEXT -> a_comparison (t_value t2) -> groups l -> groups (t1 :: t2 :: t3 :: l).
Lemma groups_app a b : groups a -> groups b -> groups (a ++ b).
Proof. induction 1; intros Hb; cbn; [exact Hb|apply g_one; auto|apply g_cond; auto]. Qed.
Lemma condition_groups s cs : rmatch condition_re s = Some cs -> a_comparison (group cs 2).
Proof.
  unfold condition_re. cbn [rmatch]. intros H.
  apply try_rep_spec in H as (n1 & c1 & _ & -> & H); [|apply run_length_le].
  apply try_rep_spec in H as (n2 & c2 & _ & -> & H); [|apply run_length_le].
  destruct (startswith (lit "==") _).
  - match type of H with match ?o with _ => _ end = _ => destruct o as [c|] end.
    + injection H as <-. left. reflexivity.
    + destruct (startswith (lit "!=") _); [|discriminate]. match type of H with option_map _ ?o = _ => destruct o as [c|] end; [|discriminate]. injection H as <-. right. reflexivity.
  - destruct (startswith (lit "!=") _); [|discriminate]. match type of H with option_map _ ?o = _ => destruct o as [c|] end; [|discriminate]. injection H as <-. right. reflexivity.
Qed.
Lemma cond_step tb ts tb' : run_functions (all_functions cond_lexer_fns) tb = Ok (ts, tb') -> groups ts.
Proof.
  unfold all_functions, cond_lexer_fns. cbn [app run_functions]. unfold process_eof. destruct (tb_eof tb); cbn [rbind].
  { unfold create_token. cbn [rbind]. intros H. apply Ok_inv in H. injection H as <- _. constructor; [discriminate|constructor]. }
  unfold process_empty_line. destruct (rmatch _ (current_line tb)); cbn [rbind].
  { unfold create_token. cbn [rbind]. intros H. apply Ok_inv in H. injection H as <- _. constructor; [discriminate|constructor]. }
  unfold process_trailing_spaces. destruct (rmatch _ (Token.tail tb)) eqn:E1; cbn [rbind].
  { intros H. apply Ok_inv in H. injection H as <- _. constructor. }
  unfold cl_condition. destruct (rmatch condition_re (current_line tb)) as [cs|] eqn:E; cbn [rbind]; [|discriminate].
  apply condition_groups in E. unfold create_token. cbn [rbind]. intros H. apply Ok_inv in H. injection H as <- _.
  apply g_cond; [reflexivity|reflexivity|reflexivity|exact E|constructor].
Qed.
Lemma cond_loop n : forall st st', lex_loop n cond_lexer_fns st = Ok st' -> groups (lx_tokens st) -> groups (lx_tokens st').
Proof.
  induction n as [|n IH]; intros st st'; cbn [lex_loop]; (destruct (lex_done _); [intros H; apply Ok_inv in H; subst st'; auto|]); [discriminate|].
  unfold lex_step. destruct (match lx_last st with Some p => _ | None => _ end); [discriminate|].
  destruct (run_functions _ _) as [[ts tb']|] eqn:E; cbn [rbind]; [|discriminate]. intros H G. apply (IH _ _ H). cbn [lx_tokens fst].
  apply groups_app; [exact G|exact (cond_step _ _ _ E)].
Qed.
Lemma cond_lexed text o toks : lex_condition (buffer text o) = Ok toks -> groups toks.
Proof.
  unfold lex_condition, lex. destruct (lex_loop _ _ _) as [st|] eqn:E; [|discriminate]. cbn [rbind]. intros H. apply Ok_inv in H. subst toks.
  exact (cond_loop _ _ _ E g_nil).
Qed.

Lemma cond_err text o : okres none (parse_condition text o).
Proof.
  unfold parse_condition.
  destruct (all_lexers_total lex_condition text (o_line o) (o_column o) (o_source o)) as [[(toks & E & ts & eof & -> & _)|(a & b & c & E)] _].
  - right; right; right; right; left; reflexivity.
  - unfold buffer. rewrite E. assert (Hc := closed_any). apply (r_run (fun _ => True)); auto; [destruct ts; discriminate|].
    constructor; [|constructor]. unfold cp_condition, get_ty. rs (fun _ : list token => True) (@any (option condition)).
  - unfold buffer. rewrite E. exact I.
Qed.
Lemma cp_turn t1 t2 t3 l st : t_type t1 = T_TEXT -> t_type t2 = T_TEXT -> t_type t3 = T_TEXT -> l <> [] ->
  cp_condition (t1 :: t2 :: t3 :: l, st) = ((l, Some (mkCondition (t_value t1) (t_value t2) (t_value t3) (merge_contexts (t_ctx t1) (t_ctx t3)))), Ok true).
Proof.
  intros H1 H2 H3 Hl.
  assert (G : forall t r (x : option condition), t_type t = T_TEXT -> r <> [] -> get_ty T_TEXT (t :: r, x) = ((r, x), Ok t)).
  { intros t r x Ht Hr. unfold get_ty, pget_token. cbn [fst snd peek_tok]. unfold check_token. rewrite Ht. destruct r; [destruct (Hr eq_refl)|reflexivity]. }
  unfold cp_condition, pbind. rewrite (G t1) by (auto; discriminate). rewrite (G t2) by (auto; discriminate). rewrite (G t3) by auto. reflexivity.
Qed.
Lemma cond_parsed n : forall last rem st s, groups rem -> to_eof_type rem -> (forall c, st = Some c -> a_comparison (cn_comparison c)) ->
  ploop n [cp_condition] last (rem, st) = (s, Ok tt) ->
  (forall c, snd s = Some c -> a_comparison (cn_comparison c)) /\ (snd s = None -> st = None /\ exists t r, rem = t :: r /\ t_type t = T_EOF).
Proof.
  induction n as [|n IH]; intros last rem st s G E Hs H; [discriminate|]. destruct rem as [|t r]; [destruct E as ([|] & u & E & _); discriminate|].
  destruct (tt_eqb_spec (t_type t) T_EOF) as [Et|Nt].
  { rewrite ploop_eof in H by exact Et. assert (s = (t :: r, st)) as -> by congruence. cbn [snd]. split; [exact Hs|]. intros ->. split; [reflexivity|]. eauto. }
  cbn [ploop] in H. unfold pbind at 1, is_ty, peek_is in H. cbn [fst peek_tok] in H. unfold check_token at 1 in H.
  destruct (tt_eqb_spec (t_type t) T_EOF); [contradiction|]. cbn [negb] in H.
  unfold pbind at 1, ppeek at 1 in H. cbn [fst peek_tok check_token] in H. destruct (_ && _) in H; [discriminate|].
  inversion G as [|? ? N G'|? t2 t3 l T1 T2 T3 C G']; subst.
  - cbn [ptry] in H. unfold pbind at 1 2, pwith, cp_condition, get_ty, pbind at 1, pget_token in H. cbn [fst snd peek_tok] in H. unfold check_token in H.
    destruct (tt_eqb_spec (t_type t) T_TEXT) as [K|_]; [contradiction|]. cbn in H. discriminate H.
  - assert (El : to_eof_type l /\ l <> []).
    { destruct (next_eats _ _ E ltac:(congruence)) as [_ N1].
      assert (E1 : to_eof_type (t2 :: t3 :: l)) by (apply (closed_eof_type _ _ N1 (ex_intro _ [t] eq_refl) E)).
      destruct (next_eats _ _ E1 ltac:(congruence)) as [_ N2].
      assert (E2 : to_eof_type (t3 :: l)) by (apply (closed_eof_type _ _ N2 (ex_intro _ [t2] eq_refl) E1)).
      destruct (next_eats _ _ E2 ltac:(congruence)) as [_ N3]. split; [apply (closed_eof_type _ _ N3 (ex_intro _ [t3] eq_refl) E2)|exact N3]. }
    destruct El as [E' Nl]. assert (Tr : exists c, cn_comparison c = t_value t2 /\ ptry [cp_condition] (t :: t2 :: t3 :: l, st) = ((l, Some c), Ok true)).
    { eexists. split; [|cbn [ptry]; unfold pbind at 1, pwith; rewrite (cp_turn t t2 t3 l st T1 T2 T3 Nl); reflexivity]. reflexivity. }
    destruct Tr as (cnd & Ec & Tr). unfold pbind at 1 in H. rewrite Tr in H. rewrite <- Ec in C.
    assert (Hc : forall c, Some cnd = Some c -> a_comparison (cn_comparison c)) by (intros c K; injection K as <-; exact C). destruct (IH _ _ _ _ G' E' Hc H) as [K1 K2]. split; [exact K1|]. intros K. destruct (K2 K) as [K3 _]. discriminate.
Qed.

Lemma loop_prefix n fns : forall st st', lex_loop n fns st = Ok st' -> exists l, lx_tokens st' = lx_tokens st ++ l.
Proof.
  induction n as [|n IH]; intros st st'; cbn [lex_loop]; (destruct (lex_done _); [intros H; apply Ok_inv in H; subst st'; exists []; rewrite app_nil_r; reflexivity|]); [discriminate|].
  destruct (lex_step fns st) as [st1|] eqn:E; cbn [rbind]; [|discriminate]. intros H. destruct (IH _ _ H) as [l ->].
  unfold lex_step in E. destruct (match lx_last st with Some p => _ | None => _ end); [discriminate|].
  destruct (run_functions _ _) as [[ts tb']|]; cbn [rbind] in E; [|discriminate]. apply Ok_inv in E. subst st1. cbn [lx_tokens fst]. exists (ts ++ l). apply eq_sym, app_assoc.
Qed.
Lemma cond_head text o t r : text <> [] -> lex_condition (buffer text o) = Ok (t :: r) -> t_type t <> T_EOF.
Proof.
  intros Ht. unfold lex_condition, lex. destruct (lex_loop _ _ _) as [st|] eqn:E; [|discriminate]. cbn [rbind]. intros H. apply Ok_inv in H.
  assert (F : exists k, lex_fuel (buffer text o) = S k) by (unfold lex_fuel; eexists; rewrite Nat.add_comm; reflexivity). destruct F as [k F]. rewrite F in E. clear F.
  cbn [lex_loop] in E. change (lex_done (lx_tokens (lex_init (buffer text o)))) with false in E. cbv iota in E.
  unfold lex_step in E. cbn [lex_init lx_last lx_tb lx_tokens] in E.
  destruct (run_functions (all_functions cond_lexer_fns) (buffer text o)) as [[ts tb']|] eqn:R; cbn [rbind] in E; [|discriminate].
  apply loop_prefix in E as [l E]. cbn [lx_tokens fst app] in E. rewrite H in E. clear H.
  unfold all_functions, cond_lexer_fns in R. cbn [app run_functions] in R. unfold process_eof in R.
  assert (Ne : tb_eof (buffer text o) = false).
  { unfold tb_eof, buffer, tb_init. destruct text as [|c text]; [destruct (Ht eq_refl)|]. cbn [tb_lines tb_line tb_column]. unfold current_line. cbn [tb_lines tb_line].
    pose proof (join_split NL (c :: text)) as J. destruct (split_on NL (c :: text)) as [|x [|y ys]]; [discriminate J| |reflexivity].
    cbn in J. cbn [nth length Nat.eqb andb]. rewrite J. reflexivity. }
  rewrite Ne in R. cbn [rbind] in R. unfold process_empty_line in R.
  destruct (rmatch _ (current_line (buffer text o))) eqn:E1; cbn [rbind] in R.
  { unfold create_token in R. cbn [rbind] in R. apply Ok_inv in R. injection R as <- _. injection E as -> _. discriminate. }
  unfold process_trailing_spaces in R. replace (Token.tail (buffer text o)) with (current_line (buffer text o)) in R by reflexivity. rewrite E1 in R. cbn [rbind] in R.
  unfold cl_condition in R. destruct (rmatch condition_re (current_line _)) as [cs|]; cbn [rbind] in R; [|discriminate].
  unfold create_token in R. cbn [rbind] in R. apply Ok_inv in R. injection R as <- _. injection E as -> _. discriminate.
Qed.
Lemma cond_result text o r : parse_condition text o = Ok r ->
  (forall c, r = Some c -> a_comparison (cn_comparison c)) /\ (r = None -> text = []).
Proof.
  unfold parse_condition, prun. destruct (lex_condition (buffer text o)) as [toks|] eqn:E; [|discriminate]. cbn [rbind]. unfold pparse. cbn [fst].
  assert (T : to_eof_type toks).
  { destruct (all_lexers_total lex_condition text (o_line o) (o_column o) (o_source o)) as [[(toks' & E' & ts & eof & -> & H & _)|(a & b & c & E')] _].
    - right; right; right; right; left; reflexivity.
    - unfold buffer in E. rewrite E' in E. apply Ok_inv in E. subst toks. exists ts, eof. auto.
    - unfold buffer in E. rewrite E' in E. discriminate. }
  destruct (ploop _ _ _ _) as [s [[]|]] eqn:L; [|discriminate]. intros H. apply Ok_inv in H. subst r.
  assert (N : forall c, None = Some c -> a_comparison (cn_comparison c)) by discriminate.
  destruct (cond_parsed _ _ _ _ _ (cond_lexed _ _ _ E) T N L) as [H1 H2]. split; [exact H1|].
  intros K. destruct (H2 K) as (_ & t & r & -> & Ht). destruct text as [|c text]; [reflexivity|]. exfalso. exact (cond_head (c :: text) o t r ltac:(discriminate) E Ht).
Qed.

Lemma make_control_err e prefix op cond :
  okres (fun c => c = "AttributeError"%string /\ exists p, preprocess e (t_value cond) (origin_of cond) = Ok p /\ t_value p = []) (make_control e prefix op cond).
Proof.
  unfold make_control, process_condition. pose proof (preprocess_err e (t_value cond) (origin_of cond)) as Hp.
  destruct (preprocess e (t_value cond) (origin_of cond)) as [p|ex]; cbn [rbind]; [|destruct ex; try exact I; destruct Hp].
  pose proof (cond_err (t_value p) (origin_of cond)) as Hc. destruct (parse_condition (t_value p) (origin_of cond)) as [r|ex] eqn:E; cbn [rbind]; [|destruct ex; try exact I; destruct Hc].
  destruct (cond_result _ _ _ E) as [C1 C2]. destruct r as [n|].
  - unfold new_control. destruct (str_eqb (t_value op) _); [|exact I]. destruct (C1 n eq_refl) as [->| ->]; exact I.
  - split; [reflexivity|]. exists p. split; [reflexivity|]. apply C2. reflexivity.
Qed.
Lemma run_control_err S e c : okres S (run_control e c).
Proof. unfold run_control. destruct (dget _ e); exact I. Qed.

(* ------------------------------------------------------------------ texts *)
Lemma r_known {X A B} I (J K : X -> Prop) S (a : A) (f : A -> P X B) : raises I J K S (f a) -> raises I J K S (pbind (pret a) f).
Proof. intros H. exact H. Qed.
Lemma r_failed {X A B} I (J K : X -> Prop) S ex (f : A -> P X B) : raises I J K S (praise ex : P X B) -> raises I J K S (pbind (praise ex) f).
Proof. intros H. exact H. Qed.

Section TextErr.
  Context (e : env) (nest : nest_fn).
  Notation TE := (text_error e).
  Definition aT (x : tx) : Prop := True.
  Context (Hc : closed to_eof) (Hid : forall r, to_eof r -> to_eof r).
  Context (Hnest : forall text o, raises to_eof aT aT TE (nest text o)).
  Ltac rt := repeat first [apply Hnest | progress rs to_eof aT].

  Lemma needed_err p n m c : raises to_eof aT aT TE (needed p n m c).
  Proof. unfold needed. rt. Qed.
  Lemma link_content_err t o : raises to_eof aT aT TE (tp_link_content nest t o).
  Proof. unfold tp_link_content. rt. Qed.
  Ltac ru := repeat first [apply Hnest | apply needed_err | apply link_content_err | progress rs to_eof aT].
  Lemma tp_control_err name p c : raises to_eof aT aT TE (tp_control e nest name p c).
  Proof.
    unfold tp_control. destruct (split_on _ _) as [|op [|cond [|? ?]]]; try apply r_mau. destruct (negb _); [apply r_mau|]. cbv zeta.
    set (oo := mkOrigin _ _ _). pose proof (cond_err cond oo) as C1. pose proof (cond_result cond oo) as C2.
    destruct (parse_condition cond oo) as [[n|]|ex].
    - apply r_known. apply (r_bind to_eof aT aT aT).
      { apply r_lift. unfold new_control. rewrite str_eqb_refl. destruct (C2 _ eq_refl) as [C3 _]. destruct (C3 n eq_refl) as [->| ->]; exact I. }
      intros ctl. apply (r_bind to_eof aT aT aT); [apply needed_err|]. intros tc. apply (r_bind to_eof aT aT aT); [apply r_lift, run_control_err|]. intros test.
      apply (r_bind to_eof aT aT aT); [|intros [t|]; [apply Hnest|apply r_ret]]. destruct (str_eqb op _); [|apply r_ret].
      destruct (if test : bool then _ else _) as [t|]; [|apply r_mau]. apply (r_bind to_eof aT aT aT); [|intro; apply r_ret]. apply r_lift.
      assert (A : TE "AttributeError"%string) by (left; right; reflexivity).
      unfold ifeval_text. destruct (env_get e _) as [[s|[|]|s|d]|a|]; solve [exact I|exact A].
    - apply r_failed, r_py. left; right; reflexivity.
    - destruct ex as [| |cls|]; [|apply r_failed, r_mau|destruct C1|]; intros s H0 H1 H2; cbn; repeat split; auto; discriminate.
  Qed.
  Lemma args_loop_err n : raises to_eof aT aT TE (tp_args_loop n).
  Proof. induction n as [|n IH]; [apply r_fuel|]. cbn [tp_args_loop]. unfold is_tv, is_ty, get_tv. repeat first [apply IH | progress ru]. Qed.
  Lemma macro_args_err : raises to_eof aT aT TE tp_macro_args.
  Proof.
    intros s. unfold tp_macro_args. generalize (S (length (fst s))). intros k. revert s.
    change (raises to_eof aT aT TE (let* ts := tp_args_loop k in pret (from_token_list ts []))). apply (r_bind to_eof aT aT aT); [apply args_loop_err|intro; apply r_ret].
  Qed.
  Lemma macro_err : raises to_eof aT aT TE (tp_macro e nest).
  Proof.
    unfold tp_macro, get_tv, get_ty. do 4 (apply (r_bind to_eof aT aT aT); [apply r_get_token, Hc|intro]).
    apply (r_bind to_eof aT aT aT); [apply macro_args_err|]. intros argt. apply (r_bind to_eof aT aT aT); [apply r_get_token, Hc|]. intros cl.
    apply (r_bind to_eof aT aT aT). { apply r_lift. apply (okres_weak (args_error e)); [right; assumption|apply parse_arguments_err]. } intros p. cbv zeta.
    destruct (startswith _ _); [apply tp_control_err|].
    unfold tp_link, tp_header_link, tp_mailto, tp_image, tp_footnote, tp_class, tp_unicode, tp_raw.
    repeat match goal with |- context [if str_eqb ?x ?y then _ else _] => destruct (str_eqb x y) end; ru.
  Qed.
  Lemma words_err n : forall stops, raises to_eof aT aT TE (tp_words e nest n stops).
  Proof.
    induction n as [|n IH]; intros stops; [apply r_fuel|]. cbn [tp_words]. apply (r_bind to_eof aT aT aT); [apply r_peek|]. intros t.
    destruct (token_in t stops); [apply r_ret|]. apply (r_bind to_eof aT aT aT).
    - unfold tp_item.
      assert (F : forall fs l, Forall (raises to_eof aT aT TE) fs -> raises to_eof aT aT TE l -> raises to_eof aT aT TE (tp_first fs l)).
      { intros fs l H Hl. induction H as [|f fs H _ IHf]; [exact Hl|]. cbn [tp_first]. apply (r_bind to_eof aT aT aT).
        - intros s A0 A1 A2. destruct (H s A0 A1 A2) as (B0 & B1 & B2 & _). unfold pwith.
          destruct (f s) as [s' [a|[]]]; cbn [fst snd] in *; repeat split; auto.
        - intros [nodes|]; [apply r_ret|exact IHf]. }
      apply F; [|unfold tp_word, get_tok; ru].
      apply Forall_cons; [unfold tp_backslash, get_tv, get_tok; ru|]. apply Forall_cons; [apply macro_err|].
      apply Forall_cons; [unfold tp_verbatim, get_tv; ru|]. apply Forall_cons; [unfold tp_escaped, get_tv; ru|].
      apply Forall_cons; [|apply Forall_nil]. unfold tp_style, get_tv. repeat first [apply IH | progress ru].
    - intros [|n0 ns]; [apply r_ret|]. apply (r_bind to_eof aT aT aT); [apply IH|]. intros rest. apply r_ret.
  Qed.
  Lemma sentence_err : raises to_eof aT aT TE (tp_sentence e nest).
  Proof.
    intros s. unfold tp_sentence. generalize (S (length (fst s))). intros k. revert s.
    match goal with |- forall s, fst s <> [] -> to_eof (fst s) -> aT (snd s) -> fst (fst (?m s)) <> [] /\ _ => change (raises to_eof aT aT TE m) end.
    apply (r_bind to_eof aT aT aT); [apply words_err|]. intros nodes. ru.
  Qed.
End TextErr.
Lemma tp_run_err depth : forall e text o next, okres (text_error e) (tp_run depth e text o next).
Proof.
  induction depth as [|d IH]; intros e text o next; [left; left; reflexivity|]. cbn [tp_run]. unfold lex_text.
  destruct (lexed_eof text_next text_lexer_fns text o lex_text_ok) as (toks & -> & Hn & He).
  apply (r_run to_eof (text_error e)); [exact Hn|exact He|]. apply Forall_cons; [|apply Forall_nil].
  apply sentence_err; [exact closed_eof|auto|]. intros t o' s H0 H1 H2. specialize (IH e t o' (tx_next (snd s))).
  destruct (tp_run d e t o' (tx_next (snd s))) as [x|ex]; cbn [fst snd]; repeat split; auto; discriminate.
Qed.
