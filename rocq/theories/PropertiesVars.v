(* PropertiesVars.v -- C63, C64: the variables that a document defines *)
From Verif Require Import AttachFacts EnvFacts PropertiesEnv PropertiesDoc SpecInclude DocFacts RunFacts PropertiesInclude PropertiesErrors.

(* ------------------------------------------------------------------ C64 *)
(* :+name: and :-name: are flags, :name:value is a definition *)
Inductive definition : str -> option token -> (str -> res str) -> str -> str -> Prop :=
| def_on k v eval : definition (lit "+" ++ k) v eval k (lit "true")
| def_off k v eval : definition (lit "-" ++ k) v eval k (lit "false")
| def_value k v eval s : (forall j, k <> lit "+" ++ j) -> (forall j, k <> lit "-" ++ j) ->
    eval (t_value v) = Ok s -> definition k (Some v) eval k s.

(* the text of a value, with its variables replaced *)
Definition expanded (e : env) (c : context) (text : str) : res str :=
  rmap t_value (preprocess e text (mkOrigin (c_start_line c) (c_start_column c) (c_source c))).

Lemma starts1 (c : N) s : startswith [c] s = true -> exists r, s = [c] ++ r.
Proof. destruct s as [|a s]; [discriminate|]. cbn [startswith]. destruct (N.eqb_spec c a) as [->|]; [|discriminate]. intros _. exists s. reflexivity. Qed.
Lemma not_starts1 (c : N) s : startswith [c] s = false -> forall r, s <> [c] ++ r.
Proof. intros H r ->. cbn [startswith app] in H. rewrite N.eqb_refl in H. discriminate. Qed.

Theorem C64_definition cf m o n c v x x' : acts cf (dp_run m cf) (EVariable o n c v) x x' ->
  exists k s at_, definition (t_value n) v (expanded (dx_env x) at_) k s /\ s <> [] /\
    x' = set_env x (env_set (dx_env x) k (EStr s)) /\
    env_item (dx_env x') k = Ok (EStr s) /\ (forall q, q <> k -> env_item (dx_env x') q = env_item (dx_env x) q).
Proof.
  cbn [acts do_element]. intros H. unfold dp_do_variable in H.
  destruct (match v with Some v => _ | None => _ end) as [value ctx] eqn:Ev. apply runs_pget in H.
  assert (K : exists k s, definition (t_value n) v (expanded (dx_env x) ctx) k s /\ s <> [] /\ x' = set_env x (env_set (dx_env x) k (EStr s))).
  { destruct (startswith (lit "+") (t_value n)) eqn:Ep.
    { apply starts1 in Ep as (k & Ep). rewrite Ep in *. change (skipn 1 (_ ++ k)) with k in H.
      apply runs_bind_inv in H as (nv & y & H1 & H); [|quiet]. apply runs_ret in H1 as [-> ->]. cbn [snd fst] in H.
      exists k, (lit "true"). split; [apply def_on|]. split; [discriminate|]. change (lit "true") with (116%N :: lit "rue") in H |- *.
      apply runs_pmod in H. apply runs_ret in H as [_ ->]. reflexivity. }
    destruct (startswith (lit "-") (t_value n)) eqn:Em.
    { apply starts1 in Em as (k & Em). rewrite Em in *. change (skipn 1 (_ ++ k)) with k in H.
      apply runs_bind_inv in H as (nv & y & H1 & H); [|quiet]. apply runs_ret in H1 as [-> ->]. cbn [snd fst] in H.
      exists k, (lit "false"). split; [apply def_off|]. split; [discriminate|]. change (lit "false") with (102%N :: lit "alse") in H |- *.
      apply runs_pmod in H. apply runs_ret in H as [_ ->]. reflexivity. }
    destruct value as [|a value].
    { apply runs_bind_inv in H as (nv & y & H1 & H); [|quiet]. apply runs_ret in H1 as [-> ->]. cbn [snd fst] in H. destruct (runs_raise _ _ _ _ H). }
    apply runs_bind_inv in H as (nv & y & H1 & H).
    2: { apply quiet_bind; [apply quiet_lift, preprocess_fine|]. intros t. quiet. }
    apply runs_lift in H1 as (t & Et & H1). apply runs_ret in H1 as [-> ->]. cbn [snd fst] in H.
    exists (t_value n), (t_value t). destruct (t_value t) as [|b s] eqn:Es; [destruct (runs_raise _ _ _ _ H)|].
    apply runs_pmod in H. apply runs_ret in H as [_ ->].
    destruct v as [v|]; [|discriminate]. injection Ev as Ev Ec.
    split; [|split; [discriminate|reflexivity]]. apply def_value; [apply not_starts1, Ep|apply not_starts1, Em|].
    unfold expanded. rewrite Ev, Et. cbn [rmap]. rewrite Es. reflexivity. }
  destruct K as (k & s & Hd & Hs & ->). exists k, s, ctx. split; [exact Hd|]. split; [exact Hs|]. split; [reflexivity|]. cbn [dx_env set_env].
  destruct (C16_read_after_write (dx_env x) k (EStr s)) as (K1 & _ & K2); [intros; discriminate|]. split; [exact K1|exact K2].
Qed.

(* ------------------------------------------------------------------ C63 *)
(* the name that is defined *)
Definition defined_name (name k : str) : Prop := name = k \/ name = lit "+" ++ k \/ name = lit "-" ++ k.

(* a text defines a name: on a line of its own, or in the content of a block *)
Inductive defines : str -> origin -> str -> Prop :=
| defines_here text o toks els a n c v k : lex_document (buffer text o) = Ok toks -> made_of toks els ->
    In (EVariable a n c v) els -> defined_name (t_value n) k -> defines text o k
| defines_block text o toks els a t c k : lex_document (buffer text o) = Ok toks -> made_of toks els ->
    In (EBlock a (Some t) c) els -> defines (t_value t) (origin_of t) k -> defines text o k.

Definition is_block (el : element) : Prop := match el with EBlock _ _ _ => True | _ => False end.
Definition is_variable (el : element) : Prop := match el with EVariable _ _ _ _ => True | _ => False end.

(* only a definition and the content of a block change the variables *)
Lemma env_frame cf m el x x' : acts cf (dp_run m cf) el x x' -> ~ is_variable el -> ~ is_block el -> dx_env x' = dx_env x.
Proof.
  intros H Hv Hb. destruct el; cbn [acts do_element] in H.
  - apply runs_ret in H as [_ ->]. reflexivity.
  - apply do_rule_inv in H as (ok & _ & ->). destruct ok; reflexivity.
  - destruct (Hv I).
  - apply do_label_inv in H as (? & ? & ? & ? & ->). reflexivity.
  - apply do_control_inv in H as (? & _ & ->). reflexivity.
  - apply do_arguments_inv in H as (? & _ & ->). reflexivity.
  - apply do_header_inv in H as (nodes & ms & hs & next & ctx & ok & _ & _ & H). destruct ok; [|rewrite H; reflexivity].
    destruct H as (links & _ & ->). reflexivity.
  - destruct (Hb I).
  - exact (C46_variables_unchanged cf m _ _ _ _ _ H).
  - destruct H as (i & its & nodes & x1 & H1 & _ & H). apply runs_items in H1 as (? & ? & ? & ->).
    apply do_list_inv in H as (start & latest & ctx & ok & _ & H & _). cbv zeta in H. rewrite H. destruct ok; reflexivity.
  - apply do_paragraph_inv in H as (? & ? & ? & ? & ? & ok & _ & H). rewrite H. destruct ok; reflexivity.
Qed.

Lemma finalise_env cf e0 x y : dp_finalise cf e0 x = Ok y -> dx_env y = dx_env x.
Proof.
  unfold dp_finalise. cbv zeta. intros H.
  destruct (fm_process _ _ _) as [[flinks flists]|]; [cbn [rbind] in H|discriminate H].
  destruct (tm_process _ _) as [[[toc ids] tocs]|]; [cbn [rbind] in H|discriminate H].
  destruct (hm_process _) as [hl|]; [cbn [rbind] in H|discriminate H].
  destruct (gm_process _) as [gr|]; [cbn [rbind] in H|discriminate H].
  assert (E : forall A (a b : A), Ok a = Ok b -> a = b) by (intros A a b K; congruence). apply E in H. rewrite <- H. reflexivity.
Qed.

(* the variables of e', compared with those of e: the same, the defaults, and those of a set *)
Definition default_value (k : str) : res env_val := env_item base_env k.
Definition keeps (D : str -> Prop) (e e' : env) : Prop :=
  flat_env e' /\ forall k, D k \/ env_item e' k = env_item e k \/
    (env_item e k = Exc (ExPy "KeyError") /\ env_item e' k = default_value k).
Lemma keeps_refl D e : flat_env e -> keeps D e e.
Proof. intros H. split; [exact H|]. auto. Qed.
Lemma keeps_trans D e f g : keeps D e f -> keeps D f g -> keeps D e g.
Proof.
  intros [_ H1] [Hg H2]. split; [exact Hg|]. intros k. destruct (H1 k) as [|[E1|[E1 E2]]]; [auto| |]; destruct (H2 k) as [|[F1|[F1 F2]]]; auto.
  all: first [right; left; congruence | right; right; split; congruence].
Qed.
Lemma keeps_weak (D D' : str -> Prop) e f : (forall k, D k -> D' k) -> keeps D e f -> keeps D' e f.
Proof. intros H [Hf K]. split; [exact Hf|]. intros k. destruct (K k) as [?|?]; auto. Qed.

Lemma base_flat : flat_env base_env.
Proof. unfold base_env, env_from_dict. apply flat_dupdate, flat_empty. Qed.
Lemma init_keeps e next done forb x : flat_env e -> dp_init e next done forb = Ok x -> keeps (fun _ => False) e (dx_env x).
Proof.
  intros He Hi. rewrite (init_env _ _ _ _ _ Hi). split.
  - apply flat_update; [exact He|exact base_flat].
  - intros k. right. destruct (C18_update e base_env k He base_flat) as [_ E]. unfold dmem in E. unfold env_item in *.
    destruct (dget k e) eqn:Ek; [left; exact E|right]. split; [reflexivity|exact E].
Qed.

(* The variables after a document are those before it, except for the defaults of
   the parser (only where there was no value) and for the names that the text
   defines, on lines of its own or inside its blocks. *)
Theorem C63_only_definitions n cf : forall e next done forb text o y, flat_env e -> dp_run n cf e next done forb text o = Ok y ->
  flat_env (dx_env y) /\
  forall k, defines text o k \/ env_item (dx_env y) k = env_item e k \/
    (env_item e k = Exc (ExPy "KeyError") /\ env_item (dx_env y) k = default_value k).
Proof.
  induction n as [n IH] using lt_wf_ind. intros e next done forb text o y He H.
  apply dp_run_inv in H as (m & toks & x0 & els & x & -> & El & Ei & Hm & Ha & Hf).
  change (keeps (defines text o) e (dx_env y)). rewrite (finalise_env _ _ _ _ Hf).
  pose proof (init_keeps _ _ _ _ _ He Ei) as K0. apply keeps_trans with (dx_env x0); [exact (keeps_weak _ _ _ _ (fun _ F => False_ind _ F) K0)|].
  destruct K0 as [F0 _]. clear Ei Hf.
  assert (Hin : forall el, In el els -> In el els) by auto. revert Hin Ha F0. generalize els at 1 3. intros l. revert x0. clear e He.
  induction l as [|el l IHl]; intros x0 Hin Ha F0.
  { inversion Ha; subst. apply keeps_refl, F0. }
  inversion Ha as [|? ? ? x1 ? A1 A2]; subst.
  assert (K1 : keeps (defines text o) (dx_env x0) (dx_env x1)).
  { assert (Dv : is_variable el \/ is_block el \/ (~ is_variable el /\ ~ is_block el)) by (destruct el; cbn; tauto).
    destruct Dv as [Hv|[Hb|[Hv Hb]]].
    - destruct el; try contradiction Hv. pose proof A1 as A1'. apply C64_definition in A1' as (k & s & at_ & Hd & _ & -> & _ & Ho). cbn [dx_env set_env] in *.
      split; [apply flat_set, F0|]. intros q. destruct (str_eqb_spec q k) as [->|Hq]; [left|right; left; exact (Ho q Hq)].
      eapply defines_here; [exact El|exact Hm|apply Hin; left; reflexivity|]. inversion Hd; subst; unfold defined_name; auto.
    - destruct el as [| | | | | | |a t c| | |]; try contradiction Hb. cbn [acts do_element] in A1.
      apply do_block_inv in A1 as (node & ar & nctx & z & He & Hz); [|intros; apply dp_run_fine].
      assert (E1 : dx_env x1 = dx_env z).
      { destruct (nonempty (dget (lit "footnote") _)); [destruct Hz as (? & _ & ->); reflexivity|].
        destruct (nonempty (dget (lit "group") _)); [|destruct Hz as (ok & _ & ->); destruct ok; reflexivity].
        destruct (nonempty (dget (lit "position") _)); [|destruct Hz as (ok & _ & ->); destruct ok; reflexivity].
        destruct Hz as (? & _ & ->); reflexivity. }
      rewrite E1. apply engine_inv in He; [|intros; apply dp_run_fine].
      destruct He as [[-> _]|(_ & t' & y' & -> & _ & Hr & -> & _)]; [apply keeps_refl, F0|].
      assert (E2 : dx_env (after_child (set_args x0 None) y' (isolated (block_args x0))) = dx_env y') by (unfold after_child; destruct (isolated _); reflexivity).
      rewrite E2. cbn [dx_env set_args] in Hr. apply (IH m) in Hr; [|lia|exact F0].
      apply (keeps_weak (defines (t_value t') (origin_of t'))); [|exact Hr].
      intros q Hq. eapply defines_block; [exact El|exact Hm|apply Hin; left; reflexivity|exact Hq].
    - rewrite (env_frame _ _ _ _ _ A1 Hv Hb). apply keeps_refl, F0. }
  apply keeps_trans with (dx_env x1); [exact K1|]. apply IHl; [intros; apply Hin; right; assumption|exact A2|exact (proj1 K1)].
Qed.

(* A variable of a block is a variable of the document after it; the others are kept. *)
Definition ev_doc (e : env) (s : string) : res env := rmap dx_env (parse_document 5 cf0 e (mau s) (mkOrigin 0 0 None)).
Definition value_after (e : env) (s : string) (k : string) : option (res env_val) :=
  match ev_doc e s with Ok e' => Some (env_item e' (lit k)) | Exc _ => None end.
Example C63_ex :
  let e := [(lit "kept", EStr (lit "0")); (lit "a", EStr (lit "9"))] in
  value_after e ":a:1|----|:b:2{a}|----|{b}" "a" = Some (Ok (EStr (lit "1"))) /\
  value_after e ":a:1|----|:b:2{a}|----|{b}" "b" = Some (Ok (EStr (lit "21"))) /\
  value_after e ":a:1|----|:b:2{a}|----|{b}" "kept" = Some (Ok (EStr (lit "0"))) /\
  value_after e ":+draft:|:-done:" "draft" = Some (Ok (EStr (lit "true"))) /\
  value_after e ":+draft:|:-done:" "done" = Some (Ok (EStr (lit "false"))).
Proof. cbv zeta. repeat split; vm_compute; reflexivity. Qed.
Lemma defined_by_document e text o k v : flat_env e -> env_item e k = Exc (ExPy "KeyError") -> default_value k = Exc (ExPy "KeyError") ->
  (match rmap dx_env (parse_document 5 cf0 e text o) with Ok e' => Some (env_item e' k) | Exc _ => None end) = Some (Ok v) -> defines text o k.
Proof.
  intros He Hk Hd V. destruct (parse_document 5 cf0 e text o) as [y|] eqn:P; [|discriminate V]. cbn [rmap] in V.
  destruct (C63_only_definitions 5 cf0 e 0 [] [] _ _ y He P) as [_ K].
  assert (E : env_item (dx_env y) k = Ok v) by congruence.
  destruct (K k) as [D|[D|[_ D]]]; [exact D| |]; congruence.
Qed.
Example C63_ex_defines : defines (mau "----|:b:2|----") (mkOrigin 0 0 None) (lit "b").
Proof.
  apply (defined_by_document env_empty _ _ _ (EStr (lit "2")) flat_empty); [reflexivity|vm_compute; reflexivity|vm_compute; reflexivity].
Qed.
