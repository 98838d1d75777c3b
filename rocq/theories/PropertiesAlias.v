(* PropertiesAlias.v -- C23: the whole result of an alias *)
From Verif Require Import ParseFacts PropertiesEnv PropertiesArgs SpecArgs Args.
#[local] Notation length := List.length.

(* the names that a definition gives to the values *)
Definition alias_names (def : dict env_val) (names : list str) : Prop :=
  match dget (lit "names") def with None => names = [] | Some (EList l) => names = l | Some _ => False end.
(* the subtype of a definition: an empty one counts as none *)
Definition alias_subtype (def : dict env_val) : option str :=
  match dget (lit "subtype") def with
  | None => None
  | Some v => match py_str v with [] => None | s => Some s end
  end.
(* the names that get a value: those that neither the user nor the definition gives *)
Definition free_names (l : list arg) (args : dict env_val) (names : list str) : list str :=
  filter (fun n => match named_of l n, dget n args with None, None => true | _, _ => false end) names.

Lemma nodup_left {A} (a b : list A) : NoDup (a ++ b) -> NoDup a.
Proof. induction b as [|c b IH]; [rewrite app_nil_r; auto|]. intros H. apply IH. exact (NoDup_remove_1 _ _ _ H). Qed.
Lemma put_nodup l : forall s, NoDup (keys (snd s)) -> NoDup (keys (snd (fold_left put l s))).
Proof.
  induction l as [|a l IH]; intros s H; [exact H|]. apply IH. destruct s as [[on u] n]. destruct a; cbn in *; [exact H|apply dset_nodup, H].
Qed.

(* The named arguments are those of the user; then those of the definition; then the first
   values, for the names that are left, in order.  The other values stay. *)
Theorem C23_alias_result e l text o name def args names :
  writes_args l text -> ~ misplaced l ->
  let us := unnamed_of l in
  Forall single_mark us -> length (marked_with STAR us) <= 1 -> marked_with AT us = [name] ->
  alias_definition e name def -> alias_args def = Some args -> NoDup (keys args) -> alias_names def names -> NoDup names ->
  exists p, parse_arguments e text o = Ok p /\
    let a := arguments_of p in let free := free_names l args names in
    NoDup (keys (na_named a)) /\
    (forall k, dget k (na_named a) =
       match named_of l k with
       | Some v => Some v
       | None => match dget k args with Some v => Some (py_str v) | None => dget k (combine free (plain_of us)) end
       end) /\
    na_unnamed a = skipn (length free) (plain_of us) /\
    na_tags a = tags_of us /\ na_internal a = internal_tags_of us /\
    na_subtype a = match hd_error (marked_with STAR us) with Some s => Some s | None => alias_subtype def end.
Proof.
  intros Hw Hm us Hs L Ha (ea & d & D1 & D2 & D3) Hargs Hna Hnames Hnn.
  destruct (run_args l text o Hw) as (toks & H1 & (t0 & r0 & Ht0) & H2 & _). unfold parse_arguments. rewrite H1. cbn [rbind].
  destruct (H2 Hm) as (x & -> & Hx). cbn [rbind]. destruct (fold_put l false [] []) as (on & E). pose proof (eq_trans Hx E) as Hx2. clear Hx E. rename Hx2 into Hx. cbn [app] in Hx. fold us in Hx.
  unfold vals in Hx. injection Hx as _ Hu Hn.
  destruct (isolate_values e (option_map t_ctx (hd_error toks)) x us Hu Hs) as (_ & _ & B). rewrite Ha in B. cbn [length hd_error] in B.
  destruct (B L ltac:(lia)) as (unnamed & tags & subtype & alias & U1 & U2 & U3 & U4 & ->).
  destruct alias as [al|]; [|discriminate]. assert (U5 : t_value al = name) by (cbn [option_map] in U4; congruence). clear U4. rename U5 into U4.
  unfold expand_alias. rewrite D1, D2. cbn [rbind]. rewrite U4, D3. unfold alias_args in Hargs.
  assert (Harg : match dget (lit "args") def with None => Ok [] | Some (EDict a) => Ok a | Some _ => Exc (ExPy "AttributeError") end = Ok args).
  { destruct (dget (lit "args") def) as [[| | |]|]; try discriminate; injection Hargs as <-; reflexivity. }
  rewrite Harg. cbn [rbind].
  assert (Hnm : names_of (dget (lit "names") def) = Ok names).
  { unfold alias_names in Hnames. destruct (dget (lit "names") def) as [[| | |]|]; try contradiction; subst names; reflexivity. }
  rewrite Hnm. cbn [rbind]. set (missing := filter _ args). set (named' := fold_left _ missing _).
  assert (Hdn : forall k, option_map t_value (dget k (ap_named x)) = named_of l k).
  { intros k. rewrite <- dget_map_values, Hn, fold_put_named. destruct (named_of l k); reflexivity. }
  assert (Nn : NoDup (keys (ap_named x))).
  { assert (X : keys (ap_named x) = keys (map (fun kv : str * token => (fst kv, t_value (snd kv))) (ap_named x))) by (unfold keys; rewrite map_map; reflexivity).
    rewrite X, Hn. apply put_nodup. constructor. }
  assert (N' : NoDup (keys named')).
  { unfold named'. generalize (ap_named x) Nn. clear. induction missing as [|m ms IH]; intros n H; [exact H|]. cbn [fold_left]. apply IH, dset_nodup, H. }
  assert (Em : forall k, dget k missing = if dmem k (ap_named x) then None else dget k args).
  { intros k. unfold missing. rewrite (dget_filter (fun q => negb (dmem q (ap_named x)))). destruct (dmem k (ap_named x)); reflexivity. }
  assert (Nm : NoDup (keys missing)) by (exact (keys_filter (fun q => negb (dmem q (ap_named x))) _ Hna)).
  assert (G : forall k, option_map t_value (dget k named') = match named_of l k with Some v => Some v | None => option_map py_str (dget k args) end).
  { intros k. rewrite <- Hdn. destruct (dget k (ap_named x)) as [t|] eqn:Ek.
    - unfold named'. rewrite fold_missing; [rewrite Ek; reflexivity|unfold dmem; rewrite Ek; reflexivity|].
      apply Forall_forall. intros [q w] Hq. unfold missing in Hq. apply filter_In in Hq as [_ Hq]. cbn in *. apply str_eqb_neq. intros <-.
      unfold dmem in Hq. rewrite Ek in Hq. discriminate.
    - specialize (Em k). unfold dmem in Em. rewrite Ek in Em. cbn [option_map]. destruct (dget k args) as [v|] eqn:Ev.
      + exact (fold_missing_get missing (t_ctx al) Nm (ap_named x) k v Em).
      + cbn [option_map]. unfold named'. clear -Em Ek. 
        assert (F : Forall (fun kv : str * env_val => str_eqb k (fst kv) = false) missing).
        { clear -Em. induction missing as [|[a w] m IH]; [constructor|]. cbn [dget] in Em. destruct (str_eqb k a) eqn:Q; [discriminate|]. constructor; [exact Q|exact (IH Em)]. }
        assert (Z : dget k (fold_left (fun n (kv : str * env_val) => dset (fst kv) (vnode (py_str (snd kv)) (t_ctx al)) n) missing (ap_named x)) = None); [|rewrite Z; reflexivity].
        generalize (ap_named x) Ek. clear -F. induction F as [|[a w] m Fa F IH]; intros n Ek; [exact Ek|]. cbn [fold_left fst snd] in *. apply IH. rewrite dget_dset, Fa. exact Ek. }
  assert (O : filter (fun n => negb (dmem n named')) names = free_names l args names).
  { unfold free_names. apply filter_ext. intros n. specialize (G n). unfold dmem. destruct (dget n named') as [t|]; cbn [option_map negb] in *; destruct (named_of l n); try discriminate; try reflexivity; destruct (dget n args); try discriminate; reflexivity. }
  unfold set_names. cbv zeta. rewrite O. set (free := free_names l args names) in *.
  assert (Nc : NoDup (keys (combine free unnamed))).
  { rewrite combine_keys. assert (No : NoDup free) by (apply NoDup_filter; exact Hnn).
    rewrite <- (firstn_skipn (length unnamed) free) in No. exact (nodup_left _ _ No). }
  eexists. split; [reflexivity|]. rewrite (dupd_nil _ Nc). unfold arguments_of. cbn [pa_unnamed pa_named pa_tags pa_subtype na_unnamed na_named na_tags na_internal na_subtype].
  split; [|split; [|split; [|split; [|split]]]].
  - unfold keys. rewrite map_map. cbn [fst]. change (NoDup (keys (dupd named' (combine free unnamed)))). apply dupd_nodup, N'.
  - intros k. rewrite dget_map_values, dget_dupd by exact Nc. specialize (G k). rewrite <- U1.
    assert (C : option_map t_value (dget k (combine free unnamed)) = dget k (combine free (map t_value unnamed))).
    { clear. revert unnamed. induction free as [|n ns IH]; intros [|u us]; try reflexivity. cbn. destruct (str_eqb k n); [reflexivity|apply IH]. }
    rewrite <- C. destruct (dget k (combine free unnamed)) as [t|] eqn:Et; cbn [option_map].
    + apply dget_in in Et. apply in_combine_l in Et. unfold free, free_names in Et. apply filter_In in Et as [_ Et].
      destruct (named_of l k); [discriminate|]. destruct (dget k args); [discriminate|reflexivity].
    + rewrite G. destruct (named_of l k); [reflexivity|]. destruct (dget k args); reflexivity.
  - rewrite <- U1, skipn_map. reflexivity.
  - unfold tags_of. rewrite U2. apply filter_ext. intros v. rewrite internal_eq. reflexivity.
  - unfold internal_tags_of. rewrite U2, (filter_ext _ _ internal_eq). apply map_ext_in. intros v Hv. apply filter_In in Hv as [_ Hv].
    unfold removeprefix. rewrite internal_eq, Hv. reflexivity.
  - rewrite <- U3. unfold alias_subtype. destruct subtype as [t|]; [reflexivity|]. cbn [option_map].
    destruct (dget (lit "subtype") def) as [v|]; [|reflexivity]. destruct (py_str v); reflexivity.
Qed.

#[local] Ltac in_cases := match goal with |- forall c, In c _ -> _ => let c := fresh in let H := fresh in intros c H; vm_compute in H; repeat (destruct H as [<-|H]; [vm_compute; intuition discriminate|]); destruct H end.
#[local] Ltac bare_value := apply w_bare; split; [in_cases|split; [discriminate|split; discriminate]].
(* The alias src: two keys, a subtype, and a name for the first value. *)
Example C23_ex_result : exists p, parse_arguments aliases_env (lit "@src, T, lang=py") origin0 = Ok p /\
  let a := arguments_of p in
  dget (lit "lang") (na_named a) = Some (lit "py") /\ dget (lit "engine") (na_named a) = Some (lit "source") /\
  dget (lit "title") (na_named a) = Some (lit "T") /\ na_unnamed a = [] /\ na_subtype a = Some (lit "code").
Proof.
  destruct C23_ex_hyps as (H1 & H2 & _).
  destruct (C23_alias_result aliases_env [Pos (lit "@src"); Pos (lit "T"); Key (lit "lang") (lit "py")] (lit "@src, T, lang=py") origin0 (lit "src") src_def
    [(lit "engine", EStr (lit "source")); (lit "lang", EStr (lit "c"))] [lit "title"]) as (p & E & R).
  - apply (ws_cons (Pos (lit "@src")) (lit "@src") 1 [Pos (lit "T"); Key (lit "lang") (lit "py")] (lit "T, lang=py")); [constructor; bare_value|].
    apply (ws_cons (Pos (lit "T")) (lit "T") 1 [Key (lit "lang") (lit "py")] (lit "lang=py")); [constructor; bare_value|].
    apply ws_one. apply (wa_key (lit "lang") (lit "py") (lit "py")); [split; [discriminate|in_cases]|bare_value].
  - intros (a & k' & v' & b & w & c & E). destruct a as [|? [|? [|? [|? a]]]]; cbn [app] in E; inversion E; subst; repeat match goal with H : _ = ?b ++ _ :: _ |- _ => destruct b; cbn [app] in H; inversion H; subst; clear H end.
  - repeat constructor.
  - apply Nat.le_0_l.
  - reflexivity.
  - exact H1.
  - exact H2.
  - repeat constructor; cbn; intuition discriminate.
  - reflexivity.
  - repeat constructor; intros [].
  - exists p. split; [exact E|]. cbv zeta in R. destruct R as (_ & R1 & R2 & _ & _ & R5). cbv zeta. rewrite !R1, R2, R5. vm_compute. repeat split.
Qed.

Print Assumptions C23_alias_result.
