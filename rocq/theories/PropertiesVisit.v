(* PropertiesVisit.v -- C66, C67: what a visit shows, and when it ends *)
From Verif Require Import SpecVisitor PropertiesVisitor.
From Coq Require Import List Lia PeanoNat.
Import ListNotations.
#[local] Open Scope list_scope.

(* the row of an attribute in the table of the visitor *)
Definition shows (k : kind) (name : string) (s : shape) (m : visit_mode) : bool :=
  match s, m with
  | SPlain, AsIs | SNodes, VisitList | SNamed, VisitDict => true
  | (SOne | SOpt), VisitData => pointer k name
  | (SOne | SOpt), VisitNode => negb (pointer k name)
  | _, _ => false
  end.
Definition reserved : list string := ["_type"; "args"; "kwargs"; "tags"; "internal_tags"; "subtype"; "_context"; "parent"]%string.
(* the row with the key of the attribute comes first, and is made of the attribute *)
Fixpoint first_row (key : string) (rows : list (string * string * visit_mode)) : option (string * visit_mode) :=
  match rows with
  | [] => None
  | (k, name, m) :: r => if String.eqb key k then Some (name, m) else first_row key r
  end.
Lemma attribute_row k name s : In (name, s) (attributes k) -> hidden k name = false ->
  existsb (String.eqb name) reserved = false /\ exists m, first_row name (visited k) = Some (name, m) /\ shows k name s m = true.
Proof.
  assert (E : forallb (fun a : string * shape => hidden k (fst a) ||
      (negb (existsb (String.eqb (fst a)) reserved) &&
       match first_row (fst a) (visited k) with
       | Some (nm, m) => String.eqb (fst a) nm && shows k (fst a) (snd a) m
       | None => false end)) (attributes k) = true) by (destruct k; vm_compute; reflexivity).
  intros Hin Hh. rewrite forallb_forall in E. specialize (E _ Hin). cbn [fst snd] in E. rewrite Hh in E. cbn [orb] in E.
  apply Bool.andb_true_iff in E. destruct E as [E1 E2]. split; [destruct (existsb _ reserved); [discriminate | reflexivity] |].
  destruct (first_row name (visited k)) as [[nm m] |]; [| discriminate]. apply Bool.andb_true_iff in E2. destruct E2 as [E2 E3].
  apply String.eqb_eq in E2. subst nm. eauto.
Qed.

Lemma lit_inj a b : lit a = lit b -> a = b.
Proof.
  revert b. induction a as [| c a IH]; intros [| d b] E; try discriminate; [reflexivity |].
  unfold lit in E. cbn in E. injection E as E1 E2.
  f_equal; [| apply IH; exact E2]. apply (f_equal ascii_of_N) in E1. rewrite !ascii_N_embedding in E1. exact E1.
Qed.
Lemma dget_app {A} k (a b : list (str * A)) : dget k (a ++ b) = match dget k a with Some v => Some v | None => dget k b end.
Proof. induction a as [| [x v] a IH]; cbn [app dget]; [reflexivity |]. destruct (str_eqb k x); auto. Qed.

Lemma visit_rows_get hk dat nod o rows ds key name m :
  visit_rows hk dat nod o rows = Ok ds -> first_row key rows = Some (name, m) ->
  exists f d, fget name (o_fields o) = Some f /\ visit_field hk (o_kind o) dat nod m f = Ok d /\ dget (lit key) ds = Some d.
Proof.
  revert ds. induction rows as [| [[k nm] mo] rows IH]; intros ds E Er; [discriminate |]. cbn [visit_rows first_row] in E, Er.
  destruct (fget nm (o_fields o)) as [f |] eqn:Ef; [| discriminate].
  destruct (visit_field hk (o_kind o) dat nod mo f) as [d |] eqn:Ed; cbn [rbind] in E; [| discriminate].
  destruct (visit_rows hk dat nod o rows) as [ds' |] eqn:Es; cbn [rbind] in E; [| discriminate].
  assert (ds = (lit k, d) :: ds') as -> by congruence.
  destruct (String.eqb_spec key k) as [-> | Hne].
  - assert (nm = name /\ mo = m) as [-> ->] by (split; congruence). exists f, d. cbn [dget]. rewrite str_eqb_refl. auto.
  - destruct (IH ds' eq_refl Er) as (f' & d' & A1 & A2 & A3). exists f', d'. split; [exact A1 |]. split; [exact A2 |].
    cbn [dget]. destruct (str_eqb (lit key) (lit k)) eqn:Ek; [| exact A3]. apply str_eqb_eq in Ek. apply lit_inj in Ek. congruence.
Qed.
Lemma visit_each_get {A} (g : A -> res data) l ds : visit_each g l = Ok ds -> Forall2 (fun c d => g c = Ok d) l ds.
Proof.
  revert ds. induction l as [| c l IH]; intros ds E; cbn [visit_each] in E.
  - assert (ds = []) as -> by congruence. constructor.
  - destruct (g c) as [d |] eqn:Ed; cbn [rbind] in E; [| discriminate]. destruct (visit_each g l) as [ds' |]; cbn [rbind] in E; [| discriminate].
    assert (ds = d :: ds') as -> by congruence. constructor; auto.
Qed.

(* the entries that every node has *)
Lemma default_get kw h o name : existsb (String.eqb name) reserved = false -> dget (lit name) (default_data kw h o) = None.
Proof.
  intro H.
  assert (Hk : forall r, In r reserved -> str_eqb (lit name) (lit r) = false).
  { intros r Hr. destruct (str_eqb (lit name) (lit r)) eqn:E; [| reflexivity]. apply str_eqb_eq in E. apply lit_inj in E. subst r.
    assert (existsb (String.eqb name) reserved = true) by (apply existsb_exists; exists name; split; [exact Hr | apply String.eqb_refl]). congruence. }
  unfold default_data, node_data. unfold reserved in Hk.
  rewrite !dget_app. cbn [dget].
  rewrite (Hk "_type"%string), (Hk "args"%string), (Hk "kwargs"%string), (Hk "tags"%string), (Hk "internal_tags"%string), (Hk "subtype"%string) by (cbn; tauto).
  destruct (kw_context kw); cbn [dget]; [rewrite (Hk "_context"%string) by (cbn; tauto) |]; destruct (kw_parent kw); cbn [dget]; try reflexivity;
    rewrite (Hk "parent"%string) by (cbn; tauto); reflexivity.
Qed.

Lemma rows_reserved hk dat nod o k rows ds r : In r reserved -> incl rows (visited k) -> visit_rows hk dat nod o rows = Ok ds -> dget (lit r) ds = None.
Proof.
  assert (E : forallb (fun row : string * string * visit_mode => negb (existsb (String.eqb (fst (fst row))) reserved)) (visited k) = true)
    by (destruct k; vm_compute; reflexivity).
  rewrite forallb_forall in E. intro Hr.
  revert ds. induction rows as [| [[key nm] mo] rows IH]; intros ds Hin Ev; cbn [visit_rows] in Ev.
  - assert (ds = []) as -> by congruence. reflexivity.
  - destruct (fget nm (o_fields o)) as [f |] eqn:Ef; [| discriminate].
    destruct (visit_field hk (o_kind o) dat nod mo f) as [d |] eqn:Ed; cbn [rbind] in Ev; [| discriminate].
    destruct (visit_rows hk dat nod o rows) as [ds' |] eqn:Es; cbn [rbind] in Ev; [| discriminate].
    assert (ds = (lit key, d) :: ds') as -> by congruence. cbn [dget].
    destruct (str_eqb (lit r) (lit key)) eqn:Ek.
    + apply str_eqb_eq in Ek. apply lit_inj in Ek. subst key. specialize (E _ (Hin _ (or_introl eq_refl))). cbn [fst] in E.
      assert (existsb (String.eqb r) reserved = true) by (apply existsb_exists; exists r; split; [exact Hr | apply String.eqb_refl]).
      rewrite H in E. discriminate.
    + apply IH; [intros x Hx; apply Hin; right; exact Hx | reflexivity].
Qed.

Lemma attributes_once k : NoDup (map fst (attributes k)).
Proof. destruct k; cbn; repeat (apply NoDup_cons; [cbn; intuition discriminate |]); apply NoDup_nil. Qed.
Lemma proper_in o name f : proper o -> In (name, f) (o_fields o) ->
  fget name (o_fields o) = Some f /\ exists s, In (name, s) (attributes (o_kind o)) /\ of_shape s f.
Proof.
  unfold proper. intro F. pose proof (attributes_once (o_kind o)) as N. revert N.
  induction F as [| [k g] [k' s] l l' [E Hs] F IH]; intros N Hin; [destruct Hin |]. cbn in E, Hs. subst k'. cbn [map fst] in N.
  inversion N as [| ? ? N1 N2]; subst. cbn [fget]. destruct Hin as [E | Hin].
  - injection E as -> ->. rewrite String.eqb_refl. split; [reflexivity |]. exists s. split; [left; reflexivity | exact Hs].
  - destruct (IH N2 Hin) as (A & s' & B & C). split; [| exists s'; split; [right |]; assumption].
    destruct (String.eqb_spec name k) as [-> | _]; [| exact A]. exfalso. apply N1. exact (in_map fst _ _ B).
Qed.

(* What a visit of a node gives has its class, arguments and context, the parent if it
   is asked for, and every attribute of the node that is not hidden, with what the
   visits of the nodes in it give, in their order. *)
Theorem C66_everything_is_shown hk kw n h l o d :
  nth_error h l = Some o -> proper o -> visit_data hk kw (S n) h l = Ok (DtD d) ->
  shown_of_node kw o d /\
  dget (lit "parent") d = (if kw_parent kw then
      Some (DtD match parent_of h o with Some p => node_data kw p | None => [] end) else None) /\
  forall name f, In (name, f) (o_fields o) -> hidden (o_kind o) name = false ->
    exists e, dget (lit name) d = Some e /\ shown hk kw n h (o_kind o) name f e.
Proof.
  intros Eo Hp E. cbn [visit_data] in E. rewrite Eo in E.
  destruct (visit_rows hk (visit_data hk kw n h) (fun c => let? d0 := visit_data hk kw n h c in finish hk h c d0) o (visited (o_kind o)))
    as [rows |] eqn:Er; cbn [rbind] in E; [| discriminate].
  assert (d = default_data kw h o ++ rows) as -> by congruence. clear E.
  assert (Hres : forall r, In r reserved -> dget (lit r) rows = None) by (intros r Hr; exact (rows_reserved _ _ _ _ _ _ _ r Hr (incl_refl _) Er)).
  assert (H1 := Hres "_context"%string ltac:(cbn; tauto)). assert (H2 := Hres "parent"%string ltac:(cbn; tauto)).
  split; [| split].
  - unfold shown_of_node, default_data, node_data. rewrite !dget_app, H1. unfold opt_value.
    destruct (kw_context kw), (kw_parent kw); do 6 (split; [reflexivity |]); reflexivity.
  - unfold default_data. rewrite !dget_app, H2. unfold node_data. destruct (kw_context kw), (kw_parent kw); reflexivity.
  - intros name f Hin Hh. destruct (proper_in _ _ _ Hp Hin) as (Ef & s & Hs & Hof).
    destruct (attribute_row _ _ _ Hs Hh) as (Hr & m & Em & Hm).
    destruct (visit_rows_get _ _ _ _ _ _ _ _ _ Er Em) as (f' & e & A1 & A2 & A3). assert (f' = f) by congruence. subst f'.
    exists e. split; [rewrite dget_app, (default_get _ _ _ _ Hr); exact A3 |].
    destruct s, m; cbn [shows] in Hm; try discriminate Hm; destruct f as [v | fl | fd | [c |]]; cbn [of_shape] in Hof; try contradiction; cbn [visit_field] in A2.
    all: try (apply Bool.negb_true_iff in Hm).
    + assert (e = DtV v) as -> by congruence. constructor.
    + destruct (visit_each _ fl) as [ds |] eqn:Ed; cbn [rbind] in A2; [| discriminate]. assert (e = hk_list hk (o_kind o) ds) as -> by congruence.
      constructor. exact (visit_each_get _ _ _ Ed).
    + destruct (visit_each _ fd) as [ds |] eqn:Ed; cbn [rbind] in A2; [| discriminate].
      assert (e = DtD (combine (map fst fd) ds)) as -> by congruence. constructor. apply visit_each_get in Ed. clear -Ed.
      induction Ed; cbn [map combine]; constructor; [split; [reflexivity | assumption] | assumption].
    + apply shown_pointer; assumption.
    + apply shown_node; assumption.
    + apply shown_pointer; assumption.
    + assert (e = DtD []) as -> by congruence. apply shown_no_pointer; assumption.
    + apply shown_node; assumption.
    + assert (e = hk_none hk) as -> by congruence. apply shown_no_node; assumption.
Qed.

(* ------------------------------------------------------------- C67 *)
(* the hooks that never fail *)
Definition total_hooks (hk : hooks) : Prop := forall j d, exists e, hk_finish hk j d = Ok e.

Lemma visited_attribute k key name m : In (key, name, m) (visited k) -> exists s, In (name, s) (attributes k).
Proof. intro H. apply visited_copied in H. apply in_map_iff in H. destruct H as ([n c] & E & H). cbn in E. subst n. exact (copied_attribute _ _ _ H). Qed.
Lemma visited_shape k key name m s : In (key, name, m) (visited k) -> In (name, s) (attributes k) ->
  match s, m with
  | SPlain, AsIs | SNodes, VisitList | SNamed, VisitDict | (SOne | SOpt), (VisitData | VisitNode) => True
  | _, _ => False
  end.
Proof.
  assert (E : forallb (fun r : string * string * visit_mode => forallb (fun r' : string * shape =>
      negb (String.eqb (snd (fst r)) (fst r')) || match snd r', snd r with
        | SPlain, AsIs | SNodes, VisitList | SNamed, VisitDict | (SOne | SOpt), (VisitData | VisitNode) => true
        | _, _ => false end) (attributes k)) (visited k) = true) by (destruct k; vm_compute; reflexivity).
  intros H1 H2. rewrite forallb_forall in E. specialize (E _ H1). rewrite forallb_forall in E. specialize (E _ H2). cbn in E.
  rewrite String.eqb_refl in E. destruct s, m; cbn in E; try discriminate; exact I.
Qed.

(* A visit ends, and gives data, when there is no way from a node back to itself
   (through what it contains and what it mentions) and the nodes are not deeper than
   the interpreter allows. *)
Theorem C67_visits_end_partial hk kw h : total_hooks hk -> proper_heap h ->
  forall n l, visit_height h l n -> exists d, visit hk kw n h l = Ok d.
Proof.
  intros Hk Hp n. 
  assert (Hv : forall l, visit_height h l n -> exists d, visit_data hk kw n h l = Ok d).
  { induction n as [| n IH]; intros l Hh; inversion Hh as [i k o Eo Hc]; subst. cbn [visit_data]. rewrite Eo.
    pose proof (proj1 (Forall_forall _ _) Hp o (nth_error_In _ _ Eo)) as Hpo.
    match goal with |- exists d, rbind ?x _ = Ok d => enough (Er : exists rows, x = Ok rows) by (destruct Er as [rows ->]; cbn [rbind]; eauto) end.
    assert (Hin : forall key k m, In (key, k, m) (visited (o_kind o)) -> In (key, k, m) (visited (o_kind o))) by auto. revert Hin.
    generalize (visited (o_kind o)) at 1 3. intro rows. induction rows as [| [[key k] m] rows IHr]; intro Hin; cbn [visit_rows]; [eauto |].
    pose proof (Hin _ _ _ (or_introl eq_refl)) as Hrow. destruct (visited_attribute _ _ _ _ Hrow) as (s0 & Hs0).
    destruct (proper_has _ _ _ Hpo Hs0) as (f & Ef). rewrite Ef. destruct (proper_get _ _ _ Hpo Ef) as (s & Hs & Hof).
    pose proof (visited_shape _ _ _ _ _ Hrow Hs) as Hm.
    destruct (IHr ltac:(intros; apply Hin; right; assumption)) as [ds Eds]. rewrite Eds.
    assert (Hn : forall c, In c (refs f) -> (exists d, visit_data hk kw n h c = Ok d) /\ exists d, (let? d0 := visit_data hk kw n h c in finish hk h c d0) = Ok d).
    { intros c Hcin. pose proof (Hc k f c (fget_in _ _ _ Ef) Hcin) as Hhc. destruct (IH c Hhc) as [d Ed]. split; [eauto |]. rewrite Ed. cbn [rbind].
      inversion Hhc as [? ? oc Eoc _]; subst. unfold finish. rewrite Eoc. apply Hk. }
    assert (He : forall A (g : A -> nat) (l : list A), (forall a, In a l -> In (g a) (refs f)) ->
      exists ds0, visit_each (fun a => let? d0 := visit_data hk kw n h (g a) in finish hk h (g a) d0) l = Ok ds0).
    { intros A g l0. induction l0 as [| a l0 IHl]; intro Hl; cbn [visit_each]; [eauto |].
      destruct (proj2 (Hn (g a) (Hl a (or_introl eq_refl)))) as [d ->]. cbn [rbind].
      destruct (IHl ltac:(intros; apply Hl; right; assumption)) as [ds0 ->]. cbn [rbind]. eauto. }
    destruct s, m; try contradiction; destruct f as [v | fl | fd | [c |]]; cbn [of_shape] in Hof; try contradiction; cbn [visit_field rbind refs] in *; eauto.
    - destruct (He nat (fun c => c) fl ltac:(auto)) as [d Ed]. rewrite Ed. cbn [rbind]. eauto.
    - destruct (He (str * nat)%type snd fd ltac:(intros a Ha; exact (in_map snd _ _ Ha))) as [d Ed]. rewrite Ed. cbn [rbind]. eauto.
    - destruct (proj1 (Hn c (or_introl eq_refl))) as [d ->]. cbn [rbind]. eauto.
    - destruct (proj2 (Hn c (or_introl eq_refl))) as [d ->]. cbn [rbind]. eauto.
    - destruct (proj1 (Hn c (or_introl eq_refl))) as [d ->]. cbn [rbind]. eauto.
    - destruct (proj2 (Hn c (or_introl eq_refl))) as [d ->]. cbn [rbind]. eauto. }
  intros l Hh. unfold visit. destruct (Hv l Hh) as [d ->]. cbn [rbind]. destruct Hh as [i m o Eo _]. unfold finish. rewrite Eo. apply Hk.
Qed.

(* ------------------------------------------------------------- examples *)
Example C66_ex : exists d, visit_data (base_hooks (fun d => d)) (mkKwargs true true) 4 para_heap 1 = Ok (DtD d) /\
  nth_error para_heap 1 <> None /\ map fst d = map lit ["_type"; "args"; "kwargs"; "tags"; "internal_tags"; "subtype"; "_context"; "parent"; "content"; "labels"]%string.
Proof. eexists. split; [vm_compute; reflexivity |]. split; [vm_compute; discriminate | vm_compute; reflexivity]. Qed.

Example C67_ex : total_hooks (base_hooks (fun d => d)) /\ proper_heap para_heap /\ visit_height para_heap 0 5.
Proof.
  split; [intros j d; eexists; reflexivity |]. split.
  - repeat (apply Forall_cons; [repeat (apply Forall2_cons; [split; [reflexivity | exact I] |]); apply Forall2_nil |]). apply Forall_nil.
  - Ltac kids := intros ? ? ? Hin Hc; cbn in Hin; repeat destruct Hin as [Hin | Hin]; try contradiction; injection Hin as <- <-; cbn in Hc;
      repeat destruct Hc as [<- | Hc]; try contradiction.
    do 5 (eapply visit_height_node; [reflexivity | kids]).
Qed.

(* The header [= a [header](me)] named me: header.content has the macro, and the macro
   has the header (header_links_manager.py:49-65).  No visit ends. *)
Definition self_heap : heap :=
  [plain_obj KDocument None [("content", Nodes [1])];
   plain_obj KHeader (Some 0) [("level", Plain (VInt 1)); ("internal_id", Plain (VStr (lit "x"))); ("name", Plain (VStr (lit "me"))); ("content", Nodes [2]); ("labels", Named [])];
   plain_obj KMacroHeader (Some 1) [("target_name", Plain (VStr (lit "me"))); ("header", One (Some 1)); ("content", Nodes [3])];
   plain_obj KText (Some 2) [("value", Plain (VStr (lit "a")))]]%string.
Theorem C67_refuted hk kw n : exists e, visit hk kw n self_heap 0 = Exc e.
Proof.
  assert (H : forall n, (exists e, visit_data hk kw n self_heap 1 = Exc e) /\ exists e, visit_data hk kw n self_heap 2 = Exc e).
  { clear n. induction n as [| n [[e1 E1] [e2 E2]]]; [split; eexists; reflexivity |]. split.
    - cbn [visit_data nth_error self_heap plain_obj o_kind visited visit_rows fget o_fields String.eqb Ascii.eqb Bool.eqb visit_field visit_each rbind].
      fold self_heap. rewrite E2. cbn [rbind]. eauto.
    - cbn [visit_data nth_error self_heap plain_obj o_kind visited visit_rows fget o_fields String.eqb Ascii.eqb Bool.eqb visit_field visit_each rbind].
      fold self_heap. rewrite E1. cbn [rbind]. eauto. }
  destruct n as [| n]; [eexists; reflexivity |].
  unfold visit. cbn [visit_data nth_error self_heap plain_obj o_kind visited visit_rows fget o_fields String.eqb Ascii.eqb Bool.eqb visit_field visit_each rbind].
  fold self_heap. destruct (H n) as [[e1 E1] _]. rewrite E1. cbn [rbind]. eauto.
Qed.
