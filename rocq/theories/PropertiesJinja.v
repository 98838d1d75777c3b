(* PropertiesJinja.v -- C48, C49: the choice of a template *)
From Verif Require Import EnvFacts PropertiesEnv SpecJinja.
From Coq Require Import Lia.

(* ------------------------------------------------------------------ C49 *)
Lemma opt_eqb_spec a b : opt_eqb a b = true <-> a = b.
Proof.
  destruct a as [a|], b as [b|]; cbn; try (split; congruence).
  rewrite str_eqb_eq. split; congruence.
Qed.

Lemma custom_ok_spec claims fields : custom_ok claims fields = true <-> fields_hold claims fields.
Proof.
  unfold fields_hold. induction claims as [|[k v] r IH]; cbn; [split; [intros _ ? ? []|auto]|].
  destruct (dget k fields) as [w|] eqn:E.
  - rewrite andb_true_iff, IH, str_eqb_eq. split.
    + intros [-> H] k' v' [K|K]; [injection K as <- <-; exact E|auto].
    + intros H. split; [|auto]. specialize (H k v (or_introl eq_refl)). congruence.
  - split; [discriminate|]. intros H. specialize (H k v (or_introl eq_refl)). congruence.
Qed.

Lemma truthy_asks o (b : bool) (P : str -> Prop) :
  (forall s, o = Some s -> s <> [] -> (b = true <-> P s)) ->
  (truthy o && negb b = false <-> asks o P).
Proof.
  unfold asks. intros H. destruct o as [[|c s]|]; cbn.
  - split; [intros _ s K; injection K as <-; congruence|reflexivity].
  - specialize (H (c :: s) eq_refl ltac:(discriminate)). destruct b; cbn; split; try congruence.
    + intros _ s' K _. injection K as <-. apply H. reflexivity.
    + intros K. exfalso. specialize (K (c :: s) eq_refl ltac:(discriminate)). apply H in K. discriminate.
  - split; [intros _ s K; discriminate|reflexivity].
Qed.

Lemma tags_spec claims tags :
  nonempty claims && negb (forallb (fun g => mem_str g tags) claims) = false <-> (forall g, In g claims -> In g tags).
Proof.
  assert (K : forallb (fun g => mem_str g tags) claims = true <-> forall g, In g claims -> In g tags).
  { rewrite forallb_forall. split; intros H g Hg; apply mem_str_In; auto. }
  destruct claims as [|g r]; [cbn; tauto|]. cbn [nonempty andb]. rewrite negb_false_iff. exact K.
Qed.

Lemma if_false (b : bool) (X : bool) : (if b then false else X) = true <-> b = false /\ X = true.
Proof. destruct b; intuition congruence. Qed.

Theorem C49_match t n prefix : tpl_match t n prefix = true <-> applies t n prefix.
Proof.
  destruct n as [node parent]. unfold tpl_match, applies.
  rewrite !if_false, !negb_false_iff, custom_ok_spec, opt_eqb_spec.
  assert (Hty : nonempty (tp_type t) && negb (str_eqb (tp_type t) (fc_type node)) = false <->
                (tp_type t <> [] -> fc_type node = tp_type t)).
  { destruct (tp_type t) as [|c s]; cbn [nonempty andb]; [intuition congruence|].
    rewrite negb_false_iff, str_eqb_eq. intuition (try congruence). }
  rewrite Hty. rewrite (truthy_asks (tp_subtype t) _ (fun s => fc_subtype node = Some s)).
  2:{ intros s -> _. rewrite opt_eqb_spec. split; intros E; symmetry; exact E. }
  destruct parent as [p|].
  - rewrite !if_false, !negb_false_iff, custom_ok_spec, tags_spec.
    rewrite (truthy_asks (tp_parent_type t) _ (fun s => exists q, Some p = Some q /\ fc_type q = s)).
    2:{ intros s -> _. rewrite opt_eqb_spec. split.
        - intros K; exists p; split; [reflexivity|]. injection K as K. symmetry. exact K.
        - intros (q & K1 & K2). injection K1 as <-. rewrite K2. reflexivity. }
    rewrite (truthy_asks (tp_parent_subtype t) _ (fun s => exists q, Some p = Some q /\ fc_subtype q = Some s)).
    2:{ intros s -> _. rewrite opt_eqb_spec. split.
        - intros K; exists p; split; [reflexivity|]. symmetry. exact K.
        - intros (q & K1 & K2). injection K1 as <-. symmetry. exact K2. }
    assert (Hp : fields_hold (tp_parent_custom t) (fc_custom p) <->
                 (tp_parent_custom t <> [] -> exists q, Some p = Some q /\ fields_hold (tp_parent_custom t) (fc_custom q))).
    { split; [intros K _; exists p; auto|]. destruct (tp_parent_custom t) as [|kv r]; [intros _ ? ? []|].
      intros K. destruct K as (q & K1 & K2); [discriminate|]. injection K1 as <-. exact K2. }
    rewrite Hp. tauto.
  - rewrite !if_false, tags_spec.
    assert (Ha : forall o (P : str -> facet -> Prop), truthy o = false <-> asks o (fun s => exists q, @None facet = Some q /\ P s q)).
    { intros o P. unfold asks. destruct o as [[|c s]|]; cbn.
      - split; [intros _ s K; injection K as <-; congruence|reflexivity].
      - split; [discriminate|]. intros K. destruct (K (c :: s) eq_refl ltac:(discriminate)) as (q & K1 & _). discriminate.
      - split; [intros _ s K; discriminate|reflexivity]. }
    rewrite (Ha (tp_parent_type t) (fun s q => fc_type q = s)).
    rewrite (Ha (tp_parent_subtype t) (fun s q => fc_subtype q = Some s)).
    assert (Hp : nonempty (tp_parent_custom t) = false <->
       (tp_parent_custom t <> [] -> exists q, @None facet = Some q /\ fields_hold (tp_parent_custom t) (fc_custom q))).
    { destruct (tp_parent_custom t) as [|kv r]; cbn; [tauto|]. split; [discriminate|].
      intros K. destruct K as (q & K1 & _); discriminate. }
    rewrite Hp. tauto.
Qed.

(* ---- names *)
Lemma split_dunder_none s : forall cur, no_dunder s -> split_dunder cur s = [rev cur ++ s].
Proof.
  induction s as [|c s IH]; intros cur H; cbn; [rewrite app_nil_r; reflexivity|].
  destruct s as [|d s]; [reflexivity|].
  destruct ((c =? 95) && (d =? 95))%N eqn:E.
  - apply andb_true_iff in E as [E1 E2]. apply N.eqb_eq in E1, E2. subst. exfalso. apply H. exists [], s. reflexivity.
  - rewrite IH; [cbn; rewrite <- app_assoc; reflexivity|]. intros (a & b & K). apply H. exists (c :: a), b. rewrite K. reflexivity.
Qed.

Lemma split_dunder_kv k v : forall cur, key_like k -> no_dunder v -> split_dunder cur (k ++ lit "__" ++ v) = [rev cur ++ k; v].
Proof.
  induction k as [|c k IH]; intros cur [H1 H2] Hv.
  - cbn. rewrite split_dunder_none by exact Hv. rewrite app_nil_r. reflexivity.
  - assert (Hk : key_like k).
    { split; [intros (a & b & K); apply H1; exists (c :: a), b; rewrite K; reflexivity|].
      intros (a & K). apply H2. exists (c :: a). rewrite K. reflexivity. }
    specialize (IH (c :: cur) Hk Hv).
    destruct k as [|d k].
    + cbn [app lit map list_ascii_of_string] in *. cbn [split_dunder] in *.
      replace ((c =? 95) && _)%N with false; [exact IH || (cbn in IH |- *; rewrite <- app_assoc in IH; exact IH)|].
      symmetry. apply andb_false_iff. left. apply N.eqb_neq. intros ->. apply H2. exists []. reflexivity.
    + cbn [app]. cbn [app] in IH.
      change (split_dunder cur (c :: d :: (k ++ lit "__" ++ v))) with
        (if ((c =? 95) && (d =? 95))%N then rev cur :: split_dunder [] (k ++ lit "__" ++ v)
         else split_dunder (c :: cur) (d :: (k ++ lit "__" ++ v))).
      destruct ((c =? 95) && (d =? 95))%N eqn:E.
      * apply andb_true_iff in E as [E1 E2]. apply N.eqb_eq in E1, E2. subst. exfalso. apply H1. exists [], k. reflexivity.
      * rewrite IH. cbn [rev]. rewrite <- app_assoc. reflexivity.
Qed.

(* the effect of a claim *)
Definition with_claim (t : template) (c : claim) : template :=
  let '(mkTemplate ty co na st pf pt ps pc tg cu) := t in
  match c with
  | Subtype s => mkTemplate ty co na (Some s) pf pt ps pc tg cu
  | Custom k v => mkTemplate ty co na st pf pt ps pc tg (dset k v cu)
  | Prefix p => mkTemplate ty co na st (Some p) pt ps pc tg cu
  | ParentType s => mkTemplate ty co na st pf (Some s) ps pc tg cu
  | ParentSubtype s => mkTemplate ty co na st pf pt (Some s) pc tg cu
  | ParentCustom k v => mkTemplate ty co na st pf pt ps (dset k v pc) tg cu
  | Tag g => mkTemplate ty co na st pf pt ps pc (tg ++ [g]) cu
  end.

Lemma unmarked_not m s : unmarked s -> In m [lit "pt_"; lit "pts_"; lit "pf_"; lit "tg_"] -> startswith m s = false.
Proof.
  intros H Hm. destruct (startswith m s) eqn:E; [|reflexivity]. apply startswith_spec in E as [r E].
  exfalso. apply H. exists m, r. auto.
Qed.

Lemma add_part_written t c : plain c -> add_part t (written c) = with_claim t c.
Proof.
  destruct t as [ty co na st pf pt ps pc tg cu]. intros [_ H]. destruct c; cbn [written with_claim].
  - destruct H as (Hs & H1 & H2). unfold add_part.
    rewrite !unmarked_not by (try exact H2; cbn; tauto). rewrite split_dunder_none by exact H1. reflexivity.
  - destruct H as (H1 & H2 & H3). unfold add_part.
    rewrite !unmarked_not by (try exact H3; cbn; tauto). rewrite split_dunder_kv by assumption. reflexivity.
  - unfold add_part. rewrite startswith_app, removeprefix_app. reflexivity.
  - unfold add_part. rewrite startswith_app, removeprefix_app. reflexivity.
  - destruct H as (Hs & H1). unfold add_part. rewrite startswith_app, removeprefix_app.
    rewrite split_dunder_none by exact H1. reflexivity.
  - destruct H as (H1 & H2). unfold add_part. rewrite startswith_app, removeprefix_app.
    rewrite split_dunder_kv by assumption. reflexivity.
  - unfold add_part. rewrite startswith_app, removeprefix_app. reflexivity.
Qed.

Lemma from_written ty cs content : ty <> [] -> dotless ty -> Forall plain cs ->
  from_name (template_name ty cs) content =
  Ok (fold_left with_claim cs (mkTemplate ty content (template_name ty cs) None None None None [] [] [])).
Proof.
  intros Hn Hd Hp. unfold from_name. unfold template_name at 1. rewrite split_join; [|discriminate|].
  2:{ constructor; [exact Hd|]. apply Forall_map. eapply Forall_impl; [|exact Hp]. intros c [K _]. exact K. }
  destruct ty as [|c ty]; [congruence|]. cbn [nonempty]. f_equal.
  generalize (mkTemplate (c :: ty) content (template_name (c :: ty) cs) None None None None [] [] []).
  induction Hp as [|x cs Hx _ IH]; intros t; [reflexivity|]. cbn [map fold_left]. rewrite add_part_written by exact Hx. apply IH.
Qed.

Lemma name_error name content :
  (exists t, from_name name content = Ok t) \/
  (from_name name content = Exc (ExPy "ValueError") /\ (name = [] \/ exists r, name = DOT :: r)).
Proof.
  unfold from_name. destruct name as [|c s]; [right; cbn; auto|]. cbn [split_on].
  destruct (N.eqb_spec c DOT) as [->|Hc].
  - cbn. right. split; [reflexivity|]. right. exists s. reflexivity.
  - destruct (split_on DOT s) as [|p ps] eqn:E; [exfalso; exact (split_on_nonnil _ _ E)|].
    cbn. left. eexists. reflexivity.
Qed.

Theorem C49_names name content :
  (exists t, from_name name content = Ok t /\ tp_name t = name /\ tp_content t = content) \/
  (from_name name content = Exc (ExPy "ValueError") /\ (name = [] \/ exists r, name = DOT :: r)).
Proof.
  destruct (name_error name content) as [[t E]|H]; [left|right; exact H]. exists t. split; [exact E|].
  unfold from_name in E. destruct (split_on DOT name) as [|ty parts]; [discriminate|].
  destruct (nonempty ty); [|discriminate]. injection E as <-.
  set (t0 := mkTemplate _ _ _ _ _ _ _ _ _ _).
  assert (K : tp_name t0 = name /\ tp_content t0 = content) by (split; reflexivity). revert K. generalize t0.
  induction parts as [|p parts IH]; intros t K; [exact K|]. cbn [fold_left]. apply IH.
  destruct t as [a b c d e f g h i j]. cbn in K. unfold add_part.
  repeat match goal with |- context[if ?b then _ else _] => destruct b end; try exact K;
    destruct (split_dunder _ _) as [|x [|y [|]]]; exact K.
Qed.

Definition abouts (cs : list claim) := flat_map (fun c => match about c with Some a => [a] | None => [] end) cs.
Definition bare (ty : str) (content : env_val) (name : str) : template := mkTemplate ty content name None None None None [] [] [].

Record carries (t : template) (cs : list claim) : Prop := mkCarries {
  cr_subtype : forall s, tp_subtype t = Some s <-> In (Subtype s) cs;
  cr_prefix : forall s, tp_prefix t = Some s <-> In (Prefix s) cs;
  cr_ptype : forall s, tp_parent_type t = Some s <-> In (ParentType s) cs;
  cr_psub : forall s, tp_parent_subtype t = Some s <-> In (ParentSubtype s) cs;
  cr_custom : forall k v, In (k, v) (tp_custom t) <-> In (Custom k v) cs;
  cr_pcustom : forall k v, In (k, v) (tp_parent_custom t) <-> In (ParentCustom k v) cs;
  cr_tags : forall g, In g (tp_tags t) <-> In (Tag g) cs;
  cr_n_custom : length (tp_custom t) = how_many is_custom cs;
  cr_n_pcustom : length (tp_parent_custom t) = how_many is_parent_custom cs;
  cr_n_tags : length (tp_tags t) = how_many is_tag cs;
  cr_n_subtype : how_many is_subtype cs = match tp_subtype t with Some _ => 1 | None => 0 end;
  cr_n_prefix : how_many is_prefix cs = match tp_prefix t with Some _ => 1 | None => 0 end;
  cr_n_ptype : how_many is_parent_type cs = match tp_parent_type t with Some _ => 1 | None => 0 end;
  cr_n_psub : how_many is_parent_subtype cs = match tp_parent_subtype t with Some _ => 1 | None => 0 end }.

Lemma abouts_in c cs a : In c cs -> about c = Some a -> In a (abouts cs).
Proof. intros H K. apply in_flat_map. exists c. rewrite K. split; [exact H|left; reflexivity]. Qed.

Lemma dset_carries (P : str -> str -> claim) (d : dict str) (cs : list claim) k v :
  (forall k v, In (k, v) d <-> In (P k v) cs) ->
  (forall v', ~ In (P k v') cs) -> dset k v d = d ++ [(k, v)].
Proof.
  intros H Hn. apply dset_new. intros K. apply in_map_iff in K as ([k' v'] & E & K). cbn in E. subst.
  apply H in K. exact (Hn _ K).
Qed.

Lemma snoc_iff {A} (x y : A) l : In x (l ++ [y]) <-> In x l \/ y = x.
Proof. rewrite in_app_iff. cbn. tauto. Qed.

Lemma how_snoc k cs c : how_many k (cs ++ [c]) = how_many k cs + (if k c then 1 else 0).
Proof. unfold how_many. rewrite filter_app, app_length. cbn. destruct (k c); reflexivity. Qed.

Lemma nodup_app_l {A} (l m : list A) : NoDup (l ++ m) -> NoDup l.
Proof.
  induction l as [|a l IH]; cbn; intros H; [constructor|]. inversion H as [|x y Hx Hy]; subst.
  constructor; [|auto]. intros K. apply Hx, in_app_iff. left; exact K.
Qed.

Ltac finish_carried Hnew K5 K6 cs :=
  try match goal with
    | |- Some _ = Some _ <-> In ?c cs \/ _ =>
        assert (N : ~ In c cs) by (intros HH; exact (Hnew _ _ eq_refl HH eq_refl));
        split; [intros E; right; injection E as ->; reflexivity|intros [E|E]; [contradiction|injection E as ->; reflexivity]]
    | |- _ + 1 = 1 => 
        match goal with
        | E : ?a = match ?o with Some _ => 1 | None => 0 end, I : forall s, ?o = Some s <-> In _ cs |- ?a + 1 = 1 =>
            rewrite E; destruct o as [x|]; [|reflexivity]; exfalso; pose proof (proj1 (I x) eq_refl) as HH;
            exact (Hnew _ _ eq_refl HH eq_refl)
        end
    | |- In _ (dset ?k ?v ?d) <-> _ =>
        first [rewrite (dset_carries Custom d cs k v K5) by (intros v' HH; exact (Hnew _ _ eq_refl HH eq_refl))
              |rewrite (dset_carries ParentCustom d cs k v K6) by (intros v' HH; exact (Hnew _ _ eq_refl HH eq_refl))];
        rewrite snoc_iff, <- ?K5, <- ?K6;
        split; (intros [E|E]; [left; exact E|right; injection E as -> ->; reflexivity])
    | |- length (dset ?k ?v ?d) = _ =>
        first [rewrite (dset_carries Custom d cs k v K5) by (intros v' HH; exact (Hnew _ _ eq_refl HH eq_refl))
              |rewrite (dset_carries ParentCustom d cs k v K6) by (intros v' HH; exact (Hnew _ _ eq_refl HH eq_refl))];
        rewrite app_length; cbn; congruence
    end.

Lemma carried ty content name cs : consistent cs -> carries (fold_left with_claim cs (bare ty content name)) cs.
Proof.
  induction cs as [|c cs IH] using rev_ind; intros H.
  { constructor; cbn; intros; try reflexivity; split; intros K; try discriminate K; contradiction. }
  rewrite fold_left_app. cbn [fold_left].
  assert (Hc : consistent cs).
  { unfold consistent in *. rewrite flat_map_app in H. exact (nodup_app_l _ _ H). }
  assert (Hnew : forall a c', about c = Some a -> In c' cs -> about c' <> Some a).
  { intros a c' Ea Hin Ea'. unfold consistent in H. rewrite flat_map_app in H. cbn in H. rewrite Ea in H.
    apply NoDup_remove_2 in H. apply H. rewrite app_nil_r. apply (abouts_in c' cs a Hin Ea'). }
  clear H. specialize (IH Hc). revert IH. generalize (fold_left with_claim cs (bare ty content name)). intros t K.
  destruct t as [ty' co na st pf pt ps pc tg cu].
  destruct K as [K1 K2 K3 K4 K5 K6 K7 K8 K9 K10 K11 K12 K13 K14]; cbn in *.
  destruct c; cbn [with_claim];
    constructor; cbn [tp_subtype tp_prefix tp_parent_type tp_parent_subtype tp_custom tp_parent_custom tp_tags];
    intros; rewrite ?snoc_iff, ?how_snoc; cbn [is_subtype is_custom is_prefix is_parent_type is_parent_subtype is_parent_custom is_tag];
    rewrite ?Nat.add_0_r; auto;
    try match goal with
    | H : forall s, _ <-> In (?C s) ?cs |- ?a <-> In (?C ?s) ?cs \/ _ => rewrite <- H; intuition congruence
    | H : forall k v, _ <-> In (?C k v) ?cs |- ?a <-> In (?C ?k ?v) ?cs \/ _ => rewrite <- H; intuition congruence
    end.
  all: match goal with
       | Hnew : forall a c', about _ = Some a -> In c' ?cs -> _, K5 : forall k v, _ <-> In (Custom k v) ?cs, K6 : forall k v, _ <-> In (ParentCustom k v) ?cs |- _ =>
         finish_carried Hnew K5 K6 cs end.
  rewrite app_length; cbn; congruence.
Qed.

Lemma kept ty content name cs : tp_type (fold_left with_claim cs (bare ty content name)) = ty.
Proof.
  assert (K : forall t, tp_type (fold_left with_claim cs t) = tp_type t).
  { induction cs as [|c cs IH]; intros t; [reflexivity|]. cbn. rewrite IH. destruct t, c; reflexivity. }
  apply K.
Qed.

(* A template named after its type and its claims, in any order, is used for the
   nodes of that type of which all the claims hold. *)
Theorem C49_claims ty cs content : ty <> [] -> dotless ty -> Forall plain cs -> consistent cs ->
  exists t, from_name (template_name ty cs) content = Ok t /\
    forall n prefix, tpl_match t n prefix = true <->
      fc_type (fst n) = ty /\ Forall (holds n prefix) cs /\ ((forall p, ~ In (Prefix p) cs) -> prefix = None).
Proof.
  intros Hn Hd Hp Hc. rewrite from_written by assumption. eexists. split; [reflexivity|]. intros n prefix.
  rewrite C49_match. fold (bare ty content (template_name ty cs)).
  pose proof (carried ty content (template_name ty cs) cs Hc) as [K1 K2 K3 K4 K5 K6 K7 _ _ _ _ _ _ _].
  pose proof (kept ty content (template_name ty cs) cs) as Kt. revert K1 K2 K3 K4 K5 K6 K7 Kt.
  generalize (fold_left with_claim cs (bare ty content (template_name ty cs))). intros t K1 K2 K3 K4 K5 K6 K7 Kt.
  destruct n as [node parent]. unfold applies. cbn [fst]. rewrite Kt. rewrite Forall_forall in *. split.
  - intros (H1 & H2 & H3 & H4 & H5 & H6 & H7 & H8). split; [auto|]. split.
    + intros c Hin. pose proof (Hp c Hin) as [_ Hpl]. destruct c; cbn.
      * apply H3; [apply K1, Hin|apply Hpl].
      * apply H4, K5, Hin.
      * rewrite <- H2. apply K2, Hin.
      * apply H6; [apply K3, Hin|apply Hpl].
      * apply H7; [apply K4, Hin|apply Hpl].
      * destruct H8 as (p & E & H8).
        { intros E. apply K6 in Hin. rewrite E in Hin. exact Hin. }
        exists p. split; [exact E|]. apply H8, K6, Hin.
      * apply H5, K7, Hin.
    + intros Hno. rewrite <- H2. destruct (tp_prefix t) as [p|] eqn:E; [|reflexivity].
      exfalso. apply (Hno p), K2. reflexivity.
  - intros (H1 & H2 & H3). split; [auto|]. split.
    + destruct (tp_prefix t) as [p|] eqn:E.
      * symmetry. apply (H2 (Prefix p)). apply K2. reflexivity.
      * symmetry. apply H3. intros p Hin. apply K2 in Hin. discriminate.
    + split; [intros s Es _; apply (H2 (Subtype s)), K1, Es|].
      split; [intros k v Hin; apply (H2 (Custom k v)), K5, Hin|].
      split; [intros g Hin; apply (H2 (Tag g)), K7, Hin|].
      split; [intros s Es _; apply (H2 (ParentType s)), K3, Es|].
      split; [intros s Es _; apply (H2 (ParentSubtype s)), K4, Es|].
      intros Hne. destruct (tp_parent_custom t) as [|[k v] r] eqn:E; [congruence|].
      assert (Hf : forall k v, In (k, v) (tp_parent_custom t) -> exists p, parent = Some p /\ dget k (fc_custom p) = Some v).
      { intros k' v' Hin. apply (H2 (ParentCustom k' v')), K6. rewrite <- E. exact Hin. }
      rewrite E in Hf. destruct (Hf k v (or_introl eq_refl)) as (p & Ep & _). exists p. split; [exact Ep|].
      intros k' v' Hin. destruct (Hf k' v' Hin) as (q & Eq & Hq). rewrite Ep in Eq. injection Eq as <-. exact Hq.
Qed.

(* How specific it is: the numbers of claims of each kind. *)
Theorem C48_counts ty cs content : ty <> [] -> dotless ty -> Forall plain cs -> consistent cs -> ~ In (Prefix []) cs ->
  exists t, from_name (template_name ty cs) content = Ok t /\
    counts t = map (fun kind => how_many kind cs)
      [is_custom; is_subtype; is_prefix; is_parent_type; is_parent_custom; is_parent_subtype; is_tag].
Proof.
  intros Hn Hd Hp Hc Hpf. rewrite from_written by assumption. eexists. split; [reflexivity|].
  fold (bare ty content (template_name ty cs)).
  pose proof (carried ty content (template_name ty cs) cs Hc) as K. revert K.
  generalize (fold_left with_claim cs (bare ty content (template_name ty cs))). intros t [K1 K2 K3 K4 _ _ _ N1 N2 N3 N4 N5 N6 N7].
  unfold counts. cbn [map]. rewrite N1, N2, N3, N4, N5, N6, N7. rewrite Forall_forall in Hp.
  assert (E1 : flag (truthy (tp_subtype t)) = match tp_subtype t with Some _ => 1 | None => 0 end).
  { destruct (tp_subtype t) as [[|a s]|] eqn:E; try reflexivity. exfalso. destruct (Hp _ (proj1 (K1 []) eq_refl)) as [_ [H _]]. congruence. }
  assert (E2 : flag (truthy (tp_prefix t)) = match tp_prefix t with Some _ => 1 | None => 0 end).
  { destruct (tp_prefix t) as [[|a s]|] eqn:E; try reflexivity. exfalso. apply Hpf, K2. reflexivity. }
  assert (E3 : flag (truthy (tp_parent_type t)) = match tp_parent_type t with Some _ => 1 | None => 0 end).
  { destruct (tp_parent_type t) as [[|a s]|] eqn:E; try reflexivity. exfalso. destruct (Hp _ (proj1 (K3 []) eq_refl)) as [_ H]. congruence. }
  assert (E4 : flag (truthy (tp_parent_subtype t)) = match tp_parent_subtype t with Some _ => 1 | None => 0 end).
  { destruct (tp_parent_subtype t) as [[|a s]|] eqn:E; try reflexivity. exfalso. destruct (Hp _ (proj1 (K4 []) eq_refl)) as [_ [H _]]. congruence. }
  rewrite E1, E2, E3, E4. reflexivity.
Qed.

(* ------------------------------------------------------------------ C48 *)
Definition lex_gt (a b : list nat) : Prop := exists same x y p q, a = same ++ x :: p /\ b = same ++ y :: q /\ y < x.

Lemma tuple_lt_spec a : forall b, length a = length b -> (tuple_lt a b = true <-> lex_gt b a).
Proof.
  induction a as [|x a IH]; intros [|y b] H; cbn [tuple_lt length] in *; try discriminate.
  - split; [discriminate|]. intros (s & ? & ? & ? & ? & E & _). destruct s; discriminate.
  - destruct (Nat.eqb_spec x y) as [->|Hn].
    + rewrite IH by congruence. split.
      * intros (s & u & v & p & q & -> & -> & L). exists (y :: s), u, v, p, q. auto.
      * intros ([|z s] & u & v & p & q & E1 & E2 & L); cbn in *.
        -- injection E1 as -> ->. injection E2 as -> ->. lia.
        -- injection E1 as -> ->. injection E2 as ->. exists s, u, v, p, q. auto.
    + rewrite Nat.ltb_lt. split.
      * intros L. exists [], y, x, b, a. auto.
      * intros ([|z s] & u & v & p & q & E1 & E2 & L); cbn in *.
        -- injection E1 as -> ->. injection E2 as -> ->. exact L.
        -- injection E1 as -> ->. injection E2 as -> ->. congruence.
Qed.

Lemma spec_lt t u : tuple_lt (specificity t) (specificity u) = true <-> more_specific u t.
Proof. apply tuple_lt_spec. reflexivity. Qed.

Lemma tuple_lt_trans a : forall b c, tuple_lt a b = true -> tuple_lt b c = true -> tuple_lt a c = true.
Proof.
  induction a as [|x a IH]; intros [|y b] [|z c]; cbn [tuple_lt length]; try discriminate; try reflexivity.
  destruct (Nat.eqb_spec x y) as [->|H1], (Nat.eqb_spec y z) as [->|H2]; intros A B.
  - rewrite ?Nat.eqb_refl. eauto.
  - destruct (Nat.eqb_spec y z); [congruence|]. exact B.
  - destruct (Nat.eqb_spec x z); [congruence|]. exact A.
  - destruct (Nat.eqb_spec x z) as [->|]; [apply Nat.ltb_lt in A, B; lia|]. apply Nat.ltb_lt. apply Nat.ltb_lt in A, B; lia.
Qed.
Lemma tuple_lt_neg a : forall b c, length a = length b -> length b = length c ->
  tuple_lt a b = false -> tuple_lt b c = false -> tuple_lt a c = false.
Proof.
  induction a as [|x a IH]; intros [|y b] [|z c]; cbn [tuple_lt length]; try discriminate; try reflexivity.
  intros L1 L2. injection L1 as L1. injection L2 as L2.
  destruct (Nat.eqb_spec x y) as [->|H1], (Nat.eqb_spec y z) as [->|H2]; rewrite ?Nat.ltb_ge in *; intros A B; rewrite ?Nat.ltb_ge in A, B.
  - rewrite ?Nat.eqb_refl. eauto.
  - destruct (Nat.eqb_spec y z); [congruence|]. apply Nat.ltb_ge. lia.
  - destruct (Nat.eqb_spec x z); [congruence|]. apply Nat.ltb_ge. lia.
  - destruct (Nat.eqb_spec x z) as [->|]; [lia|]. apply Nat.ltb_ge. lia.
Qed.


Definition lt (t u : template) : bool := tuple_lt (specificity t) (specificity u).
Lemma lt_trans a b c : lt a b = true -> lt b c = true -> lt a c = true.
Proof. apply tuple_lt_trans. Qed.
Lemma lt_neg a b c : lt a b = false -> lt b c = false -> lt a c = false.
Proof. apply tuple_lt_neg; reflexivity. Qed.
Lemma lt_irrefl a : lt a a = false.
Proof.
  unfold lt. generalize (specificity a). induction l as [|x l IH]; [reflexivity|]. cbn. rewrite Nat.eqb_refl. exact IH.
Qed.

(* the first element of a list that is good, and no later one is more specific *)
Fixpoint sorted (l : list template) : Prop :=
  match l with [] => True | t :: r => (forall u, In u r -> lt t u = false) /\ sorted r end.

Lemma insert_in t l u : In u (insert_tpl t l) <-> t = u \/ In u l.
Proof.
  induction l as [|v l IH]; [cbn; tauto|]. cbn [insert_tpl In]. fold (lt t v). destruct (lt t v); cbn [In]; [rewrite IH; tauto|tauto].
Qed.
Lemma sort_in l u : In u (sort_templates l) <-> In u l.
Proof. induction l as [|t l IH]; [cbn; tauto|]. cbn [sort_templates fold_right In]. fold (sort_templates l). rewrite insert_in. rewrite IH. tauto. Qed.

Lemma insert_sorted t l : sorted l -> sorted (insert_tpl t l).
Proof.
  induction l as [|v l IH]; cbn [insert_tpl sorted]; [cbn; tauto|]. intros [H1 H2]. fold (lt t v).
  destruct (lt t v) eqn:E; cbn [sorted].
  - split; [|auto]. intros u Hu. apply insert_in in Hu as [<-|Hu]; [|auto].
    destruct (lt v t) eqn:E2; [|reflexivity]. rewrite <- (lt_irrefl t). symmetry. exact (lt_trans _ _ _ E E2).
  - split; [|auto]. intros u [<-|Hu]; [exact E|]. exact (lt_neg _ _ _ E (H1 u Hu)).
Qed.
Lemma sort_sorted l : sorted (sort_templates l).
Proof. induction l as [|t l IH]; [exact I|]. apply insert_sorted, IH. Qed.

(* the first good element after sorting is the best of the list *)
Section Best.
  Context (good : template -> Prop) (goodb : template -> bool).
  Context (Hg : forall t, goodb t = true <-> good t).

  Lemma best_cons_good t l : good t -> (forall u, In u l -> good u -> lt t u = false) -> best (t :: l) good t.
  Proof.
    intros H K. exists [], l. split; [reflexivity|]. split; [exact H|]. split; [intros u []|].
    intros u Hu Hgu M. apply spec_lt in M. fold (lt t u) in M. rewrite K in M by assumption. discriminate.
  Qed.

  Lemma insert_filter t l : sorted l ->
    match filter goodb (insert_tpl t l) with
    | [] => goodb t = false /\ filter goodb l = []
    | u :: _ =>
        (goodb t = true /\ u = t /\ forall w, In w l -> good w -> lt t w = false) \/
        (exists r, filter goodb l = u :: r /\ (goodb t = true -> lt t u = true))
    end.
  Proof.
    induction l as [|v l IH]; intros Hs.
    - cbn. destruct (goodb t) eqn:E; [left|auto]. split; [reflexivity|]. split; [reflexivity|]. intros w [].
    - destruct Hs as [H1 H2]. specialize (IH H2). cbn [insert_tpl]. fold (lt t v). destruct (lt t v) eqn:E.
      + cbn [filter]. destruct (goodb v) eqn:Ev.
        * right. eexists. split; [reflexivity|]. intros _. exact E.
        * destruct (filter goodb (insert_tpl t l)) as [|u r]; [exact IH|]. destruct IH as [(A & -> & B)|IH]; [left|right; exact IH].
          split; [exact A|]. split; [reflexivity|]. intros w [<-|Hw] Hgw; [|auto]. apply Hg in Hgw. congruence.
      + cbn [filter]. destruct (goodb t) eqn:Et.
        * left. split; [reflexivity|]. split; [reflexivity|]. intros w [<-|Hw] _; [exact E|]. exact (lt_neg _ _ _ E (H1 w Hw)).
        * destruct (goodb v) eqn:Ev.
          -- right. eexists. split; [reflexivity|]. discriminate.
          -- destruct (filter goodb l) as [|u r]; [auto|]. right. exists r. split; [reflexivity|discriminate].
  Qed.

  Lemma sort_best l :
    match filter goodb (sort_templates l) with
    | [] => forall u, In u l -> ~ good u
    | t :: _ => best l good t
    end.
  Proof.
    induction l as [|t l IH]; [intros u []|]. cbn [sort_templates fold_right]. fold (sort_templates l).
    pose proof (insert_filter t (sort_templates l) (sort_sorted l)) as K.
    destruct (filter goodb (insert_tpl t (sort_templates l))) as [|u r].
    - destruct K as [K1 K2]. rewrite K2 in IH. intros u [<-|Hu] Hgu; [apply Hg in Hgu; congruence|]. exact (IH u Hu Hgu).
    - destruct K as [(K1 & -> & K2)|(r' & K1 & K2)].
      + apply best_cons_good; [apply Hg, K1|]. intros w Hw. apply K2, sort_in, Hw.
      + rewrite K1 in IH. destruct IH as (b & a & -> & H1 & H2 & H3). exists (t :: b), a.
        split; [reflexivity|]. split; [exact H1|]. split; [|exact H3].
        intros w [<-|Hw] Hgw; [|exact (H2 w Hw Hgw)]. apply spec_lt. apply K2, Hg, Hgw.
  Qed.

  Lemma best_unique l t u : best l good t -> best l good u -> t = u.
  Proof.
    intros (b & a & E & H1 & H2 & H3) (b' & a' & E' & H1' & H2' & H3'). subst l.
    apply app_eq_app in E' as (m & [[-> E]|[-> E]]).
    - destruct m as [|x m]; [cbn in E; congruence|]. cbn in E. injection E as <- ->.
      exfalso. apply (H3' t); [apply in_or_app; right; left; reflexivity|exact H1|].
      apply H2; [apply in_or_app; right; left; reflexivity|exact H1'].
    - destruct m as [|x m]; [cbn in E; congruence|]. cbn in E. injection E as <- ->.
      exfalso. apply (H3 u); [apply in_or_app; right; left; reflexivity|exact H1'|].
      apply H2'; [apply in_or_app; right; left; reflexivity|exact H1].
  Qed.
End Best.

Lemma fits_spec n p t : str_eqb (tp_type t) (fc_type (fst n)) && tpl_match t n p = true <-> fits n p t.
Proof. unfold fits. rewrite andb_true_iff, str_eqb_eq, C49_match. reflexivity. Qed.

Lemma filter_filter {A} (f g : A -> bool) l : filter f (filter g l) = filter (fun x => g x && f x) l.
Proof. induction l as [|a l IH]; cbn; [reflexivity|]. destruct (g a); cbn; [destruct (f a); rewrite IH; reflexivity|exact IH]. Qed.

Lemma chosen_unique ts prefixes n t u : chosen ts prefixes n t -> chosen ts prefixes n u -> t = u.
Proof.
  intros (b & p & a & E & H1 & H2) (b' & p' & a' & E' & H1' & H2'). rewrite E in E'.
  assert (G : forall (x : template) q, best ts (fits n q) x -> In x ts /\ fits n q x).
  { intros x q (l & r & -> & K & _). split; [apply in_or_app; right; left; reflexivity|exact K]. }
  apply app_eq_app in E' as (m & [[-> E2]|[-> E2]]).
  - destruct m as [|x m]; cbn in E2; [injection E2 as -> _; exact (best_unique _ _ _ _ H2 H2')|].
    injection E2 as <- ->. exfalso. destruct (G u p' H2') as [G1 G2].
    refine (H1 p' u _ G1 G2). apply in_or_app; right; left; reflexivity.
  - destruct m as [|x m]; cbn in E2; [injection E2 as -> _; exact (best_unique _ _ _ _ H2 H2')|].
    injection E2 as <- ->. exfalso. destruct (G t p H2) as [G1 G2].
    refine (H1' p t _ G1 G2). apply in_or_app; right; left; reflexivity.
Qed.

(* what a search through the prefixes finds *)
Lemma search ts n ps :
  match flat_map (fun p => matching (mkJvisitor (sort_templates ts) FDefault) n p) ps with
  | [] => forall q u, In q ps -> In u ts -> ~ fits n q u
  | t :: _ => exists b p a, ps = b ++ p :: a /\ (forall q u, In q b -> In u ts -> ~ fits n q u) /\ best ts (fits n p) t
  end.
Proof.
  induction ps as [|p ps IH]; [intros q u []|]. cbn [flat_map]. unfold matching at 1. cbn [jv_templates].
  rewrite filter_filter. pose proof (sort_best (fits n p) _ (fits_spec n p) ts) as K.
  destruct (filter _ (sort_templates ts)) as [|t r].
  - cbn [app]. destruct (flat_map _ ps) as [|t r].
    + intros q u [<-|Hq] Hu; [exact (K u Hu)|exact (IH q u Hq Hu)].
    + destruct IH as (b & q & a & -> & H1 & H2). exists (p :: b), q, a. split; [reflexivity|]. split; [|exact H2].
      intros q' u [<-|Hq] Hu; [exact (K u Hu)|exact (H1 q' u Hq Hu)].
  - cbn [app]. exists [], p, ps. split; [reflexivity|]. split; [intros q u []|exact K].
Qed.

Theorem C48_chosen jc e flat ts v prefixes n err :
  all_templates jc e = Ok flat -> build_templates (jc_extension jc) flat = Ok ts ->
  jinja_init jc e = Ok v -> iter_value (env_get e (lit "mau.visitor.templates.prefixes")) = Ok prefixes ->
  (forall t, find_template v n err = Ok t <-> chosen ts prefixes n t) /\
  (forall x, find_template v n err = Exc x <-> x = err /\ forall t, ~ chosen ts prefixes n t).
Proof.
  unfold jinja_init. generalize (env_get e (lit "mau.visitor.templates.prefixes")). intros cfg Hf Hb Hi Hp. rewrite Hf in Hi. cbn in Hi. rewrite Hb in Hi. cbn in Hi. injection Hi as <-.
  unfold find_template. cbn [jv_prefixes]. rewrite Hp. cbn [rbind].
  assert (E : flat_map (fun p => matching (mkJvisitor (sort_templates ts) cfg) n (Some p)) prefixes ++
              matching (mkJvisitor (sort_templates ts) cfg) n None =
              flat_map (fun p => matching (mkJvisitor (sort_templates ts) FDefault) n p) (map Some prefixes ++ [None])).
  { rewrite flat_map_app. cbn. rewrite app_nil_r. f_equal.
    induction prefixes as [|p ps IH]; [reflexivity|]. cbn. f_equal. clear. induction ps as [|q ps IH]; [reflexivity|]. cbn. f_equal. exact IH. }
  rewrite E. pose proof (search ts n (map Some prefixes ++ [None])) as K. revert K.
  generalize (flat_map (fun p => matching (mkJvisitor (sort_templates ts) FDefault) n p) (map Some prefixes ++ [None])).
  intros [|t r] K.
  - assert (N : forall t, ~ chosen ts prefixes n t).
    { intros t (b & p & a & E1 & _ & l & r & -> & G & _). apply (K p t); [rewrite E1; apply in_or_app; right; left; reflexivity| |exact G].
      apply in_or_app; right; left; reflexivity. }
    split; [intros t; split; [discriminate|intros H; destruct (N t H)]|].
    intros x. split; [intros H; injection H as <-; auto|intros [-> _]; reflexivity].
  - assert (C : chosen ts prefixes n t) by exact K.
    split; [intros u; split; [intros H; injection H as <-; exact C|intros H; f_equal; exact (chosen_unique _ _ _ _ _ C H)]|].
    intros x. split; [discriminate|]. intros [_ H]. destruct (H t C).
Qed.

(* The templates of the visitor: one for each name with the extension. *)
Lemma removesuffix_app suf s : removesuffix suf (s ++ suf) = s.
Proof.
  unfold removesuffix. replace (endswith suf (s ++ suf)) with true by (symmetry; apply endswith_spec; exists s; reflexivity).
  rewrite app_length, Nat.add_sub. rewrite firstn_app, Nat.sub_diag, firstn_all, firstn_O, app_nil_r. reflexivity.
Qed.

Theorem C48_loaded extension flat ts : build_templates extension flat = Ok ts ->
  forall t, In t ts <-> exists base content, In (base ++ extension, content) flat /\ from_name base content = Ok t.
Proof.
  revert ts. induction flat as [|[name content] flat IH]; intros ts H t; cbn [build_templates] in H.
  { injection H as <-. split; [intros []|intros (b & c & [] & _)]. }
  destruct (endswith extension name) eqn:E.
  - apply endswith_spec in E as [base ->]. rewrite removesuffix_app in H.
    destruct (from_name base content) as [t0|] eqn:E0; [|discriminate]. cbn [rbind] in H.
    destruct (build_templates extension flat) as [ts0|]; [|discriminate]. cbn [rbind] in H. injection H as <-.
    specialize (IH ts0 eq_refl t). cbn [In]. rewrite IH. split.
    + intros [<-|(b & c & H1 & H2)]; [exists base, content|exists b, c]; auto.
    + intros (b & c & [H1|H1] & H2); [|right; exists b, c; auto].
      injection H1 as H1 <-. apply app_inv_tail in H1 as <-. left. congruence.
  - specialize (IH ts H t). rewrite IH. split; intros (b & c & H1 & H2); exists b, c.
    + split; [right; exact H1|exact H2].
    + destruct H1 as [H1|H1]; [|auto]. injection H1 as -> _. exfalso.
      assert (endswith extension (b ++ extension) = true) by (apply endswith_spec; exists b; reflexivity). congruence.
Qed.

(* Where a template comes from: the custom ones, then the files, then the providers,
   then the defaults. *)
Fixpoint first_some {A} (l : list (option A)) : option A :=
  match l with [] => None | Some a :: _ => Some a | None :: r => first_some r end.

Definition in_dict (k : str) (d : dict env_val) : option env_val := dget k (env_from_dict d None).
Definition in_provider (jc : jconfig) (k name : str) : option env_val :=
  match dget name (jc_providers jc) with Some d => in_dict k d | None => None end.
Definition in_path (jc : jconfig) (k path : str) : option env_val :=
  match path with [] => None | _ => match jc_path jc path with Ok d => in_dict k d | Exc _ => None end end.

Lemma first_some_app {A} (l m : list (option A)) :
  first_some (l ++ m) = match first_some l with Some a => Some a | None => first_some m end.
Proof. induction l as [|[a|] l IH]; cbn; auto. Qed.

Lemma load_each_spec load names : forall e r k, flat_env e -> load_each load names e = Ok r ->
  flat_env r /\
  dget k r = first_some (map (fun n => match load n with Ok d => in_dict k d | Exc _ => None end) (rev names) ++ [dget k e]).
Proof.
  induction names as [|n names IH]; intros e r k He H; cbn [load_each] in H.
  { injection H as <-. split; [exact He|]. cbn. destruct (dget k e); reflexivity. }
  destruct (load n) as [d|x] eqn:E; [|discriminate]. cbn [rbind] in H.
  destruct (IH _ r k (flat_dupdate e d None He) H) as [H1 H2]. split; [exact H1|]. rewrite H2.
  cbn [rev]. rewrite map_app, <- app_assoc, !first_some_app. cbn [map app]. rewrite E.
  clear H2. destruct (first_some (map _ (rev names))); [reflexivity|]. cbn [first_some].
  assert (Hd : dget k (env_dupdate e d None) = match in_dict k d with Some v => Some v | None => dget k e end).
  { unfold in_dict, env_from_dict, env_dupdate, env_empty. rewrite !dget_dupd_rev. cbn [dget].
    destruct (dget k (rev (flatten_nested_dict [] d))); reflexivity. }
  rewrite Hd. destruct (in_dict k d); [reflexivity|]. reflexivity.
Qed.

Lemma update_get e o k : flat_env e -> flat_env o -> dget k (env_update e o None true) = match dget k o with Some v => Some v | None => dget k e end.
Proof. intros He Ho. unfold env_update. rewrite from_dict_flat by exact Ho. apply dget_dupd. apply Ho. Qed.

Theorem C48_sources jc e flat : flat_env e -> all_templates jc e = Ok flat ->
  exists providers paths defaults,
    iter_if (env_get e (lit "mau.visitor.templates.providers")) = Ok providers /\
    iter_if (env_get e (lit "mau.visitor.templates.paths")) = Ok paths /\
    env_from_environment (jc_defaults jc) None = Ok defaults /\
    forall k, dget k flat = first_some
      ([dget (lit "mau.visitor.templates.custom." ++ k) e] ++ map (in_path jc k) (rev paths) ++
       map (in_provider jc k) (rev providers) ++ [dget k defaults]).
Proof.
  intros He. unfold all_templates.
  destruct (env_from_environment (jc_defaults jc) None) as [d|x] eqn:Ed; [|discriminate]. cbn [rbind].
  unfold load_providers, load_filesystem, load_custom.
  destruct (iter_if (env_get e (lit "mau.visitor.templates.providers"))) as [providers|x]; [|discriminate].
  destruct (iter_if (env_get e (lit "mau.visitor.templates.paths"))) as [paths|x]; [|cbn [rbind]; destruct (load_each _ _ _); discriminate].
  cbn [rbind]. intros H.
  destruct (load_each _ providers env_empty) as [p|x] eqn:Ep; [|discriminate]. cbn [rbind] in H.
  destruct (load_each _ paths env_empty) as [f|x] eqn:Ef; [|discriminate]. cbn [rbind] in H.
  exists providers, paths, d. split; [reflexivity|]. split; [reflexivity|]. split; [reflexivity|]. intros k.
  assert (Hd : flat_env d).
  { unfold env_from_environment in Ed. destruct (env_asdict (jc_defaults jc)) as [nd|]; [|discriminate]. cbn [rbind] in Ed.
    assert (E : env_from_dict nd None = d) by congruence. rewrite <- E. apply flat_dupdate, flat_empty. }
  destruct (load_each_spec _ _ _ _ k flat_empty Ep) as [Hp1 Hp2]. destruct (load_each_spec _ _ _ _ k flat_empty Ef) as [Hf1 Hf2].
  assert (Hc : exists c, load_custom e = Ok c /\ flat_env c /\ dget k c = dget (lit "mau.visitor.templates.custom." ++ k) e /\
             flat = env_update (env_update (env_update d p None true) f None true) c None true).
  { unfold load_custom.
    change (lit "mau.visitor.templates.custom." ++ k) with (lit "mau.visitor.templates.custom" ++ [DOT] ++ k).
    revert H. generalize (lit "mau.visitor.templates.custom"). intros key H.
    destruct (env_get e key) as [v|c|] eqn:Ec; [discriminate| |].
    - exists c. destruct (env_get_ns e key c He Ec) as [A B]. split; [reflexivity|]. split; [exact A|]. split; [apply B|].
      cbn [rbind] in H. congruence.
    - exists env_empty. destruct (env_get_default e key Ec) as [A B]. split; [reflexivity|]. split; [apply flat_empty|].
      split; [rewrite B; reflexivity|]. cbn [rbind] in H. congruence. }
  destruct Hc as (c & _ & Hc1 & Hc2 & ->).
  rewrite update_get by (try exact Hc1; repeat apply flat_update; assumption).
  rewrite update_get by (try exact Hf1; repeat apply flat_update; assumption).
  rewrite update_get by assumption. rewrite Hc2, Hp2, Hf2. cbn [app first_some dget env_empty].
  destruct (dget _ e); [reflexivity|]. rewrite !first_some_app. cbn [first_some].
  assert (E1 : map (in_path jc k) (rev paths) = map (fun n : str => match (match n with [] => Ok [] | _ => jc_path jc n end) with Ok d => in_dict k d | Exc _ => None end) (rev paths)).
  { apply map_ext. intros [|a q]; [reflexivity|]. reflexivity. }
  assert (E2 : map (in_provider jc k) (rev providers) = map (fun n => match (match dget n (jc_providers jc) with Some d => Ok d | None => Exc (ExMau (MsgVisitor "Template provider is not available." None None)) end) with Ok d => in_dict k d | Exc _ => None end) (rev providers)).
  { apply map_ext. intros n. unfold in_provider. destruct (dget n (jc_providers jc)); reflexivity. }
  rewrite E1, E2.
  destruct (first_some (map _ (rev paths))); [reflexivity|].
  destruct (first_some (map _ (rev providers))); [reflexivity|]. destruct (dget k d); reflexivity.
Qed.

(* ------------------------------------------------------------- examples *)
Definition ex_conf : env := env_from_dict
  [(lit "mau", EDict [(lit "visitor", EDict [(lit "templates", EDict [
     (lit "prefixes", EList [lit "web"; lit "print"]);
     (lit "custom", EDict [
        (lit "text.j2", EStr (lit "plain"));
        (lit "text.tg_big.j2", EStr (lit "big"));
        (lit "text.pt_style.pts_style__star.j2", EStr (lit "in star"));
        (lit "text.pf_print.j2", EStr (lit "printed"));
        (lit "text.tg_red.j2", EStr (lit "red"));
        (lit "other.txt", EStr (lit "ignored"))])])])])] None.
Definition ex_jc : jconfig := mkJconfig (lit ".j2") [] [] (fun _ => Ok []).
Definition ex_text (tags : list str) (parent : option facet) : jnode := (mkFacet (lit "text") None tags [], parent).
Definition ex_star : facet := mkFacet (lit "style") None [] [(lit "style", lit "star")].
Definition used (n : jnode) : option env_val :=
  match jinja_init ex_jc ex_conf with
  | Ok v => match find_template v n ExFuel with Ok t => Some (tp_content t) | Exc _ => None end
  | Exc _ => None
  end.

Example C48_ex :
  (* the prefixed template wins over more specific ones *)
  used (ex_text [lit "big"] None) = Some (EStr (lit "printed")) /\
  used (mkFacet (lit "word") None [] [], None) = None /\
  exists v ts, jinja_init ex_jc ex_conf = Ok v /\
    (let? flat := all_templates ex_jc ex_conf in build_templates (lit ".j2") flat) = Ok ts /\ length ts = 5 /\
    iter_value (env_get ex_conf (lit "mau.visitor.templates.prefixes")) = Ok [lit "web"; lit "print"] /\
    (* without it: the most specific, and the first of those as specific *)
    match find_template (mkJvisitor (jv_templates v) FDefault) (ex_text [lit "red"; lit "big"] (Some ex_star)) ExFuel with
    | Ok t => tp_content t = EStr (lit "in star") | Exc _ => False end /\
    match find_template (mkJvisitor (jv_templates v) FDefault) (ex_text [lit "red"; lit "big"] None) ExFuel with
    | Ok t => tp_content t = EStr (lit "big") | Exc _ => False end.
Proof.
  split; [vm_compute; reflexivity|]. split; [vm_compute; reflexivity|].
  eexists _, _. split; [vm_compute; reflexivity|]. split; [vm_compute; reflexivity|].
  split; [reflexivity|]. split; [vm_compute; reflexivity|]. split; vm_compute; reflexivity.
Qed.

Example C49_ex :
  let cs := [ParentType (lit "style"); Tag (lit "big"); Custom (lit "role") (lit "title"); Prefix (lit "web");
             ParentCustom (lit "style") (lit "star"); Subtype (lit "intro"); ParentSubtype (lit "x")] in
  template_name (lit "label") cs = lit "label.pt_style.tg_big.role__title.pf_web.pts_style__star.intro.pts_x" /\
  Forall plain cs /\ consistent cs.
Proof.
  cbn zeta. split; [reflexivity|].
  assert (D : forall s, existsb (N.eqb DOT) s = false -> dotless s).
  { intros s H K. assert (E : existsb (N.eqb DOT) s = true) by (apply existsb_exists; exists DOT; split; [exact K|apply N.eqb_refl]). congruence. }
  assert (U : forall s, existsb (N.eqb 95) s = false -> no_dunder s /\ ~ exists a, s = a ++ lit "_").
  { intros s H. assert (K : ~ In 95%N s).
    { intros K. assert (E : existsb (N.eqb 95) s = true) by (apply existsb_exists; exists 95%N; split; [exact K|apply N.eqb_refl]). congruence. }
    split; [intros (a & b & ->)|intros (a & ->)]; apply K; apply in_or_app; right; left; reflexivity. }
  assert (M : forall s, forallb (fun m => negb (startswith m s)) [lit "pt_"; lit "pts_"; lit "pf_"; lit "tg_"] = true -> unmarked s).
  { intros s H (m & r & Hm & ->). rewrite forallb_forall in H. specialize (H m Hm). rewrite startswith_app in H. discriminate. }
  split.
  - repeat apply Forall_cons; [..|apply Forall_nil]; (split; [apply D; reflexivity|]).
    + discriminate.
    + exact I.
    + split; [split; apply U; reflexivity|]. split; [apply U; reflexivity|apply M; reflexivity].
    + exact I.
    + split; [split; apply U; reflexivity|apply U; reflexivity].
    + split; [discriminate|]. split; [apply U; reflexivity|apply M; reflexivity].
    + split; [discriminate|apply U; reflexivity].
  - unfold consistent. cbn [flat_map about app]. repeat constructor; cbn; intuition discriminate.
Qed.
