(* PlaceNodes.v -- the places of the nodes that a parser keeps *)
From Verif Require Import SimFacts LexerThms InlineInst ParseFacts RunFacts SpecManagers.
From Verif Require Export PlaceInline.
#[local] Notation length := List.length.

Section Kept.
  (* the places where a node can be *)
  Context (W : context -> Prop).

  Definition labels_ok (l : labels) : Prop := Forall (fun kv : str * list inode => loose_in W (snd kv)) l.
  Definition header_ok (h : header) : Prop := W (h_ctx h) /\ loose_in W (h_content h) /\ labels_ok (h_labels h).
  Definition line_ok (l : list inode * context) : Prop := W (snd l) /\ loose_in W (fst l).
  Definition raws_ok (l : list (str * context)) : Prop := Forall (fun x => W (snd x)) l.
  Definition source_ok (l : source_line) : Prop := W (sl_ctx l) /\ match sl_marker l with Some m => W (snd m) | None => True end.

  (* what is in a node *)
  Fixpoint inner (n : dnode) : Prop :=
    let all := fix all (l : list dnode) : Prop := match l with [] => True | x :: r => (W (dnode_ctx x) /\ inner x) /\ all r end in
    match n with
    | DHeader h => header_ok h
    | DParagraph lines a => Forall line_ok lines /\ labels_ok (at_labels a)
    | DBlock _ l a | DList _ _ _ l a => all l /\ labels_ok (at_labels a)
    | DMau _ l a => (all l /\ forall f r, l = f :: r -> W (merge_contexts (dnode_ctx f) (dnode_ctx (last l f)))) /\ labels_ok (at_labels a)
    | DRaw _ lines a | DIncludeRaw _ lines a => raws_ok lines /\ labels_ok (at_labels a)
    | DSource _ _ lines a => Forall source_ok lines /\ labels_ok (at_labels a)
    | DItem _ l _ => loose_in W l
    | DRule a | DImage _ _ _ a | DToc _ a | DFootnotes _ a | DGroup _ _ a | DInclude _ a => labels_ok (at_labels a)
    end.
  Definition node_ok (n : dnode) : Prop := W (dnode_ctx n) /\ inner n.
  Lemma inner_list l : Forall node_ok l <-> (fix all (l : list dnode) : Prop := match l with [] => True | x :: r => (W (dnode_ctx x) /\ inner x) /\ all r end) l.
  Proof. induction l as [|n l IH]; split; intros H; [exact I|constructor|inversion H; subst; split; [assumption|apply IH; assumption]|destruct H as [H1 H2]; constructor; [exact H1|apply IH, H2]]. Qed.
  (* the body of a footnote may have lost its own place *)
  Definition body_ok (n : dnode) : Prop := (W (dnode_ctx n) \/ dnode_ctx n = empty_context) /\ inner n.

  Definition copy_ok (f : footnote copy) : Prop := body_ok (snd (fn_content f)).
  Definition assign_ok (a : assign) : Prop :=
    match a with
    | AFootnote _ f => copy_ok f
    | AFootnotes _ l => Forall copy_ok l
    | AInternal _ _ => True
    | AToc _ nested plain => Forall header_ok (flat_map preorder nested ++ plain)
    | AHeader _ h content => header_ok h /\ loose_in W content
    | AGroup _ _ items => Forall (fun kv : str * dnode => node_ok (snd kv)) items
    end.
  (* T: where the nodes of the document itself are *)
  Definition stored (T : context -> Prop) (x : dx) : Prop :=
    Forall (fun n => T (dnode_ctx n) /\ node_ok n) (dx_nodes x) /\ labels_ok (dx_labels x) /\
    Forall (fun kv : str * dnode => body_ok (snd kv)) (fm_bodies (dx_foot x)) /\
    Forall header_ok (tm_headers (dx_toc x)) /\
    Forall (fun m => loose_in W (snd m)) (hm_macros (dx_links x)) /\
    Forall (fun kv : str * header => header_ok (snd kv)) (hm_headers (dx_links x)) /\
    Forall (fun g : str * dict dnode => Forall (fun kv : str * dnode => node_ok (snd kv)) (snd g)) (gm_items (dx_groups x)) /\
    Forall assign_ok (dx_done x).

  (* the changes of the state *)
  Lemma stored_nodes T x n : stored T x -> T (dnode_ctx n) -> node_ok n -> stored T (set_nodes x (dx_nodes x ++ [n])).
  Proof. intros (A & B) Ht Hn. split; [|exact B]. cbn [set_nodes dx_nodes]. apply Forall_app. auto. Qed.
  Lemma stored_wider (T T' : context -> Prop) x : (forall c, T c -> T' c) -> stored T x -> stored T' x.
  Proof. intros HT (A & B). split; [|exact B]. eapply Forall_impl; [|exact A]. cbn beta. intros n [A1 A2]. auto. Qed.
  Lemma stored_no_labels T x : stored T x -> stored T (set_labels x []) /\ labels_ok (dx_labels x).
  Proof. intros (A & B & C). split; [|exact B]. split; [exact A|]. split; [constructor|exact C]. Qed.
  Lemma stored_label T x r l : stored T x -> loose_in W l -> stored T (set_labels x (dset r l (dx_labels x))).
  Proof. intros (A & B & C) Hl. split; [exact A|]. split; [|exact C]. cbn [set_labels dx_labels]. apply (all_dset (loose_in W)); assumption. Qed.
  Lemma stored_body T x m name b c : stored T x -> body_ok b -> fm_add_body (dx_foot x) name b c = Ok m -> stored T (set_foot x m).
  Proof.
    intros (A & B & C & D) Hb E. unfold fm_add_body in E. destruct (dmem _ _) in E; [discriminate E|]. apply Ok_inv in E. subst m.
    split; [exact A|]. split; [exact B|]. split; [|exact D]. cbn [set_foot dx_foot fm_bodies]. apply (all_dset body_ok); assumption.
  Qed.
  Lemma stored_block T x m g p b c : stored T x -> node_ok b -> gm_add_block (dx_groups x) g p b c = Ok m -> stored T (set_groups x m).
  Proof.
    intros (A & B & C & D & E & F & G & H) Hb K. unfold gm_add_block in K. destruct (dmem _ _) in K; [discriminate K|]. apply Ok_inv in K. subst m.
    do 6 (split; [assumption|]). split; [|exact H]. cbn [set_groups dx_groups gm_items].
    apply (all_dset (fun d : dict dnode => Forall (fun kv : str * dnode => node_ok (snd kv)) d)); [|exact G]. apply (all_dset node_ok); [exact Hb|].
    unfold gm_group. destruct (dget g (gm_items (dx_groups x))) as [d|] eqn:Ed; [|constructor]. exact (all_dget (fun d : dict dnode => Forall (fun kv : str * dnode => node_ok (snd kv)) d) _ _ _ G Ed).
  Qed.
  Lemma stored_name T x m name h : stored T x -> header_ok h -> hm_add_header (dx_links x) name h = Ok m -> stored T (set_links x m).
  Proof.
    intros (A & B & C & D & E & F & G) Hh K. unfold hm_add_header in K. destruct (dmem _ _) in K; [discriminate K|]. apply Ok_inv in K. subst m.
    do 5 (split; [assumption|]). split; [|exact G]. cbn [set_links dx_links hm_headers]. apply (all_dset header_ok); assumption.
  Qed.
  Lemma stored_header T x h : stored T x -> header_ok h -> stored T (set_toc x (tm_add_header (dx_toc x) h)).
  Proof. intros (A & B & C & D & E) Hh. do 3 (split; [assumption|]). split; [|exact E]. cbn. apply Forall_app. auto. Qed.

  (* the end of a parser *)
  Lemma each_ok {A B} (P : B -> Prop) (f : A -> res B) l : (forall a b, In a l -> f a = Ok b -> P b) -> forall r, for_each f l = Ok r -> Forall P r.
  Proof.
    induction l as [|a l IH]; intros Hf r E; cbn [for_each] in E; [apply Ok_inv in E; subst; constructor|].
    destruct (f a) as [b|] eqn:Ef; cbn [rbind] in E; [|discriminate E]. destruct (for_each f l) as [bs|]; cbn [rbind] in E; [|discriminate E]. apply Ok_inv in E. subst r.
    constructor; [eapply Hf; [left; reflexivity|exact Ef]|]. apply IH; [|reflexivity]. intros; eapply Hf; [right|]; eassumption.
  Qed.
  Lemma enum_in {A} n (l : list A) k a : In (k, a) (enumerate_from n l) -> In a l.
  Proof. revert n. induction l as [|b l IH]; intros n H; [destruct H|]. destruct H as [H|H]; [injection H as _ ->; left; reflexivity|right; eapply IH, H]. Qed.
  Lemma under_ok n : forall level hs, Forall header_ok hs -> Forall header_ok (flat_map preorder (fst (nodes_under n level hs))) /\ Forall header_ok (snd (nodes_under n level hs)).
  Proof.
    induction n as [|n IH]; intros level hs H; [split; [constructor|exact H]|]. cbn [nodes_under]. destruct hs as [|h r]; [split; constructor|]. destruct (h_level h <=? level); [split; [constructor|exact H]|].
    inversion H as [|? ? Hh Hr]; subst. destruct (IH (h_level h) r Hr) as [A B]. destruct (nodes_under n (h_level h) r) as [entries r1]. cbn [fst snd] in *. destruct (IH level r1 B) as [C D]. destruct (nodes_under n level r1) as [siblings r2]. cbn [fst snd] in *.
    split; [|exact D]. cbn [flat_map preorder]. constructor; [exact Hh|]. apply Forall_app. auto.
  Qed.
  Lemma stored_final T cf e0 x y : stored T x -> dp_finalise cf e0 x = Ok y -> stored T y.
  Proof.
    intros (A & B & C & D & E & F & G & H) K. unfold dp_finalise in K. destruct (fm_process _ _ _) as [[fl fs]|] eqn:E1; cbn [rbind] in K; [|discriminate K].
    destruct (tm_process _ _) as [[[toc ids] tocs]|] eqn:E2; cbn [rbind] in K; [|discriminate K]. destruct (hm_process _) as [hl|] eqn:E3; cbn [rbind] in K; [|discriminate K].
    destruct (gm_process _) as [gl|] eqn:E4; cbn [rbind] in K; [|discriminate K]. apply Ok_inv in K. subst y.
    assert (K1 : Forall (fun l : nat * footnote copy => copy_ok (snd l)) fl /\ Forall (fun l : nat * list (footnote copy) => Forall copy_ok (snd l)) fs).
    { unfold fm_process in E1. destruct (fm_footnotes _ _ _) as [fn|] eqn:E0; cbn [rbind] in E1; [|discriminate E1]. destruct (for_each _ _) as [ls|] eqn:E5; cbn [rbind] in E1; [|discriminate E1].
      assert (Hfn : Forall (fun p : str * footnote copy => copy_ok (snd p)) fn).
      { unfold fm_footnotes in E0. revert E0. apply each_ok. intros [k [nm b]] p Hin Ep. cbv zeta in Ep. revert Ep. match goal with |- context [if ?q then _ else _] => generalize q end. intros [|]; cbn [rbind]; [discriminate|]. intros Ep. apply Ok_inv in Ep. subst p. apply enum_in in Hin. rewrite Forall_forall in C. exact (C _ Hin). }
      apply Ok_inv, pair_equal_spec in E1 as [<- <-]. split.
      - revert E5. apply each_ok. intros m p _ Ep. unfold fm_link in Ep. destruct (dget _ _) as [f|] eqn:Ed; [|discriminate Ep]. apply Ok_inv in Ep. subst p. exact (all_dget copy_ok _ _ _ Hfn Ed).
      - apply Forall_forall. intros l Hl. apply in_map_iff in Hl as (id & <- & _). cbn [snd]. clear - Hfn. induction Hfn; constructor; auto. }
    assert (K2 : Forall header_ok (tm_headers toc) /\ Forall (fun l : nat * (list toc_item * list header) => Forall header_ok (flat_map preorder (fst (snd l)) ++ snd (snd l))) tocs).
    { unfold tm_process in E2. destruct (tm_headers (dx_toc x)) as [|h0 hs0] eqn:Et; [apply Ok_inv, pair_equal_spec in E2 as [E2 <-]; apply pair_equal_spec in E2 as [<- _]; rewrite Et; split; constructor|]. rewrite <- Et in E2, D.
      destruct (for_each _ _) as [hs|] eqn:E5; cbn [rbind] in E2; [|discriminate E2]. apply Ok_inv, pair_equal_spec in E2 as [E2 <-]. apply pair_equal_spec in E2 as [<- _].
      assert (Hhs : Forall header_ok hs).
      { revert E5. apply each_ok. intros h p Hin Ep. assert (Hh : header_ok h) by (rewrite Forall_forall in D; apply D; rewrite Et in Hin |- *; exact Hin). unfold give_internal in Ep. destruct (h_internal h); [apply Ok_inv in Ep; subst p; exact Hh|].
        revert Ep. match goal with |- context [if ?q then _ else _] => generalize q end. intros [|]; cbn [rbind]; [discriminate|]. intros Ep. apply Ok_inv in Ep. subst p. exact Hh. }
      split; [exact Hhs|]. apply Forall_forall. intros l Hl. apply in_map_iff in Hl as (id & <- & _). cbn [fst snd]. apply Forall_app. split; [apply under_ok, Hhs|exact Hhs]. }
    assert (K3 : Forall (fun l : nat * (header * list inode) => header_ok (fst (snd l)) /\ loose_in W (snd (snd l))) hl).
    { unfold hm_process in E3. revert E3. apply each_ok. intros m p Hin Ep. unfold hm_link in Ep. destruct (dget _ _) as [h|] eqn:Ed; [|discriminate Ep]. apply Ok_inv in Ep. subst p. cbn [fst snd].
      pose proof (all_dget header_ok _ _ _ F Ed) as Hh. split; [exact Hh|]. rewrite Forall_forall in E. specialize (E _ Hin). destruct (snd m); [apply Hh|exact E]. }
    assert (K4 : Forall (fun l : nat * dict dnode => Forall (fun kv : str * dnode => node_ok (snd kv)) (snd l)) gl).
    { unfold gm_process in E4. revert E4. apply each_ok. intros m p _ Ep. unfold gm_link in Ep. destruct (dget _ _) as [d|] eqn:Ed; [|discriminate Ep]. apply Ok_inv in Ep. subst p. cbn [snd].
      pose proof (all_dget (fun d : dict dnode => Forall (fun kv : str * dnode => node_ok (snd kv)) d) _ _ _ G Ed) as Hd. apply (all_dupd node_ok); [apply (all_dupd node_ok); [constructor|exact Hd]|exact Hd]. }
    do 3 (split; [assumption|]). split; [exact (proj1 K2)|]. do 3 (split; [assumption|]). cbn [set_shared dx_done].
    apply Forall_app. split; [exact H|]. repeat (apply Forall_app; split).
    - destruct K1 as [K1 _]. clear - K1. induction K1; constructor; auto.
    - destruct K1 as [_ K1]. clear - K1. induction K1; constructor; auto.
    - clear. induction ids; constructor; [exact I|auto].
    - destruct K2 as [_ K2]. clear - K2. induction K2; constructor; auto.
    - clear - K3. induction K3; constructor; auto.
    - clear - K4. induction K4; constructor; auto.
  Qed.
End Kept.

(* if a node can be anywhere *)
Section Anywhere.
  Notation any := (fun _ : context => True).
  Lemma deep_any : forall n, deep any n.
  Proof.
    fix IH 1. assert (IHl : forall l, (fix all (l : list inode) : Prop := match l with [] => True | x :: r => ((any (inode_ctx x) \/ no_text x) /\ deep any x) /\ all r end) l).
    { fix IHl 1. intros [|x r]; [exact I|]. split; [split; [left; exact I|exact (IH x)]|exact (IHl r)]. }
    intros [v c|v c|v c|s l c|name a c|cl l c|t l c|u alt w hh c|id t l c|id name c|v c|v c]; try exact I; exact (IHl l).
  Qed.
  Lemma loose_any l : loose_in any l.
  Proof. apply Forall_forall. intros n _. split; [left; exact I|apply deep_any]. Qed.
  Lemma labels_any l : labels_ok any l.
  Proof. apply Forall_forall. intros kv _. apply loose_any. Qed.
  Lemma header_any h : header_ok any h.
  Proof. split; [exact I|]. split; [apply loose_any|apply labels_any]. Qed.
  Lemma inner_any : forall n, inner any n.
  Proof.
    fix IH 1. assert (IHl : forall l, (fix all (l : list dnode) : Prop := match l with [] => True | x :: r => (any (dnode_ctx x) /\ inner any x) /\ all r end) l).
    { fix IHl 1. intros [|x r]; [exact I|]. split; [split; [exact I|exact (IH x)]|exact (IHl r)]. }
    intros [a|h|lines a|cl l a|cl lines a|cl lg lines a|o m st l a|lv l c|u alt cl a|u l a|u lines a|i a|i a|i nm a|ct a]; cbn [inner];
      try exact (labels_any _); try exact (header_any h); try exact (loose_any l); (split; [|exact (labels_any _)]); try exact (IHl l); try (split; [exact (IHl l)|intros; exact I]); apply Forall_forall; intros x _.
    - split; [exact I|apply loose_any].
    - exact I.
    - split; [exact I|]. destruct (sl_marker x); exact I.
    - exact I.
  Qed.
  Lemma assign_any a : assign_ok any a.
  Proof.
    assert (B : forall b, body_ok any b) by (intros b; split; [left; exact I|apply inner_any]).
    destruct a; cbn [assign_ok]; [apply B|apply Forall_forall; intros f _; apply B|exact I|apply Forall_forall; intros h _; apply header_any|split; [apply header_any|apply loose_any]|].
    apply Forall_forall. intros kv _. split; [exact I|apply inner_any].
  Qed.
  Lemma done_any dn : Forall (assign_ok any) dn.
  Proof. apply Forall_forall. intros a _. apply assign_any. Qed.
End Anywhere.
