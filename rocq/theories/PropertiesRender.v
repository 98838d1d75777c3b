(* PropertiesRender.v -- rendering documents (C67, C68) *)
From Verif Require Import Build BuildFacts SpecVisitor SpecRender PropertiesVisitor PropertiesVisit PropertiesBuild RenderFacts PropertiesDoc.
From Coq Require Import List Lia PeanoNat.
Import ListNotations.
#[local] Open Scope list_scope.
#[local] Notation length := List.length.

(* ------------------------------------------------------------- visits that do not end *)
Lemma visit_each_fails {A} (g : A -> res data) l a : In a l -> (exists e, g a = Exc e) -> exists e, visit_each g l = Exc e.
Proof.
  intros H [e E]. induction l as [| x l IH]; [destruct H |]. cbn [visit_each]. destruct (g x) as [d | e'] eqn:Ex; cbn [rbind]; [| eauto].
  destruct H as [-> | H]; [congruence |]. destruct (IH H) as [e' ->]. cbn [rbind]. eauto.
Qed.
(* Every object in P shows an object in P. *)
Definition shows (h : heap) (i c : nat) : Prop := exists o key k m f, nth_error h i = Some o /\ In (key, k, m) (visited (o_kind o)) /\ fget k (o_fields o) = Some f /\ In c (refs f).
Lemma visit_cycle hk kw h (P : nat -> Prop) : (forall i, P i -> exists c, P c /\ shows h i c) -> forall n i, P i -> exists e, visit_data hk kw n h i = Exc e.
Proof.
  intros HP n. induction n as [| n IH]; intros i Hi; cbn [visit_data]; [eauto |]. destruct (HP i Hi) as (c & Hc & o & key & k & m & f & Eo & Hrow & Ef & Hin). rewrite Eo.
  assert (Hv : exists e, visit_data hk kw n h c = Exc e) by (apply IH; exact Hc).
  assert (Hn : exists e, (let? d := visit_data hk kw n h c in finish hk h c d) = Exc e) by (destruct Hv as [e ->]; cbn [rbind]; eauto).
  match goal with |- exists e, rbind ?x _ = Exc e => enough (Er : exists e, x = Exc e) by (destruct Er as [e ->]; cbn [rbind]; eauto) end.
  induction (visited (o_kind o)) as [| [[key' k'] m'] rows IHr]; [destruct Hrow |]. cbn [visit_rows]. destruct (fget k' (o_fields o)) as [f' |] eqn:Ef'; [| eauto].
  match goal with |- exists e, rbind ?x _ = Exc e => destruct x as [d | e] eqn:Ev; cbn [rbind]; [| eauto] end.
  destruct Hrow as [E | Hrow].
  - exfalso. assert (k' = k /\ m' = m) as [-> ->] by (split; congruence). assert (f' = f) as -> by congruence.
    destruct m, f as [v | l | dd | [x |]]; cbn [visit_field refs In] in Ev, Hin; try discriminate; try contradiction.
    + destruct (visit_each_fails (fun c0 => let? d0 := visit_data hk kw n h c0 in finish hk h c0 d0) l c Hin Hn) as [e Ee]. rewrite Ee in Ev. discriminate.
    + apply in_map_iff in Hin. destruct Hin as ([s x] & Ex & Hx). cbn in Ex. subst x.
      destruct (visit_each_fails (fun kc : str * nat => let? d0 := visit_data hk kw n h (snd kc) in finish hk h (snd kc) d0) dd (s, c) Hx Hn) as [e Ee]. rewrite Ee in Ev. discriminate.
    + destruct Hin as [-> | []]. destruct Hv as [e Ee]. congruence.
    + destruct Hin as [-> | []]. destruct Hn as [e Ee]. congruence.
  - destruct (IHr Hrow) as [e ->]. cbn [rbind]. eauto.
Qed.
Lemma visit_never_ends hk kw h (l : list nat) i : Forall (fun i => exists c, In c l /\ shows h i c) l -> In i l -> forall n, exists e, visit hk kw n h i = Exc e.
Proof.
  intros F Hi n. unfold visit. destruct (visit_cycle hk kw h (fun i => In i l)) with (n := n) (i := i) as [e Ee]; [| exact Hi |].
  - intros j Hj. rewrite Forall_forall in F. exact (F j Hj).
  - rewrite Ee. cbn [rbind]. eauto.
Qed.
Ltac show_row t := split; [cbn; t |]; split; [reflexivity | cbn; tauto].
Ltac show_next c := exists c; split; [cbn; tauto |]; do 5 eexists; split; [reflexivity |];
  first [show_row ltac:(left; reflexivity) | show_row ltac:(right; left; reflexivity) | show_row ltac:(right; right; left; reflexivity)
    | show_row ltac:(right; right; right; left; reflexivity)].

Definition parsed (s : string) : res dx := parse_document 8 cf0 env_empty (mau s) (mkOrigin 0 0 None).

(* [= a [header](me)] with the name me: no visit of the document ends, whatever the
   visitor and the recursion limit. *)
Theorem C67_refuted_document : exists x d, parsed "[name=me]|= a [header](me)||" = Ok x /\ document_of x = Some d /\
  forall hk kw n, exists e, render_document hk kw n (Some d) (dx_done x) = Exc e.
Proof.
  eexists. eexists. split; [vm_compute; reflexivity |]. split; [vm_compute; reflexivity |]. intros hk kw n.
  destruct n as [| [| n]]; [eexists; vm_compute; reflexivity | |].
  - cbn [render_document]. match goal with |- exists e, rbind ?x _ = _ => let y := eval vm_compute in x in change x with y end. cbn [rbind].
    apply (visit_never_ends _ _ _ [0; 1; 3]); [| cbn; tauto]. apply Forall_cons; [show_next 1 |]; apply Forall_cons; [show_next 3 |]; apply Forall_cons; [show_next 1 |]; apply Forall_nil.
  - cbn [render_document]. match goal with |- exists e, rbind ?x _ = _ => let y := eval vm_compute in x in change x with y end. cbn [rbind].
    apply (visit_never_ends _ _ _ [0; 1; 3]); [| cbn; tauto]. apply Forall_cons; [show_next 1 |]; apply Forall_cons; [show_next 3 |]; apply Forall_cons; [show_next 1 |]; apply Forall_nil.
Qed.
(* A header mentions a footnote, and the body of the footnote has the table of
   contents; the block and the body are not isolated. *)
Theorem C67_refuted_footnote : exists x d, parsed "[isolate=false]|++++|= H [footnote](x)||[footnote=x,isolate=false]|----|<< toc|----|++++||" = Ok x /\ document_of x = Some d /\
  forall hk kw n, exists e, render_document hk kw n (Some d) (dx_done x) = Exc e.
Proof.
  eexists. eexists. split; [vm_compute; reflexivity |]. split; [vm_compute; reflexivity |]. intros hk kw n.
  destruct n as [| [| [| [| n]]]]; try (eexists; vm_compute; reflexivity);
    cbn [render_document]; match goal with |- exists e, rbind ?x _ = _ => let y := eval vm_compute in x in change x with y end; cbn [rbind];
    (apply (visit_never_ends _ _ _ [0; 1; 2; 4; 13; 14; 18]); [| cbn; tauto]);
    (apply Forall_cons; [show_next 1 |]); (apply Forall_cons; [show_next 2 |]); (apply Forall_cons; [show_next 4 |]); (apply Forall_cons; [show_next 13 |]);
    (apply Forall_cons; [show_next 14 |]); (apply Forall_cons; [show_next 18 |]); (apply Forall_cons; [show_next 2 |]); apply Forall_nil.
Qed.

(* C50: the list [* a], as it is parsed *)
Theorem C50_refuted_document : exists x d h h' l', parsed "* a||" = Ok x /\ document_of x = Some d /\ heap_of 5 d (dx_done x) = Ok h /\
  option_map o_kind (nth_error h 1) = Some KList /\ deepcopy 5 h 1 (Some 0) = Ok (h', l') /\
  visit (base_hooks (fun d => d)) (mkKwargs true true) 5 h' l' <> visit (base_hooks (fun d => d)) (mkKwargs true true) 5 h 1.
Proof.
  do 5 eexists. split; [vm_compute; reflexivity |]. split; [vm_compute; reflexivity |]. split; [vm_compute; reflexivity |]. split; [vm_compute; reflexivity |].
  split; [vm_compute; reflexivity |]. vm_compute. discriminate.
Qed.

(* ------------------------------------------------------------- examples *)
Definition big_document : string := "[name=me]|= A *title*||a [header](me) b [footnote](x)||[footnote=x]|----|*b*|----||<< footnotes||<< toc||* one|* two||".
(* the kinds of the objects, and the number of the assignments *)
Example C67_documents_ex : exists x d, parsed big_document = Ok x /\ document_of x = Some d /\
  quiet_headers (fst d) (dx_done x) /\
  length (dx_done x) = 5 /\ exists h, heap_of 9 d (dx_done x) = Ok h /\ length h = 42 /\
  exists r, visit (base_hooks (fun d => d)) (mkKwargs true true) 9 h 0 = Ok r.
Proof.
  do 2 eexists. split; [vm_compute; reflexivity |]. split; [vm_compute; reflexivity |]. split.
  - intros h Hh. cbn in Hh. repeat (destruct Hh as [<- | Hh]; [vm_compute; reflexivity |]). destruct Hh.
  - split; [vm_compute; reflexivity |].
    eexists. split; [vm_compute; reflexivity |]. split; [vm_compute; reflexivity |]. eexists. vm_compute. reflexivity.
Qed.
(* a visitor without templates *)
Example C68_ex : exists x e, parsed big_document = Ok x /\
  render_document (jinja_hooks (mkJvisitor [] FDefault) (fun _ _ => Ok [])) (mkKwargs true true) 9 (document_of x) (dx_done x) = Exc e /\ e <> ExPy "RecursionError".
Proof. do 2 eexists. split; [vm_compute; reflexivity |]. split; [vm_compute; reflexivity |]. discriminate. Qed.
