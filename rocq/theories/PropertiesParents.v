(* PropertiesParents.v -- C75: the parents of the nodes of a document *)
From Verif Require Import NumDoc Build BuildFacts SpecVisitor SpecParents SpecObjects ObjFacts HomeFacts PropertiesNumbers PropertiesRender PropertiesObjects.
From Coq Require Import List Lia PeanoNat.
Import ListNotations.
#[local] Open Scope list_scope.

(* The objects that a visitor is given: the document is a parsed node without a parent;
   every node in an attribute of an object was parsed, made for it or copied, and has the
   parent (right_parent, in SpecParents.v) that such a node of that class has there. *)
Theorem C75_parents n cf e text o x d m h : parse_document n cf e text o = Ok x -> document_of x = Some d -> heap_of m d (dx_done x) = Ok h ->
  exists from : nat -> provenance,
    (exists root, nth_error h 0 = Some root /\ o_kind root = KDocument /\ o_parent root = None /\ from 0 = Parsed) /\
    forall l ob name f c, nth_error h l = Some ob -> In (name, f) (o_fields ob) -> In c (refs f) ->
      exists oc, nth_error h c = Some oc /\ right_parent from h l ob name c oc.
Proof.
  intros H Hd Hh. apply C74_document in Hd as [Hd _].
  destruct (run_good _ _ _ _ _ _ _ _ _ H (old_ok_nil 0)) as (G & K). destruct K as (F & S & _ & _ & _ & _ & (new & En & Fr) & (_ & _ & _ & O & On & Ky) & _ & Ap). cbn [app] in En. rewrite <- En in Fr. rewrite <- Hd in *.
  assert (N : NoDup (map fst G)) by exact (proj1 (proj2 F)).
  assert (S' : sub (nmarks (fst d)) G) by exact (sub_trans _ _ _ (sub_left _ _) S).
  refine (parents_right d (dx_done x) G O On Ap _ N _ Fr Ky m h Hh).
  - exact (sub_nodup _ _ S' N).
  - exact (proj1 S').
Qed.

(* the objects of a document with all that is made and copied afterwards: the classes of the
   nodes that have an object of the class as their parent *)
Definition parents_in (h : heap) : list (Visitor.kind * Visitor.kind) :=
  flat_map (fun o => match parent_of h o with Some p => [(o_kind o, o_kind p)] | None => [] end) h.
Example C75_ex : exists x d h, parsed linked_document = Ok x /\ document_of x = Some d /\ heap_of 14 d (dx_done x) = Ok h /\
  incl [(KParagraph, KDocument); (KParagraphLine, KParagraph); (KTocItem, KToc); (KHeader, KToc); (KFootnotesItem, KFootnotes); (KParagraph, KFootnote); (KText, KMacroHeader); (KBlockGroupItem, KBlockGroup); (KBlock, KBlockGroupItem)] (parents_in h).
Proof.
  do 3 eexists. split; [vm_compute; reflexivity |]. split; [vm_compute; reflexivity |]. split; [vm_compute; reflexivity |].
  intros p Hp. vm_compute. vm_compute in Hp. repeat (destruct Hp as [<- | Hp]; [tauto |]). destruct Hp.
Qed.
