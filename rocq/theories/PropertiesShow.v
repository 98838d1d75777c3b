(* PropertiesShow.v -- C67: parsed documents can be rendered *)
From Verif Require Import NumDoc Build SpecVisitor SpecRender PropertiesVisitor PropertiesVisit PropertiesRender PropertiesNumbers ShowFacts.
From Coq Require Import List Lia PeanoNat.
Import ListNotations.
#[local] Open Scope list_scope.
#[local] Notation length := List.length.

(* C67, on documents: whatever the parser made, with all the groups, footnotes, links and
   tables of contents, the document is rendered when the interpreter allows enough
   recursion, if no header mentions a footnote or links to a header. *)
Theorem C67_documents_render_partial n cf e text o x d hk kw : parse_document n cf e text o = Ok x -> document_of x = Some d ->
  quiet_headers (fst d) (dx_done x) -> total_hooks hk ->
  exists n0, forall n', n0 <= n' -> exists r, render_document hk kw n' (Some d) (dx_done x) = Ok r.
Proof.
  intros H _ Hq Hk. destruct (run_good _ _ _ _ _ _ _ _ _ H (old_ok_nil 0)) as (G & K). destruct K as (_ & _ & _ & _ & _ & _ & _ & (L & _ & _ & O & _) & _).
  exact (documents_render hk kw d (dx_done x) Hk Hq L O).
Qed.

(* a document with a group that has a block with a group, a footnote, a table of contents
   and a link *)
Example C67_groups_ex : exists x d, parsed linked_document = Ok x /\ document_of x = Some d /\ quiet_headers (fst d) (dx_done x) /\
  total_hooks (base_hooks (fun d => d)) /\ length (filter (fun a => match a with AGroup _ _ _ => true | _ => false end) (dx_done x)) = 2 /\
  exists r, render_document (base_hooks (fun d => d)) (mkKwargs true true) 14 (Some d) (dx_done x) = Ok r.
Proof.
  do 2 eexists. split; [vm_compute; reflexivity |]. split; [vm_compute; reflexivity |]. split.
  - intros h Hh. cbn in Hh. repeat (destruct Hh as [<- | Hh]; [vm_compute; reflexivity |]). destruct Hh.
  - split; [intros j d; eexists; reflexivity |]. split; [vm_compute; reflexivity |]. eexists. vm_compute. reflexivity.
Qed.
