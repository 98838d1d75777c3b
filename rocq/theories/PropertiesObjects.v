(* PropertiesObjects.v -- C74: the objects of a document are the parsed document *)
From Verif Require Import NumDoc Build BuildFacts SpecObjects ObjFacts PropertiesNumbers PropertiesRender.
From Coq Require Import List Lia PeanoNat.
Import ListNotations.
#[local] Open Scope list_scope.
#[local] Notation length := List.length.

(* There is a document node if something was parsed.  It has all the nodes, in order, and
   its context starts where the first of them starts (or the last, if that is before) and
   ends where the last ends (or the first, if that is after). *)
Theorem C74_document x d : document_of x = Some d <->
  fst d = dx_nodes x /\ exists first rest final, dx_nodes x = first :: rest /\ (exists before, dx_nodes x = before ++ [final]) /\
    c_source (snd d) = c_source (dnode_ctx first) /\
    c_start_line (snd d) = Nat.min (c_start_line (dnode_ctx first)) (c_start_line (dnode_ctx final)) /\
    c_start_column (snd d) = Nat.min (c_start_column (dnode_ctx first)) (c_start_column (dnode_ctx final)) /\
    c_end_line (snd d) = Nat.max (c_end_line (dnode_ctx first)) (c_end_line (dnode_ctx final)) /\
    c_end_column (snd d) = Nat.max (c_end_column (dnode_ctx first)) (c_end_column (dnode_ctx final)).
Proof.
  assert (L : forall (l : list dnode) (a b : dnode), last (l ++ [a]) b = a).
  { induction l as [| c l IH]; intros a b; [reflexivity |]. cbn [app last]. specialize (IH a b). destruct (l ++ [a]) eqn:E; [destruct l; discriminate | exact IH]. }
  unfold document_of. split.
  - destruct (dx_nodes x) as [| f l]; [discriminate |]. intros [= <-]. cbn [fst snd]. split; [reflexivity |]. exists f, l, (last (f :: l) f). split; [reflexivity |].
    split; [exists (removelast (f :: l)); apply app_removelast_last; discriminate |]. repeat split; reflexivity.
  - intros (H1 & f & l & g & H2 & (before & H3) & Hs). rewrite <- H1 in *. destruct d as [nodes [sl sc el ec src]]. cbn [fst snd] in *. rewrite H2 at 1. f_equal. f_equal.
    replace (last nodes f) with g by (rewrite H3, L; reflexivity). unfold merge_contexts. cbn in Hs. destruct Hs as (-> & -> & -> & -> & ->). reflexivity.
Qed.

(* The objects that a visitor is given: the tree of the document, with every node, value,
   argument, label and context in its place; and every node that is completed after the
   parsing has what was assigned to it (last). *)
Theorem C74_objects n cf e text o x d m h : parse_document n cf e text o = Ok x -> document_of x = Some d -> heap_of m d (dx_done x) = Ok h ->
  exists at_ : Visitor.kind -> nat -> nat -> Prop,
    (forall k i l l', at_ k i l -> at_ k i l' -> l = l') /\ (forall k i k' i' l, at_ k i l -> at_ k' i' l -> k = k' /\ i = i') /\
    is_tree at_ h (document_tree d) 0 /\
    forall k i l, at_ k i l -> completed (dx_done x) at_ h k i l.
Proof.
  intros H Hd Hh. apply C74_document in Hd as [Hd _].
  destruct (run_good _ _ _ _ _ _ _ _ _ H (old_ok_nil 0)) as (G & K). destruct K as (F & S & _ & _ & _ & _ & (new & En & Fr) & (_ & _ & _ & O & On & Ky) & _ & Ap). cbn [app] in En. rewrite <- En in Fr. rewrite <- Hd in *.
  exists (there d (dx_done x)).
  split; [unfold there; intros k i l l' A B; congruence |]. split; [intros k i k' i' l; apply there_same |].
  assert (N : NoDup (map fst G)) by exact (proj1 (proj2 F)).
  assert (S' : sub (nmarks (fst d)) G) by exact (sub_trans _ _ _ (sub_left _ _) S).
  refine (objects_are d (dx_done x) G O On Ap _ N _ Fr Ky m h Hh).
  - exact (sub_nodup _ _ S' N).
  - exact (proj1 S').
Qed.

(* a document with a mention, a list of footnotes, a table of contents, a link and groups *)
Definition given (a : assign) : nat :=
  match a with AFootnote _ _ => 0 | AFootnotes _ _ => 1 | AInternal _ _ => 2 | AToc _ _ _ => 3 | AHeader _ _ _ => 4 | AGroup _ _ _ => 5 end.
Example C74_objects_ex : exists x d h, parsed linked_document = Ok x /\ document_of x = Some d /\ heap_of 14 d (dx_done x) = Ok h /\
  Forall (fun k => In k (map given (dx_done x))) [0; 1; 2; 3; 4; 5].
Proof.
  do 3 eexists. split; [vm_compute; reflexivity |]. split; [vm_compute; reflexivity |]. split; [vm_compute; reflexivity |].
  repeat (constructor; [cbn; tauto |]). constructor.
Qed.
