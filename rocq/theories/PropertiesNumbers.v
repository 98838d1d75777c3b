(* PropertiesNumbers.v -- C69: links and groups go where they say *)
From Verif Require Import NumDoc PropertiesRender.

Lemma all_in next done G x : child_ok next done G x -> (forall y : nat * later, In y (amarks done) -> In y G) -> incl (all_marks x) G.
Proof.
  intros (_ & S & _ & _ & _ & _ & (new & E & F) & _) Hd m Hm. unfold all_marks in Hm. rewrite flat_map_app in Hm. apply in_app_or in Hm as [Hm|Hm].
  - apply (proj1 S), in_or_app. left. exact Hm.
  - change (In m (amarks (dx_done x))) in Hm. rewrite E, amarks_app in Hm. apply in_app_or in Hm as [Hm|Hm]; [exact (Hd _ Hm)|exact (right_all _ _ F _ Hm)].
Qed.
Lemma nodup_same (G : marks) i u v : NoDup (map fst G) -> In (i, u) G -> In (i, v) G -> u = v.
Proof.
  intros H. induction G as [|[j w] G IH]; cbn [map fst] in *; [intros []|]. inversion H as [|? ? N D]. subst.
  intros [E|H1] [E'|H2].
  - congruence.
  - exfalso. apply N. assert (j = i) as -> by congruence. exact (in_map fst _ _ H2).
  - exfalso. apply N. assert (j = i) as -> by congruence. exact (in_map fst _ _ H1).
  - apply IH; assumption.
Qed.
Lemma document_good n cf e text o x : parse_document n cf e text o = Ok x ->
  exists G, fresh 0 (dx_next x) G /\ sub (nmarks (dx_nodes x)) G /\ incl (all_marks x) G /\ Forall (right G) (dx_done x) /\ layered (dx_done x).
Proof.
  intros H. destruct (run_good _ _ _ _ _ _ _ _ _ H (old_ok_nil 0)) as (G & K). exists G. pose proof K as (F & S & _ & _ & _ & _ & (new & E & R) & (L & _) & _).
  split; [exact F|]. split; [eapply sub_trans; [apply sub_left|exact S]|]. split; [apply (all_in _ _ _ _ K); intros y []|]. split; [|exact L]. rewrite E. exact R.
Qed.

(* No node is at two places of the document. *)
Theorem C69_no_node_twice n cf e text o x : parse_document n cf e text o = Ok x -> NoDup (map fst (flat_map dmarks (dx_nodes x))).
Proof. intros H. destruct (document_good _ _ _ _ _ _ H) as (G & (_ & N & _) & S & _). exact (sub_nodup _ _ S N). Qed.

(* Nor is a node in two of the blocks that are shown elsewhere (bodies of footnotes,
   blocks of groups), or in one of them and in the document. *)
Theorem C69_no_block_shares n cf e text o x : parse_document n cf e text o = Ok x ->
  (forall b c i, In b (flat_map set_apart (dx_done x)) -> In c (flat_map set_apart (dx_done x)) -> In i (map fst (dmarks b)) -> In i (map fst (dmarks c)) -> b = c) /\
  (forall b c i, In b (flat_map set_apart (dx_done x)) -> In c (dx_nodes x) -> In i (map fst (dmarks b)) -> ~ In i (map fst (dmarks c))).
Proof.
  intros H. destruct (run_good _ _ _ _ _ _ _ _ _ H (old_ok_nil 0)) as (G & K). destruct K as (_ & _ & _ & _ & _ & _ & _ & (_ & _ & _ & O & _) & _ & B). split.
  - intros b c i Hb Hc Hi Hj. apply (O b c Hb Hc). exists i. auto.
  - intros b c i Hb Hc Hi Hj. apply (B b i Hb Hi). exact (nums_in _ _ _ Hc Hj).
Qed.
(* Nodes with the same number are the same. *)
Theorem C69_one_node n cf e text o x i u v : parse_document n cf e text o = Ok x -> In (i, u) (all_marks x) -> In (i, v) (all_marks x) -> u = v.
Proof. intros H. destruct (document_good _ _ _ _ _ _ H) as (G & (_ & N & _) & _ & I & _). intros Hu Hv. exact (nodup_same _ _ _ _ N (I _ Hu) (I _ Hv)). Qed.

(* What is assigned to a node is what the node asks for. *)
Theorem C69_goes_where_it_says n cf e text o x a w : parse_document n cf e text o = Ok x ->
  In a (dx_done x) -> In (assigned a, w) (all_marks x) -> agrees w a.
Proof.
  intros H Ha Hw. destruct (document_good _ _ _ _ _ _ H) as (G & (_ & N & _) & _ & I & R & _). apply I in Hw.
  rewrite Forall_forall in R. destruct (R _ Ha) as [_ K]. destruct a as [id f|id l|id s|id ne p|id h c|id m it]; cbn [assigned] in Hw.
  - destruct K as (c & K). rewrite (nodup_same _ _ _ _ N Hw K). reflexivity.
  - rewrite (nodup_same _ _ _ _ N Hw K). exact Logic.I.
  - destruct K as (h & K). rewrite (nodup_same _ _ _ _ N Hw K). exact Logic.I.
  - destruct K as (K & _). rewrite (nodup_same _ _ _ _ N Hw K). exact Logic.I.
  - destruct K as (t & l & c' & K & E & _). rewrite (nodup_same _ _ _ _ N Hw K). exact E.
  - destruct K as (nm & K & Hi). rewrite (nodup_same _ _ _ _ N Hw K). exact Hi.
Qed.
(* The headers in links and tables of contents are those of the document, but for the id. *)
Theorem C69_headers_of_the_document n cf e text o x a h w : parse_document n cf e text o = Ok x ->
  In a (dx_done x) -> In h (headers_in a) -> In (h_id h, w) (all_marks x) -> w = LHeader (bare h).
Proof.
  intros H Ha Hh Hw. destruct (document_good _ _ _ _ _ _ H) as (G & (_ & N & _) & _ & I & R & _). apply I in Hw.
  rewrite Forall_forall in R. destruct (R _ Ha) as [_ K]. destruct a as [id f|id l|id s|id ne p|id h' c|id m it]; cbn [headers_in] in Hh; try destruct Hh.
  - destruct K as (_ & K & _). rewrite Forall_forall in K. apply (nodup_same _ _ _ _ N Hw). apply (K _ Hh). left. reflexivity.
  - subst h'. destruct K as (t & l & c' & _ & _ & K). apply (nodup_same _ _ _ _ N Hw). apply K. left. reflexivity.
  - contradiction.
Qed.
(* A block of a group that shows a group shows one that was filled before: groups never
   contain themselves. *)
Theorem C69_groups_are_layered n cf e text o x id made items id' made' items' b nm : parse_document n cf e text o = Ok x ->
  In (AGroup id made items) (dx_done x) -> In (AGroup id' made' items') (dx_done x) ->
  In b (map snd items) -> In (id', LGroup nm) (dmarks b) -> made' < made.
Proof. intros H. destruct (document_good _ _ _ _ _ _ H) as (G & _ & _ & _ & _ & L). apply L. Qed.

(* a document with nodes of all the kinds: what they say, and the assignments *)
Definition linked_document : string :=
  "[name=me]|= T||a [header](me) b [footnote](x)||[footnote=x]|----|*b*|----||[group=g,position=p]|----|q|<< blockgroup:h|[group=h,position=p]|++++|z|++++|----||<< footnotes||<< toc||<< blockgroup:g||".
Definition kind (w : later) : string :=
  match w with LMention _ _ => "mention" | LLink _ _ _ => "link" | LHeader _ => "header" | LToc => "toc" | LFootnotes => "footnotes" | LGroup _ => "group" end.
Example C69_ex : exists x, parsed linked_document = Ok x /\
  map (fun m => (fst m, kind (snd m))) (all_marks x) =
    [(0, "header"); (1, "link"); (2, "mention"); (4, "footnotes"); (5, "toc"); (6, "group"); (3, "group")]%string /\
  map assigned (dx_done x) = [3; 2; 4; 0; 5; 1; 6] /\
  exists id made items id' made' items', In (AGroup id made items) (dx_done x) /\ In (AGroup id' made' items') (dx_done x) /\ made' < made.
Proof.
  eexists. split; [vm_compute; reflexivity|]. split; [vm_compute; reflexivity|]. split; [vm_compute; reflexivity|].
  do 6 eexists. cbn [dx_done]. split; [do 6 right; left; reflexivity|]. split; [left; reflexivity|]. lia.
Qed.
