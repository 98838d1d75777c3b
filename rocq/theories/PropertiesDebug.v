(* PropertiesDebug.v -- C85: the nodes that have the internal tag "debug" are reported *)
From Verif Require Import Visitors Messages PropertiesCli PropertiesMessages PropertiesJinja PropertiesVisit PropertiesBuild PropertiesDrawn PropertiesObjects BlameFacts PropertiesBlame SpecVisitor PropertiesVisitor SpecJinja PropertiesDoc BuildFacts DrawFacts.
From Verif Require Import SpecBlame VisitLog SpecDebug.
From Coq Require Import List Lia PeanoNat String.
Import ListNotations.
#[local] Open Scope list_scope.
#[local] Notation length := List.length.

Lemma wbind_ok {A B} (m : W A) (f : A -> W B) ns b : wbind m f = (ns, Ok b) -> exists n1 a n2, m = (n1, Ok a) /\ f a = (n2, Ok b) /\ ns = n1 ++ n2.
Proof.
  unfold wbind. destruct m as [n1 [a|e]]; cbn [fst snd]; intros H; [|discriminate]. destruct (f a) as [n2 r] eqn:E. cbn [fst snd] in H. apply pair_equal_spec in H as [<- ->].
  exists n1, a, n2. auto.
Qed.
Lemma wbind_snd {A B} (m : W A) (f : A -> W B) : snd (wbind m f) = rbind (snd m) (fun a => snd (f a)).
Proof. unfold wbind. destruct (snd m); reflexivity. Qed.
Lemma wbind_fst {A B} (P : note -> Prop) (m : W A) (f : A -> W B) : Forall P (fst m) -> (forall a, snd m = Ok a -> Forall P (fst (f a))) -> Forall P (fst (wbind m f)).
Proof. intros H K. unfold wbind. destruct (snd m) as [a|e]; cbn [fst]; [|exact H]. apply Forall_app. split; [exact H|apply K; reflexivity]. Qed.
Lemma rbind_ext {A B} (m : res A) (f g : A -> res B) : (forall a, m = Ok a -> f a = g a) -> rbind m f = rbind m g.
Proof. destruct m; cbn [rbind]; auto. Qed.

Section Log.
  Context (hk : hooks) (kw : kwargs) (h : heap).

  (* the data of a node have what a message needs *)
  Definition own (o : obj) (d : data) : list note := if mem_str (lit "debug") (na_internal (o_args o)) then [mkNote (type_name (o_kind o)) (adjust_context (o_ctx o)) d] else [].
  Lemma data_notes n l d o : kw_context kw = true -> visit_data hk kw n h l = Ok d -> nth_error h l = Some o -> debug_notes (type_name (o_kind o)) d = Ok (own o d).
  Proof.
    intros Hc E Eo. destruct n as [|n]; [discriminate|]. cbn [visit_data] in E. rewrite Eo in E. destruct (visit_rows _ _ _ _ _) as [r|]; cbn [rbind] in E; [|discriminate]. apply Ok_inv in E. subst d.
    unfold debug_notes, own, default_data, node_data. rewrite Hc. cbn [app dget]. cbn. destruct (mem_str _ _); reflexivity.
  Qed.

  (* without the messages, it is the visit *)
  Lemma each_snd {A} (f : A -> W data) (g : A -> res data) l : (forall a, snd (f a) = g a) -> snd (lvisit_each f l) = visit_each g l.
  Proof. intros H. induction l as [|a l IH]; [reflexivity|]. cbn [lvisit_each visit_each]. rewrite wbind_snd, H. apply rbind_ext. intros d _. rewrite wbind_snd, IH. reflexivity. Qed.
  Lemma field_snd k df nf dg ng m f : (forall c, snd (df c) = dg c) -> (forall c, snd (nf c) = ng c) -> snd (lvisit_field hk k df nf m f) = visit_field hk k dg ng m f.
  Proof.
    intros H1 H2. unfold lvisit_field, visit_field. destruct m, f as [v|l|l|[c|]]; try reflexivity; try apply H1; try apply H2; rewrite wbind_snd; [rewrite (each_snd nf ng l H2)|rewrite (each_snd _ (fun kc : str * nat => ng (snd kc)) l (fun a => H2 (snd a)))]; reflexivity.
  Qed.
  Lemma rows_snd o df nf dg ng rows : (forall c, snd (df c) = dg c) -> (forall c, snd (nf c) = ng c) -> snd (lvisit_rows hk df nf o rows) = visit_rows hk dg ng o rows.
  Proof.
    intros H1 H2. induction rows as [|[[key k] m] rows IH]; [reflexivity|]. cbn [lvisit_rows visit_rows]. destruct (fget k (o_fields o)) as [f|]; [|reflexivity].
    rewrite wbind_snd, (field_snd _ _ _ dg ng _ _ H1 H2). apply rbind_ext. intros d _. rewrite wbind_snd, IH. reflexivity.
  Qed.
  Lemma finish_snd n l d : kw_context kw = true -> visit_data hk kw n h l = Ok d -> snd (lfinish hk h l d) = finish hk h l d.
  Proof.
    intros Hc E. unfold lfinish, finish. destruct (nth_error h l) as [o|] eqn:Eo; [|reflexivity]. rewrite (data_notes n l d o Hc E Eo). reflexivity.
  Qed.
  Lemma visit_data_snd n : kw_context kw = true -> forall l, snd (lvisit_data hk kw n h l) = visit_data hk kw n h l.
  Proof.
    intros Hc. induction n as [|n IH]; intros l; [reflexivity|]. cbn [lvisit_data visit_data]. destruct (nth_error h l) as [o|]; [|reflexivity]. rewrite wbind_snd.
    rewrite (rows_snd o _ _ (visit_data hk kw n h) (fun c => let? d := visit_data hk kw n h c in finish hk h c d) _ IH); [reflexivity|].
    intros c. rewrite wbind_snd, IH. apply rbind_ext. intros d Ed. exact (finish_snd n c d Hc Ed).
  Qed.
  Lemma visit_snd n l : kw_context kw = true -> snd (lvisit hk kw n h l) = visit hk kw n h l.
  Proof. intros Hc. unfold lvisit, visit. rewrite wbind_snd, (visit_data_snd n Hc). apply rbind_ext. intros d Ed. exact (finish_snd n l d Hc Ed). Qed.

  (* every message is about an object that has the tag *)
  Definition honest (nt : note) : Prop := exists l o, nth_error h l = Some o /\ In (lit "debug") (na_internal (o_args o)) /\ nt_type nt = type_name (o_kind o) /\ nt_place nt = adjust_context (o_ctx o).
  Lemma mem_in s l : mem_str s l = true <-> In s l.
  Proof.
    induction l as [|a l IH]; cbn [mem_str In]; [split; [discriminate|tauto]|]. destruct (str_eqb_spec s a) as [->|H]; cbn [orb]; [tauto|]. rewrite IH. split; [tauto|]. intros [->|K]; [congruence|exact K].
  Qed.
  Lemma finish_honest n l d : kw_context kw = true -> visit_data hk kw n h l = Ok d -> Forall honest (fst (lfinish hk h l d)).
  Proof.
    intros Hc E. unfold lfinish. destruct (nth_error h l) as [o|] eqn:Eo; [|constructor]. rewrite (data_notes n l d o Hc E Eo). cbn [fst]. unfold own.
    destruct (mem_str _ _) eqn:Em; [|constructor]. apply mem_in in Em. constructor; [|constructor]. exists l, o. auto.
  Qed.
  Lemma each_honest {A} (f : A -> W data) l : (forall a, Forall honest (fst (f a))) -> Forall honest (fst (lvisit_each f l)).
  Proof. intros H. induction l as [|a l IH]; [constructor|]. cbn [lvisit_each]. apply wbind_fst; [apply H|]. intros d _. apply wbind_fst; [exact IH|]. constructor. Qed.
  Lemma field_honest k df nf m f : (forall c, Forall honest (fst (df c))) -> (forall c, Forall honest (fst (nf c))) -> Forall honest (fst (lvisit_field hk k df nf m f)).
  Proof. intros H1 H2. unfold lvisit_field. destruct m, f as [v|l|l|[c|]]; try constructor; try apply H1; try apply H2; apply wbind_fst; try (apply each_honest; intros; apply H2); constructor. Qed.
  Lemma rows_honest o df nf rows : (forall c, Forall honest (fst (df c))) -> (forall c, Forall honest (fst (nf c))) -> Forall honest (fst (lvisit_rows hk df nf o rows)).
  Proof.
    intros H1 H2. induction rows as [|[[key k] m] rows IH]; [constructor|]. cbn [lvisit_rows]. destruct (fget k (o_fields o)) as [f|]; [|constructor].
    apply wbind_fst; [apply field_honest; assumption|]. intros d _. apply wbind_fst; [exact IH|]. constructor.
  Qed.
  Lemma visit_data_honest n : kw_context kw = true -> forall l, Forall honest (fst (lvisit_data hk kw n h l)).
  Proof.
    intros Hc. induction n as [|n IH]; intros l; [constructor|]. cbn [lvisit_data]. destruct (nth_error h l) as [o|]; [|constructor].
    apply wbind_fst; [|constructor]. apply rows_honest; [exact IH|]. intros c. apply wbind_fst; [apply IH|]. intros d Ed. rewrite visit_data_snd in Ed by exact Hc. exact (finish_honest n c d Hc Ed).
  Qed.
  Lemma visit_honest n l : kw_context kw = true -> Forall honest (fst (lvisit hk kw n h l)).
  Proof. intros Hc. apply wbind_fst; [apply visit_data_honest; exact Hc|]. intros d Ed. rewrite visit_data_snd in Ed by exact Hc. exact (finish_honest n l d Hc Ed). Qed.
End Log.

(* C85: the messages change nothing in what a visitor gives. *)
Theorem C85_output hk kw n doc done : kw_context kw = true -> snd (render_log hk kw n doc done) = render_document hk kw n doc done.
Proof. intros Hc. destruct doc as [d|]; [|reflexivity]. cbn [render_log render_document]. rewrite wbind_snd. cbn [wret snd]. apply rbind_ext. intros h _. exact (visit_snd hk kw h n 0 Hc). Qed.

(* C85: every message, of a visit that succeeds or not, is about a node of the document
   that has the tag, and it has its type and its place. *)
Theorem C85_only hk kw n d done nt : kw_context kw = true -> In nt (fst (render_log hk kw n (Some d) done)) ->
  exists k a c, appears d done k a c /\ In (lit "debug") (na_internal a) /\ nt_type nt = type_name k /\ for_people c (nt_place nt).
Proof.
  intros Hc H. cbn [render_log] in H. unfold wbind in H. cbn [wret snd fst app] in H. destruct (heap_of n d done) as [h|] eqn:Eh; [|destruct H].
  pose proof (heap_known d done n h Eh) as K. destruct (proj1 (Forall_forall _ _) (visit_honest hk kw h n 0 Hc) nt H) as (l & o & Eo & Hin & Et & Ep).
  exists (o_kind o), (o_args o), (o_ctx o). split; [exact (proj1 (Forall_forall _ _) K _ (nth_error_In _ _ Eo))|]. split; [exact Hin|]. split; [exact Et|]. rewrite Ep. apply adjusted.
Qed.
(* no tag, no message *)
Theorem C85_silent hk kw n d done : kw_context kw = true -> (forall k a c, appears d done k a c -> ~ In (lit "debug") (na_internal a)) -> fst (render_log hk kw n (Some d) done) = [].
Proof.
  intros Hc H. destruct (fst (render_log hk kw n (Some d) done)) as [|nt r] eqn:E; [reflexivity|exfalso].
  destruct (C85_only hk kw n d done nt Hc) as (k & a & c & Ha & Hin & _); [rewrite E; left; reflexivity|]. exact (H k a c Ha Hin).
Qed.

(* ---- every node that has the tag is reported *)
Definition later_on (k : kind) : bool := match k with KMacroFootnote | KMacroHeader | KToc | KFootnotes | KBlockGroup => true | _ => false end.
Definition node_mode (v : attr) (m : visit_mode) : Prop :=
  match v, m with TNodes _, VisitList | TNamed _, VisitDict | TOne _, VisitNode => True | _, _ => False end.
Inductive lined (all : bool) : list (string * attr) -> list (string * string * visit_mode) -> Prop :=
| l_nil : lined all [] []
| l_value nm v fs rows : lined all fs rows -> lined all ((nm, TValue v) :: fs) rows
| l_take nm v m fs rows : node_mode v m -> lined all fs rows -> lined all ((nm, v) :: fs) ((nm, nm, m) :: rows)
| l_skip key f m fs rows : (all = true -> m = AsIs) -> lined all fs rows -> lined all fs ((key, f, m) :: rows).
Inductive regular : tree -> Prop :=
| Regular k a c num fs : lined (negb (later_on k)) fs (visited k) -> Forall (fun nf : string * attr => regular_attr (snd nf)) fs -> regular (Tree k a c num fs)
with regular_attr : attr -> Prop :=
| reg_value v : regular_attr (TValue v)
| reg_nodes l : Forall regular l -> regular_attr (TNodes l)
| reg_named l : Forall (fun kt : str * tree => regular (snd kt)) l -> regular_attr (TNamed l)
| reg_none : regular_attr (TOne None)
| reg_one t : regular t -> regular_attr (TOne (Some t)).
Ltac line_up := cbn [visited later_on negb]; repeat first [apply l_nil | apply l_value | (apply l_take; [exact I|]) | (apply l_skip; [first [reflexivity | discriminate]|])].
Ltac is_regular := apply Regular; [line_up | repeat (apply Forall_cons; [cbn [snd]|]); try apply Forall_nil; try apply reg_value].
Lemma inode_regular : forall i, regular (inode_tree i).
Proof.
  fix IH 1. assert (IHl : forall l, Forall regular (map inode_tree l)) by (fix IHl 1; intros [| a l]; cbn [map]; constructor; [apply IH | apply IHl]).
  intros [v c | v c | v c | s l c | name a c | cl l c | t l c | u alt w hh c | id t l c | id name c | v c | v c]; cbn [inode_tree];
    try (is_regular; apply reg_nodes; apply IHl).
  destruct l as [| x l]; is_regular. apply reg_nodes. apply (IHl (x :: l)).
Qed.
Lemma inodes_regular l : Forall regular (map inode_tree l).
Proof. induction l; constructor; [apply inode_regular | assumption]. Qed.
Lemma labels_regular l : regular_attr (snd (labels_attr l)).
Proof. apply reg_named. induction l as [| [k v] l IH]; constructor; [| exact IH]. cbn [snd fst]. is_regular. apply reg_nodes, inodes_regular. Qed.
Lemma header_regular hd : regular (header_tree hd).
Proof. unfold header_tree, content_attr. unfold labels_attr at 1. is_regular; [apply reg_nodes, inodes_regular | apply (labels_regular (h_labels hd))]. Qed.
Lemma line_regular l : regular (line_tree l).
Proof. unfold line_tree, content_attr, labels_attr. is_regular; [apply reg_nodes, inodes_regular | apply (labels_regular [])]. Qed.
Lemma map_regular {A} (g : A -> tree) l : (forall a, regular (g a)) -> Forall regular (map g l).
Proof. intro H. induction l; constructor; auto. Qed.
Lemma node_regular : forall d, regular (node_tree d).
Proof.
  fix IH 1. assert (IHl : forall l, Forall regular (map node_tree l)) by (fix IHl 1; intros [| a l]; cbn [map]; constructor; [apply IH | apply IHl]).
  assert (R : forall ls, Forall regular (map raw_line_tree ls)) by (intro ls; apply map_regular; intro; unfold raw_line_tree; is_regular).
  assert (S : forall ls, Forall regular (map source_line_tree ls)).
  { intro ls; apply map_regular; intro sl; unfold source_line_tree; destruct (sl_marker sl) as [m |]; is_regular; cbn [option_map]; [apply reg_one; is_regular | apply reg_none]. }
  assert (P : forall ls, Forall regular (map line_tree ls)) by (intro ls; apply map_regular, line_regular).
  intros d; destruct d; cbn [node_tree app]; try apply header_regular; unfold content_attr; try unfold labels_attr;
  is_regular; try match goal with |- regular_attr (TNamed (map _ (at_labels ?a))) => apply (labels_regular (at_labels a)) end; apply reg_nodes; first [apply IHl | apply R | apply S | apply P | apply inodes_regular].
Qed.
Lemma document_regular d : regular (document_tree d).
Proof. unfold document_tree. is_regular. apply reg_nodes. apply map_regular, node_regular. Qed.

Lemma embeds_app {A B} (R : A -> B -> Prop) l m l' m' : embeds R l m -> embeds R l' m' -> embeds R (l ++ l') (m ++ m').
Proof. intros H K. induction H; [exact K| |]; cbn [app]; constructor; assumption. Qed.
Lemma embeds_none {A B} (R : A -> B -> Prop) m : embeds R [] m.
Proof. induction m; constructor; assumption. Qed.
(* all of them (and no others), or at least these *)
Definition reported (all : bool) (l : list tree) (ns : list note) : Prop := if all then Forall2 about l ns else embeds about l ns.
Lemma reported_app all l m l' m' : reported all l m -> reported all l' m' -> reported all (l ++ l') (m ++ m').
Proof. destruct all; [apply Forall2_app|apply embeds_app]. Qed.
Lemma reported_nil all : reported all [] [].
Proof. destruct all; constructor. Qed.

Section Every.
  Context (hk : hooks) (kw : kwargs) (h : heap) (at_ : kind -> nat -> nat -> Prop) (Hc : kw_context kw = true).

  Definition Told (all : bool) (n : nat) : Prop := forall l t ns r, is_tree at_ h t l -> regular t -> (all = true -> self_contained t) ->
    lvisit hk kw n h l = (ns, Ok r) -> reported all (filter wanted (finished t)) ns.
  Lemma each_told {A} all (f : A -> W data) (g : A -> tree -> Prop) : (forall a t ns r, g a t -> regular t -> (all = true -> self_contained t) -> f a = (ns, Ok r) -> reported all (filter wanted (finished t)) ns) ->
    forall l ts, Forall2 (fun t a => g a t) ts l -> Forall regular ts -> (all = true -> Forall self_contained ts) -> forall ns r, lvisit_each f l = (ns, Ok r) -> reported all (filter wanted (flat_map finished ts)) ns.
  Proof.
    intros H l ts F. induction F as [|t a ts l Ha _ IH]; intros Hr Hs ns r E; cbn [lvisit_each] in E.
    - unfold wret in E. apply pair_equal_spec in E as [<- _]. apply reported_nil.
    - inversion Hr as [|? ? R1 R2]; subst. apply wbind_ok in E as (n1 & d & n2 & E1 & E & ->). apply wbind_ok in E as (n3 & ds & n4 & E2 & E & ->). unfold wret in E. apply pair_equal_spec in E as [<- _]. rewrite app_nil_r.
      cbn [flat_map]. rewrite filter_app. apply reported_app.
      + apply (H a t n1 d Ha R1); [|exact E1]. intros X. specialize (Hs X). inversion Hs; assumption.
      + apply (IH R2) in E2; [exact E2|]. intros X. specialize (Hs X). inversion Hs; assumption.
  Qed.
  Lemma field_told all n k v m f ns r : Told all n -> is_attr at_ h v f -> regular_attr v -> node_mode v m -> (all = true -> match v with TNodes l => Forall self_contained l | TNamed l => Forall self_contained (map snd l) | TOne (Some t) => self_contained t | _ => True end) ->
    lvisit_field hk k (lvisit_data hk kw n h) (lvisit hk kw n h) m f = (ns, Ok r) -> reported all (filter wanted (finished_attr v)) ns.
  Proof.
    intros HT Ha Hr Hm Hs E. destruct Ha as [v|ts ls F|ts ls F| |t l T]; destruct m; try contradiction Hm; cbn [lvisit_field] in E; cbn [finished_attr].
    - apply wbind_ok in E as (n1 & d & n2 & E1 & E & ->). unfold wret in E. apply pair_equal_spec in E as [<- _]. rewrite app_nil_r. inversion Hr as [|? R| | |]; subst.
      refine (each_told all (lvisit hk kw n h) (fun l t => is_tree at_ h t l) _ ls ts F R Hs n1 d E1). intros a t ns r0 T R0 S0. exact (HT a t ns r0 T R0 S0).
    - apply wbind_ok in E as (n1 & d & n2 & E1 & E & ->). unfold wret in E. apply pair_equal_spec in E as [<- _]. rewrite app_nil_r. inversion Hr as [| |? R| |]; subst.
      assert (X : flat_map (fun kt : str * tree => finished (snd kt)) ts = flat_map finished (map snd ts)) by (clear; induction ts as [|a ts IH]; [reflexivity|]; cbn [flat_map map]; rewrite IH; reflexivity). rewrite X.
      refine (each_told all (fun kc : str * nat => lvisit hk kw n h (snd kc)) (fun l t => is_tree at_ h t (snd l)) _ ls (map snd ts) _ _ Hs n1 d E1).
      + intros a t ns r0 T R0 S0. exact (HT (snd a) t ns r0 T R0 S0).
      + clear -F. induction F as [|t l ts ls [_ T] _ IH]; constructor; assumption.
      + clear -R. induction R; constructor; assumption.
    - unfold wret in E. apply pair_equal_spec in E as [<- _]. apply reported_nil.
    - inversion Hr as [| | | |? R]; subst. exact (HT l t ns r T R Hs E).
  Qed.
  Definition parts_whole (v : attr) : Prop := match v with TNodes l => Forall self_contained l | TNamed l => Forall self_contained (map snd l) | TOne (Some t) => self_contained t | _ => True end.
  Lemma rows_told all x n o : Told all n -> (all = true -> x = true) -> forall fs rows, lined x fs rows ->
    Forall (fun nf : string * attr => exists f, fget (fst nf) (o_fields o) = Some f /\ is_attr at_ h (snd nf) f) fs -> Forall (fun nf : string * attr => regular_attr (snd nf)) fs -> (all = true -> Forall (fun nf : string * attr => parts_whole (snd nf)) fs) ->
    forall ns r, lvisit_rows hk (lvisit_data hk kw n h) (lvisit hk kw n h) o rows = (ns, Ok r) -> reported all (filter wanted (flat_map (fun nf : string * attr => finished_attr (snd nf)) fs)) ns.
  Proof.
    intros HT Hx fs rows L. induction L as [|nm v fs rows _ IH|nm v m fs rows Hm _ IH|key f m fs rows Hm _ IH]; intros Hf Hr Hs ns r E.
    - cbn in E. unfold wret in E. apply pair_equal_spec in E as [<- _]. apply reported_nil.
    - inversion Hf as [|? ? _ Hf2]; subst. inversion Hr as [|? ? _ Hr2]; subst. cbn [flat_map snd finished_attr app]. apply (IH Hf2 Hr2) in E; [exact E|]. intros X. specialize (Hs X). inversion Hs; assumption.
    - inversion Hf as [|? ? (f & Ef & Ha) Hf2]; subst. inversion Hr as [|? ? R1 Hr2]; subst. cbn [fst snd] in *. cbn [lvisit_rows] in E. rewrite Ef in E. apply wbind_ok in E as (n1 & d & n2 & E1 & E & ->). apply wbind_ok in E as (n3 & ds & n4 & E2 & E & ->). unfold wret in E. apply pair_equal_spec in E as [<- _]. rewrite app_nil_r.
      cbn [flat_map snd]. rewrite filter_app. apply reported_app.
      + refine (field_told all n _ v m f n1 d HT Ha R1 Hm _ E1). intros X. specialize (Hs X). inversion Hs as [|? ? S1 _]; subst. exact S1.
      + apply (IH Hf2 Hr2) in E2; [exact E2|]. intros X. specialize (Hs X). inversion Hs; assumption.
    - cbn [lvisit_rows] in E. destruct (fget f (o_fields o)) as [f0|]; [|discriminate E]. apply wbind_ok in E as (n1 & d & n2 & E1 & E & ->). apply wbind_ok in E as (n3 & ds & n4 & E2 & E & ->). unfold wret in E. apply pair_equal_spec in E as [<- _]. rewrite app_nil_r.
      apply (IH Hf Hr Hs) in E2. destruct all.
      + rewrite (Hm (Hx eq_refl)) in E1. cbn [lvisit_field] in E1. destruct f0; try discriminate E1. unfold wret in E1. apply pair_equal_spec in E1 as [<- _]. exact E2.
      + exact (embeds_app _ [] n1 _ n3 (embeds_none _ _) E2).
  Qed.
  Lemma whole_parts k a c num fs : self_contained (Tree k a c num fs) -> Forall (fun nf : string * attr => parts_whole (snd nf)) fs.
  Proof.
    intros H. apply Forall_forall. intros [nm v] Hin. cbn [snd]. destruct v as [v|l|l|[t|]]; cbn [parts_whole]; try exact I.
    - apply Forall_forall. intros t Ht u Hu. apply H. eapply sub_nodes; eassumption.
    - apply Forall_forall. intros t Ht u Hu. apply in_map_iff in Ht as ([key t'] & <- & Ht). apply H. eapply sub_named; eassumption.
    - intros u Hu. apply H. eapply sub_one; eassumption.
  Qed.
  Lemma every_told all n : Told all n.
  Proof.
    induction n as [|n IH]; intros l t ns r T R S E; [discriminate E|]. unfold lvisit in E. apply wbind_ok in E as (n1 & d & n2 & E1 & E & ->).
    assert (Ed : visit_data hk kw (Datatypes.S n) h l = Ok d) by (rewrite <- (visit_data_snd hk kw h _ Hc), E1; reflexivity).
    destruct T as [k a c num fs l o Eo Ek Ea Ec Hn Hf]. inversion R as [? ? ? ? ? Hl Hr]; subst. cbn [finished]. rewrite filter_app. apply reported_app.
    - cbn [lvisit_data] in E1. rewrite Eo in E1. apply wbind_ok in E1 as (n3 & ds & n4 & E2 & E1 & ->). unfold wret in E1. apply pair_equal_spec in E1 as [<- _]. rewrite app_nil_r.
      refine (rows_told all _ n o IH _ fs _ Hl Hf Hr _ n3 ds E2).
      + intros X. specialize (S X). specialize (S _ (sub_self _)). cbn [tree_kind] in S. destruct (o_kind o); try reflexivity; exfalso; apply S; cbn; tauto.
      + intros X. exact (whole_parts _ _ _ _ _ (S X)).
    - unfold lfinish in E. rewrite Eo, (data_notes hk kw h _ l d o Hc Ed Eo) in E. apply pair_equal_spec in E as [<- _]. unfold own. cbn [filter]. unfold wanted at 1. cbn [tree_args]. destruct (mem_str _ _); [|apply reported_nil].
      assert (A : about (Tree (o_kind o) (o_args o) (o_ctx o) num fs) (mkNote (type_name (o_kind o)) (adjust_context (o_ctx o)) d)).
      { split; [reflexivity|]. split; [apply adjusted|]. cbn [visit_data] in Ed. rewrite Eo in Ed. destruct (visit_rows _ _ _ _ _) as [rr|]; cbn [rbind] in Ed; [|discriminate]. apply Ok_inv in Ed. subst d. eexists. split; [reflexivity|]. repeat split. }
      destruct all; constructor; [exact A|constructor|exact A|constructor].
  Qed.
End Every.

(* C85: when a document is rendered, each node of it that has the tag is reported, in the
   order of the document, what is in a node before the node. *)
Theorem C85_every hk kw n cf e text o x d m r : kw_context kw = true -> parse_document n cf e text o = Ok x -> document_of x = Some d ->
  render_document hk kw m (Some d) (dx_done x) = Ok r -> embeds about (filter wanted (finished (document_tree d))) (fst (render_log hk kw m (Some d) (dx_done x))).
Proof.
  intros Hc H Hd Hr. pose proof (C85_output hk kw m (Some d) (dx_done x) Hc) as Eo. rewrite Hr in Eo. destruct (render_log hk kw m (Some d) (dx_done x)) as [ns r'] eqn:El. cbn [snd fst] in *. subst r'.
  cbn [render_log] in El. apply wbind_ok in El as (n1 & h & n2 & E1 & El & ->). unfold wret in E1. apply pair_equal_spec in E1 as [<- Eh]. cbn [app].
  destruct (C74_objects _ _ _ _ _ _ _ _ _ H Hd Eh) as (at_ & _ & _ & T & _).
  refine (every_told hk kw h at_ Hc false m 0 (document_tree d) n2 r T (document_regular d) _ El). discriminate.
Qed.
(* C85: a document without mentions of footnotes, links to headers, tables of contents,
   lists of footnotes and groups: these are the messages. *)
Theorem C85_exactly hk kw n cf e text o x d m r : kw_context kw = true -> parse_document n cf e text o = Ok x -> document_of x = Some d -> self_contained (document_tree d) ->
  render_document hk kw m (Some d) (dx_done x) = Ok r -> Forall2 about (filter wanted (finished (document_tree d))) (fst (render_log hk kw m (Some d) (dx_done x))).
Proof.
  intros Hc H Hd Hs Hr. pose proof (C85_output hk kw m (Some d) (dx_done x) Hc) as Eo. rewrite Hr in Eo. destruct (render_log hk kw m (Some d) (dx_done x)) as [ns r'] eqn:El. cbn [snd fst] in *. subst r'.
  cbn [render_log] in El. apply wbind_ok in El as (n1 & h & n2 & E1 & El & ->). unfold wret in E1. apply pair_equal_spec in E1 as [<- Eh]. cbn [app].
  destruct (C74_objects _ _ _ _ _ _ _ _ _ H Hd Eh) as (at_ & _ & _ & T & _).
  refine (every_told hk kw h at_ Hc true m 0 (document_tree d) n2 r T (document_regular d) _ El). intros _. exact Hs.
Qed.

(* Examples, with the visitor that has no templates. *)
Definition notes_in (kw : kwargs) (s : string) : res (list (str * nat * nat)) * bool :=
  match parse_document 6 cf0 [] (mau s) (mkOrigin 0 0 (Some (lit "a"))) with
  | Ok x => let w := render_log (base_hooks (fun d => d)) kw 40 (document_of x) (dx_done x) in
            (Ok (map (fun nt => (nt_type nt, c_start_line (nt_place nt), c_start_column (nt_place nt))) (fst w)), match snd w with Ok _ => true | _ => false end)
  | Exc e => (Exc e, false)
  end.
Definition with_context : kwargs := mkKwargs true true.
Example C85_ex : notes_in with_context "[#mau:debug]|= One||[#mau:debug]|two||[#mau:debug]|----|[#mau:debug]|* three|----" =
  (Ok [(lit "header", 2, 0); (lit "paragraph", 5, 0); (lit "list", 10, 0); (lit "block", 8, 0)], true).
Proof. vm_compute. reflexivity. Qed.
Example C85_ex_silent : notes_in with_context "[#debug]|= One||two" = (Ok [], true).
Proof. vm_compute. reflexivity. Qed.
(* what is in a footnote is reported where it is mentioned and where it is listed *)
Example C85_ex_footnote : notes_in with_context "a [footnote](b)||[footnote=b]|----|[#mau:debug]|* three|----||<< footnotes" =
  (Ok [(lit "list", 6, 0); (lit "list", 6, 0)], true).
Proof. vm_compute. reflexivity. Qed.
(* the nodes are all the nodes *)
Lemma finished_in k a c num fs nm v u : In (nm, v) fs -> In u (finished_attr v) -> In u (finished (Tree k a c num fs)).
Proof. intros H K. cbn [finished]. apply in_or_app. left. apply in_flat_map. exists (nm, v). split; [exact H|exact K]. Qed.
Theorem C85_finished u t : subnode u t -> In u (finished t).
Proof.
  intros H. induction H as [|k a c num fs name l w Hf Hl _ IH|k a c num fs name l key w Hf Hl _ IH|k a c num fs name w Hf _ IH].
  - destruct u. cbn [finished]. apply in_or_app. right. left. reflexivity.
  - eapply finished_in; [exact Hf|]. cbn [finished_attr]. apply in_flat_map. exists w. split; [exact Hl|exact IH].
  - eapply finished_in; [exact Hf|]. cbn [finished_attr]. apply in_flat_map. exists (key, w). split; [exact Hl|exact IH].
  - eapply finished_in; [exact Hf|]. cbn [finished_attr]. exact IH.
Qed.
Lemma contained t : forallb (fun u => negb (later_on (tree_kind u))) (finished t) = true -> self_contained t.
Proof.
  intros H u Hu K. apply C85_finished in Hu. rewrite forallb_forall in H. specialize (H u Hu). cbn [In] in K. destruct (tree_kind u); cbn in H; try discriminate H; repeat (destruct K as [K|K]; [discriminate K|]); destruct K.
Qed.
(* the hypotheses of C85_exactly *)
Definition debug_doc := mau "[#mau:debug]|----|[#mau:debug]|* three|----".
Example C85_ex_hypotheses : exists x d r, parse_document 6 cf0 [] debug_doc (mkOrigin 0 0 (Some (lit "a"))) = Ok x /\ document_of x = Some d /\
  self_contained (document_tree d) /\ render_document (base_hooks (fun d => d)) with_context 40 (Some d) (dx_done x) = Ok r /\
  map tree_kind (filter wanted (finished (document_tree d))) = [KList; KBlock].
Proof.
  assert (K : match parse_document 6 cf0 [] debug_doc (mkOrigin 0 0 (Some (lit "a"))) with
    | Ok x => match document_of x with
        | Some d => (forallb (fun u => negb (later_on (tree_kind u))) (finished (document_tree d)) && match render_document (base_hooks (fun d => d)) with_context 40 (Some d) (dx_done x) with Ok _ => true | _ => false end)%bool = true /\
            map tree_kind (filter wanted (finished (document_tree d))) = [KList; KBlock]
        | None => False end
    | Exc _ => False end) by (vm_compute; split; reflexivity).
  destruct (parse_document _ _ _ debug_doc _) as [x|]; [|destruct K]. destruct (document_of x) as [d|] eqn:Ed; [|destruct K]. destruct K as [K1 K2]. apply andb_prop in K1 as [K1 K3].
  destruct (render_document _ _ _ _ _) as [r|] eqn:Er; [|discriminate K3]. exists x, d, r. split; [reflexivity|]. split; [exact Ed|]. split; [exact (contained _ K1)|]. split; [exact Er|exact K2].
Qed.
(* A block of a group is visited twice, once for its data: what is in it is reported twice. *)
Theorem C85_refuted_once : notes_in with_context "[#mau:debug,group=g,position=p]|----|[#mau:debug]|* three|----||<< blockgroup:g" =
  (Ok [(lit "list", 4, 0); (lit "list", 4, 0); (lit "block", 2, 0)], true).
Proof. vm_compute. reflexivity. Qed.
(* The tag of the block that is the body of a footnote is lost, as all its arguments. *)
Theorem C85_refuted_footnote : notes_in with_context "a [footnote](b)||[#mau:debug,footnote=b]|----|c|----||<< footnotes" = (Ok [], true).
Proof. vm_compute. reflexivity. Qed.
(* A visitor that is told to leave out the contexts does not survive the tag (finding 31). *)
Theorem C85_refuted_context : notes_in (mkKwargs false true) "two" = (Ok [], true) /\ notes_in (mkKwargs false true) "[#mau:debug]|two" = (Ok [], false).
Proof. vm_compute. auto. Qed.

(* the lines of the log *)
Theorem C85_lines t nt : about t nt -> exists place, log_note nt =
  [lit "[MAU] Visitor message"; lit "[MAU] Message: This is a debug message activated by a Mau internal tag."; lit "[MAU] Context: " ++ place; lit "[MAU] Node type: " ++ type_name (tree_kind t)] /\
  exists c, for_people (tree_ctx t) c /\ shows_context place c.
Proof.
  intros (E & Hp & _). exists (write_context (nt_place nt)). split; [|exists (nt_place nt); split; [exact Hp|apply any_context]].
  unfold log_note. rewrite E. destruct (tree_kind t); reflexivity.
Qed.
