(* PropertiesDrawn.v -- C79: what a visitor gives for a text *)
From Verif Require Import NumDoc Build BuildFacts SpecVisitor PropertiesVisitor PropertiesVisit PropertiesBuild PropertiesNumbers PropertiesRender SpecParents SpecObjects ObjFacts PropertiesObjects PropertiesParents SpecDrawn DrawFacts PropertiesDoc Visitors PropertiesCli PropertiesJinja EnvFacts.
From Coq Require Import List Lia PeanoNat Permutation.
Import ListNotations.
#[local] Open Scope list_scope.
#[local] Notation length := List.length.

(* Every document that is rendered, by any visitor, is rendered as SpecDrawn.v says. *)
Theorem C79_rendered hk kw n cf e text o x d m r : parse_document n cf e text o = Ok x -> document_of x = Some d ->
  render_document hk kw m (Some d) (dx_done x) = Ok r -> rendered hk kw (dx_done x) d r.
Proof.
  intros H Hd Hr. cbn [render_document] in Hr. destruct (heap_of m d (dx_done x)) as [h |] eqn:Eh; cbn [rbind] in Hr; [| discriminate Hr].
  destruct (C74_objects _ _ _ _ _ _ _ _ _ H Hd Eh) as (at_ & _ & _ & T & Dn).
  destruct (C75_parents _ _ _ _ _ _ _ _ _ H Hd Eh) as (from & (root & E0 & _ & P0 & F0) & R).
  destruct (C68_objects_complete _ _ _ _ Eh) as (Cl & Pr & _).
  unfold rendered. rewrite <- F0.
  refine (good_drawn hk kw (dx_done x) h at_ from m 0 root (document_tree d) true None r _ E0 T (document_full d) _ Hr).
  - apply all_good; assumption.
  - rewrite P0. exact I.
Qed.

(* ------------------------------------------------------------- the visitors with templates *)
(* A node becomes the text that the template chosen for it makes of its data; the nodes in
   an attribute become their texts one after the other: on different lines in a document
   and in a source block, with spaces between the lines of a paragraph, and without
   anything in between elsewhere. *)
Lemma found_same v j err err' t : find_template v j err = Ok t -> find_template v j err' = Ok t.
Proof.
  unfold find_template. destruct (iter_value _) as [ps |]; cbn [rbind]; [| discriminate]. match goal with |- match ?l with _ => _ end = _ -> _ => destruct l as [| u r] end; [discriminate | auto].
Qed.
Theorem C79_node v render kw done from live pf t r : drawn (jinja_hooks v render) kw done from live pf t r ->
  exists tp dat s, (forall err, find_template v (tree_facet t, option_map tree_facet pf) err = Ok tp) /\ render (tp_name tp) (DtD dat) = Ok s /\ r = DtV (VStr s) /\
    data_of (jinja_hooks v render) kw done from live pf t dat.
Proof.
  intro D. inversion D as [from' live' pf' t' dat r' Da F]; subst. cbn [jinja_hooks hk_finish] in F.
  destruct (find_template v _ _) as [tp |] eqn:Et in F; cbn [rbind] in F; [| discriminate F]. destruct (render (tp_name tp) (DtD dat)) as [s |] eqn:Er; cbn [rbind] in F; [| discriminate F].
  exists tp, dat, s. split; [intro err; exact (found_same _ _ _ err _ Et) |]. split; [exact Er |]. split; [apply Ok_inv in F; congruence | exact Da].
Qed.
Theorem C79_content v render kw done from live pf k a c num fs dat name ts : data_of (jinja_hooks v render) kw done from live pf (Tree k a c num fs) dat ->
  In (name, TNodes ts) fs -> hidden k name = false -> exists texts,
    dget (lit name) dat = Some (DtV (VStr (join (match k with KDocument | KSource => lit (String (Ascii.ascii_of_nat 10) "") | KParagraph => lit " " | _ => [] end) texts))) /\
    Forall2 (fun t' s => exists from' pf', child_look from pf (Tree k a c num fs) name from' pf' /\ drawn (jinja_hooks v render) kw done from' live pf' t' (DtV (VStr s))) ts texts.
Proof.
  intros Da Hin Hh. inversion Da as [from0 live0 pf0 k0 a0 c0 num0 fs0 dat0 B P At _ _ _ _ _ _]; subst.
  destruct (At name (TNodes ts) Hin Hh) as (e & Ee & De). inversion De as [| from0 live0 pf0 t0 name0 ts0 rs F2 | | |]; subst.
  assert (X : exists texts, rs = map (fun s => DtV (VStr s)) texts /\
    Forall2 (fun t' s => exists from' pf', child_look from pf (Tree k a c num fs) name from' pf' /\ drawn (jinja_hooks v render) kw done from' live pf' t' (DtV (VStr s))) ts texts).
  { clear -F2. induction F2 as [| t' r0 ts rs (f' & pf' & Cl & Dr) F2 (texts & -> & F3)]; [exists []; split; [reflexivity | constructor] |].
    destruct (C79_node _ _ _ _ _ _ _ _ _ Dr) as (_ & _ & s & _ & _ & -> & _). exists (s :: texts). split; [reflexivity |]. constructor; eauto. }
  destruct X as (texts & -> & F3). exists texts. split; [| exact F3].
  rewrite Ee. cbn [jinja_hooks hk_list tree_kind]. rewrite map_map. cbn [text_of]. rewrite map_id. destruct k; reflexivity.
Qed.

(* The text of a document is the one that the template for the document makes of its data;
   there the content is the texts of the nodes, in order, on different lines. *)
Theorem C79_text v render kw done d r : rendered (jinja_hooks v render) kw done d r ->
  exists tp dat texts s, (forall err, find_template v (tree_facet (document_tree d), None) err = Ok tp) /\ render (tp_name tp) (DtD dat) = Ok s /\ r = DtV (VStr s) /\
    basics kw (document_tree d) dat /\ parent_entry kw None dat /\
    dget (lit "content") dat = Some (DtV (VStr (join [NL] texts))) /\
    Forall2 (fun node t => drawn (jinja_hooks v render) kw done Parsed true (Some (document_tree d)) (node_tree node) (DtV (VStr t))) (fst d) texts.
Proof.
  unfold rendered. intro D. destruct (C79_node _ _ _ _ _ _ _ _ _ D) as (tp & dat & s & Et & Er & -> & Da).
  unfold document_tree in Da. pose proof Da as Da0. inversion Da as [from live pf k a c num fs dat' B P _ _ _ _ _ _ _]; subst.
  destruct (C79_content _ _ _ _ _ _ _ _ _ _ _ _ _ _ _ Da0 (or_introl eq_refl) eq_refl) as (texts & Ec & F2). apply Forall2_unmap in F2.
  exists tp, dat, texts, s. split; [exact Et |]. split; [exact Er |]. split; [reflexivity |]. split; [exact B |]. split; [exact P |]. split; [exact Ec |].
  refine (Forall2_imp _ _ _ _ _ F2). intros node t (f' & pf' & Cl & Dr). cbn in Cl. destruct Cl as [-> ->]. exact Dr.
Qed.

(* A run of the command line with such a visitor writes the text of the document that was
   parsed (and a newline), with the templates and the environment that it has then. *)
Theorem C79_main w a f t name jc jinja n : op_format a = Some name -> dget name (wd_visitors w) = Some (jinja_class jc jinja n) -> In (Write f t) (fst (main w a)) ->
  exists e text x, main_environment w a = Ok e /\ wd_text w (op_input a) = Ok text /\
    parse_document (wd_depth w) (wd_config w) e text (mkOrigin 0 0 (Some (op_input a))) = Ok x /\
    ((document_of x = None /\ t = [NL]) \/
     exists d v s, document_of x = Some d /\ jinja_init jc (dx_env x) = Ok v /\ t = s ++ [NL] /\
       rendered (jinja_hooks v (jinja_render jinja v (dx_env x))) (mkKwargs true true) (dx_done x) d (DtV (VStr s))).
Proof.
  intros Ef Ev Hw. apply main_writes in Hw as (e & text & toks & x & v & out & Run & _ & _ & -> & _).
  inversion Run as [e0 text0 toks0 x0 f0 v0 out0 He Ht Hl _ Hp Hf Hv Hr]; subst. assert (f0 = name) by congruence. subst f0. assert (v = jinja_class jc jinja n) by congruence. subst v.
  exists e, text, x. split; [exact He |]. split; [exact Ht |]. split; [exact Hp |]. cbn [jinja_class vs_render] in Hr.
  destruct (jinja_init jc (dx_env x)) as [v |] eqn:Ei; cbn [rbind] in Hr; [| discriminate Hr].
  destruct (document_of x) as [d |] eqn:Ed.
  - right. destruct (render_document _ _ n (Some d) (dx_done x)) as [r |] eqn:Er; cbn [rbind] in Hr; [| discriminate Hr].
    pose proof (C79_rendered _ _ _ _ _ _ _ _ _ _ _ Hp Ed Er) as R. destruct (C79_node _ _ _ _ _ _ _ _ _ R) as (_ & _ & s & _ & _ & -> & _).
    cbn [text_of] in Hr. apply Ok_inv in Hr. subst out. exists d, v, s. split; [reflexivity |]. split; [first [exact Ei | reflexivity] |]. split; [reflexivity | exact R].
  - left. cbn in Hr. apply Ok_inv in Hr. subst out. split; reflexivity.
Qed.
(* and with the visitor that writes YAML, the data *)
Theorem C79_main_yaml w a f t name dump n : op_format a = Some name -> dget name (wd_visitors w) = Some (yaml_class dump n) -> In (Write f t) (fst (main w a)) ->
  exists e text x, main_environment w a = Ok e /\ wd_text w (op_input a) = Ok text /\
    parse_document (wd_depth w) (wd_config w) e text (mkOrigin 0 0 (Some (op_input a))) = Ok x /\
    ((document_of x = None /\ t = dump (DtD []) ++ [NL]) \/
     exists d r, document_of x = Some d /\ t = dump r ++ [NL] /\ rendered (base_hooks (fun d => d)) (mkKwargs true true) (dx_done x) d r).
Proof.
  intros Ef Ev Hw. apply main_writes in Hw as (e & text & toks & x & v & out & Run & _ & _ & -> & _).
  inversion Run as [e0 text0 toks0 x0 f0 v0 out0 He Ht Hl _ Hp Hf Hv Hr]; subst. assert (f0 = name) by congruence. subst f0. assert (v = yaml_class dump n) by congruence. subst v.
  exists e, text, x. split; [exact He |]. split; [exact Ht |]. split; [exact Hp |]. cbn [yaml_class vs_render] in Hr.
  destruct (document_of x) as [d |] eqn:Ed.
  - right. destruct (render_document _ _ n (Some d) (dx_done x)) as [r |] eqn:Er; cbn [rbind] in Hr; [| discriminate Hr].
    apply Ok_inv in Hr. subst out. exists d, r. split; [reflexivity |]. split; [reflexivity |]. exact (C79_rendered _ _ _ _ _ _ _ _ _ _ _ Hp Ed Er).
  - left. cbn in Hr. apply Ok_inv in Hr. subst out. split; reflexivity.
Qed.

Lemma all_flat jc e flat : all_templates jc e = Ok flat -> flat_env flat.
Proof.
  unfold all_templates. destruct (env_from_environment (jc_defaults jc) None) as [d |] eqn:Ed; cbn [rbind]; [| discriminate].
  destruct (load_providers jc e) as [p |]; cbn [rbind]; [| discriminate]. destruct (load_filesystem jc e) as [f |]; cbn [rbind]; [| discriminate].
  destruct (load_custom e) as [c |]; cbn [rbind]; [| discriminate]. intro H. apply Ok_inv in H. subst flat.
  assert (U : forall a o, flat_env a -> flat_env (env_update a o None true)).
  { intros a o Ha. unfold env_update. apply flat_dupd; [exact Ha |]. assert (G : flat_env (env_from_dict o None)) by (apply flat_dupdate, flat_empty). apply G. }
  do 3 apply U. unfold env_from_environment in Ed. destruct (env_asdict (jc_defaults jc)) as [nd |]; [| discriminate]. cbn [rbind] in Ed.
  assert (E : env_from_dict nd None = d) by congruence. rewrite <- E. apply flat_dupdate, flat_empty.
Qed.
Lemma build_names ext flat ts : build_templates ext flat = Ok ts -> NoDup (keys flat) -> NoDup (map tp_name ts).
Proof.
  revert ts. induction flat as [| [name content] flat IH]; intros ts H N; cbn [build_templates] in H.
  - apply Ok_inv in H. subst ts. constructor.
  - cbn [keys map fst] in N. inversion N as [| ? ? N1 N2]; subst. destruct (endswith ext name) eqn:E; [| apply IH; assumption].
    apply endswith_spec in E as [base ->]. rewrite removesuffix_app in H.
    destruct (from_name base content) as [t |] eqn:Et; cbn [rbind] in H; [| discriminate]. destruct (build_templates ext flat) as [ts' |] eqn:Eb; cbn [rbind] in H; [| discriminate].
    apply Ok_inv in H. subst ts. cbn [map]. constructor; [| exact (IH ts' eq_refl N2)].
    intro Hin. apply in_map_iff in Hin as (t' & En & Ht'). apply (C48_loaded _ _ _ Eb) in Ht' as (base' & c' & Hf & Hn).
    assert (Nm : forall b c u, from_name b c = Ok u -> tp_name u = b) by (intros b c u Hu; destruct (C49_names b c) as [(u' & Hu' & K & _) | [K _]]; [congruence | congruence]).
    rewrite (Nm _ _ _ Hn), (Nm _ _ _ Et) in En. subst base'. apply N1. exact (in_map fst _ _ Hf).
Qed.
Lemma source_of l t : NoDup (map tp_name l) -> In t l -> template_source l (tp_name t) = Some (tp_content t).
Proof.
  induction l as [| u l IH]; intros N Hin; [destruct Hin |]. cbn [map] in N. inversion N as [| ? ? N1 N2]; subst. cbn [template_source].
  destruct Hin as [-> | Hin].
  - destruct (template_source l (tp_name t)) as [c |] eqn:E.
    + exfalso. apply N1. clear -E. revert c E. induction l as [| u l IH]; intros c E; cbn [template_source] in E; [discriminate |]. cbn [map].
      destruct (template_source l (tp_name t)) as [c' |]; [right; exact (IH c' eq_refl) |]. destruct (str_eqb (tp_name t) (tp_name u)) eqn:En; [| discriminate]. apply str_eqb_eq in En. left. congruence.
    + rewrite str_eqb_refl. reflexivity.
  - rewrite (IH N2 Hin). reflexivity.
Qed.
Lemma insert_perm t l : Permutation (t :: l) (insert_tpl t l).
Proof.
  induction l as [| u l IH]; cbn [insert_tpl]; [apply Permutation_refl |].
  match goal with |- Permutation _ (if ?b then _ else _) => destruct b end; [| apply Permutation_refl]. eapply Permutation_trans; [apply perm_swap |]. apply perm_skip. exact IH.
Qed.
Lemma sorted_perm l : Permutation l (sort_templates l).
Proof. induction l as [| t l IH]; [constructor |]. cbn [sort_templates fold_right]. fold (sort_templates l). eapply Permutation_trans; [apply perm_skip; exact IH | apply insert_perm]. Qed.
(* The template that is rendered for a node is the one that was chosen, with the
   environment as its configuration. *)
Theorem C79_template jinja jc e v j err tp d s : jinja_init jc e = Ok v -> find_template v j err = Ok tp -> jinja_render jinja v e (tp_name tp) d = Ok s ->
  exists config, env_asdict e = Ok config /\ jinja (tp_content tp) config d = JText s.
Proof.
  intros Hi Hf Hr. unfold jinja_init in Hi. destruct (all_templates jc e) as [flat |] eqn:Ea; cbn [rbind] in Hi; [| discriminate].
  destruct (build_templates (jc_extension jc) flat) as [ts |] eqn:Eb; cbn [rbind] in Hi; [| discriminate]. apply Ok_inv in Hi. subst v.
  unfold jinja_render in Hr. cbn [jv_templates] in Hr.
  assert (N : NoDup (map tp_name (sort_templates ts))).
  { refine (Permutation_NoDup _ (build_names _ _ _ Eb (proj1 (all_flat _ _ _ Ea)))). apply Permutation_map. apply sorted_perm. }
  assert (Hin : In tp (sort_templates ts)).
  { unfold find_template in Hf. destruct (iter_value _) as [ps |]; cbn [rbind] in Hf; [| discriminate].
    match type of Hf with match ?l with _ => _ end = _ => destruct l as [| t0 r] eqn:El; [discriminate |] end. assert (t0 = tp) by congruence. subst t0.
    assert (K : In tp (tp :: r)) by (left; reflexivity). rewrite <- El in K. apply in_app_iff in K as [K | K]; [apply in_flat_map in K as (p & _ & K) |];
    unfold matching in K; apply filter_In in K as [K _]; apply filter_In in K as [K _]; exact K. }
  rewrite (source_of _ _ N Hin) in Hr. destruct (env_asdict e) as [config |]; cbn [rbind] in Hr; [| discriminate]. exists config. split; [reflexivity |]. destruct (jinja (tp_content tp) config d); [congruence | discriminate | discriminate].
Qed.

(* ------------------------------------------------------------- examples *)
(* a document with all that is given in the end, rendered by a visitor that shows the data *)
Example C79_ex : exists x d r, parsed linked_document = Ok x /\ document_of x = Some d /\
  render_document (base_hooks (fun d => d)) (mkKwargs true true) 14 (Some d) (dx_done x) = Ok r /\ Forall (fun k => In k (map given (dx_done x))) [0; 1; 2; 3; 4; 5].
Proof.
  do 3 eexists. split; [vm_compute; reflexivity |]. split; [vm_compute; reflexivity |]. split; [vm_compute; reflexivity |].
  repeat (constructor; [cbn; tauto |]). constructor.
Qed.
(* Templates that are names: what is rendered is the name, then the value or the content
   in parentheses. *)
Definition tiny (content : env_val) (config : dict env_val) (d : data) : outcome_of_jinja :=
  let entry (k : string) := match d with DtD l => match dget (lit k) l with Some (DtV (VStr s)) => s | _ => [] end | _ => [] end in
  match content with EStr c => JText (c ++ lit "(" ++ entry "value"%string ++ entry "content"%string ++ lit ")") | _ => JRaises (ExPy "TypeError") end.
Definition templates1 : jconfig := mkJconfig (lit "txt") [(lit "document.txt", EStr (lit "D")); (lit "paragraph.txt", EStr (lit "P")); (lit "paragraph-line.txt", EStr (lit "L"));
  (lit "text.txt", EStr (lit "t")); (lit "style.txt", EStr (lit "S")); (lit "text.pt_style.txt", EStr (lit "s"))] [] (fun _ => Ok []).
Definition world2 : world := mkWorld (fun _ => None) (fun f => Ok (mau "one *two*|three||four"))
  [(lit "tiny", jinja_class templates1 tiny 9)] (mkConfig (fun _ => Missing) (fun _ => lit "id") (fun _ => lit "fid") 100) 5.
Example C79_main_ex : main world2 (mkOptions None (lit "a.mau") None [] [] [] [] (Some (lit "tiny")) false false) =
  ([Write (lit "a.txt") (lit "D(P(L(t(one )S(s(two))) L(t(three)))" ++ [NL] ++ lit "P(L(t(four))))" ++ [NL])], Exit 0).
Proof. vm_compute. reflexivity. Qed.
