(* PropertiesTemplate.v -- C72: the text of a node is its template, applied to its data *)
From Verif Require Import SpecJinja PropertiesJinja SpecVisitor PropertiesVisitor PropertiesVisit.
From Coq Require Import List Lia.
Import ListNotations.
#[local] Open Scope list_scope.
#[local] Notation length := List.length.

(* The attributes of the classes that the name of a template can ask for. *)
Inductive template_field : kind -> string -> Prop :=
| tf_style : template_field KStyle "style"             (* star, underscore, caret, ... *)
| tf_macro : template_field KMacro "name"              (* a macro that is not known *)
| tf_group : template_field KBlockGroup "name"
| tf_item : template_field KBlockGroupItem "position"
| tf_label : template_field KLabel "role"
| tf_include : template_field KInclude "ctype".        (* a content that is not known *)
(* f is what templates see of o *)
Definition seen (o : obj) (f : facet) : Prop :=
  fc_type f = type_name (o_kind o) /\ fc_subtype f = na_subtype (o_args o) /\ fc_tags f = na_tags (o_args o) /\
  forall k v, dget k (fc_custom f) = Some v <->
    exists name, template_field (o_kind o) name /\ k = lit name /\ fget name (o_fields o) = Some (Plain (VStr v)).
(* what is between the texts of the nodes in a node *)
Definition separator (k : kind) (s : str) : Prop :=
  (k = KDocument \/ k = KSource -> s = [NL]) /\ (k = KParagraph -> s = lit " ") /\
  (k <> KDocument -> k <> KSource -> k <> KParagraph -> s = []).

Lemma facet_seen o : seen o (facet_of o).
Proof.
  unfold seen, facet_of. cbn [fc_type fc_subtype fc_tags fc_custom]. do 3 (split; [reflexivity|]). intros k v. unfold custom_fields. split.
  - intros H. apply dget_in in H. apply in_flat_map in H as (name & Hn & H). destruct (fget name (o_fields o)) as [[[| s | | | ] | | | ]|] eqn:E; try contradiction. destruct H as [H|[]].
    apply pair_equal_spec in H as [<- <-]. exists name. split; [|split; [reflexivity|exact E]]. revert Hn. destruct (o_kind o); cbn; intros Hn; repeat (destruct Hn as [Hn|Hn]); try destruct Hn; constructor.
  - intros (name & Ht & -> & E). assert (K : custom_names (o_kind o) = [name]) by (destruct Ht; reflexivity). rewrite K. cbn [flat_map]. rewrite E. cbn [app dget]. rewrite str_eqb_refl. reflexivity.
Qed.
Lemma seen_unique o f : seen o f -> forall k, dget k (fc_custom f) = dget k (fc_custom (facet_of o)).
Proof.
  intros (_ & _ & _ & H) k. destruct (facet_seen o) as (_ & _ & _ & K). destruct (dget k (fc_custom f)) as [v|] eqn:E.
  - symmetry. apply K, H, E.
  - destruct (dget k (fc_custom (facet_of o))) as [w|] eqn:E2; [|reflexivity]. apply K, H in E2. congruence.
Qed.
Lemma type_names_distinct a b : type_name a = type_name b -> a = b.
Proof. intros H. apply lit_inj in H. destruct a; destruct b; try reflexivity; discriminate H. Qed.

(* Every visit of a node with the Jinja visitor: the template is the one that C48
   chooses for the class, the subtype, the tags and the fields of the node and of its
   parent; it is applied to the data, which have the texts of the nodes in the node,
   in order, with the separator of the class. *)
Theorem C72_rendered jc e flat ts v prefixes render kw n h l d :
  all_templates jc e = Ok flat -> build_templates (jc_extension jc) flat = Ok ts ->
  jinja_init jc e = Ok v -> iter_value (env_get e (lit "mau.visitor.templates.prefixes")) = Ok prefixes ->
  proper_heap h -> visit (jinja_hooks v render) kw (S n) h l = Ok d ->
  exists o f pf t dat s, nth_error h l = Some o /\ seen o f /\
    match parent_of h o, pf with Some p, Some g => seen p g | None, None => True | _, _ => False end /\
    chosen ts prefixes (f, pf) t /\ render (tp_name t) (DtD dat) = Ok s /\ d = DtV (VStr s) /\
    shown_of_node kw o dat /\
    (forall name x, In (name, Plain x) (o_fields o) -> hidden (o_kind o) name = false -> dget (lit name) dat = Some (DtV x)) /\
    (forall name cs, In (name, Nodes cs) (o_fields o) -> hidden (o_kind o) name = false ->
       exists texts sep, Forall2 (fun c s => visit (jinja_hooks v render) kw n h c = Ok (DtV (VStr s))) cs texts /\
         separator (o_kind o) sep /\ dget (lit name) dat = Some (DtV (VStr (join sep texts)))) /\
    (forall name cs, In (name, Named cs) (o_fields o) -> hidden (o_kind o) name = false ->
       exists texts, Forall2 (fun c s => visit (jinja_hooks v render) kw n h (snd c) = Ok (DtV (VStr s))) cs texts /\
         dget (lit name) dat = Some (DtD (combine (map fst cs) (map (fun s => DtV (VStr s)) texts)))).
Proof.
  intros H1 H2 H3 H4 Hp Hv.
  assert (T : forall n c d, visit (jinja_hooks v render) kw n h c = Ok d -> exists s, d = DtV (VStr s)).
  { intros m c dd E. unfold visit in E. destruct (visit_data _ kw m h c) as [d0|]; [|discriminate]. cbn [rbind] in E. unfold finish in E.
    destruct (nth_error h c) as [oc|]; [|discriminate]. cbn [jinja_hooks hk_finish] in E. destruct (find_template v (jnode_of h oc) _) as [t|]; [|discriminate]. cbn [rbind] in E.
    destruct (render (tp_name t) d0) as [s|]; [|discriminate]. cbn [rbind] in E. exists s. congruence. }
  assert (T2 : forall l ds, Forall2 (fun c d => visit (jinja_hooks v render) kw n h c = Ok d) l ds -> exists texts, ds = map (fun s => DtV (VStr s)) texts).
  { induction 1 as [|c d0 cs ds E _ (ts0 & ->)]; [exists []; reflexivity|]. destruct (T _ _ _ E) as (s & ->). exists (s :: ts0). reflexivity. }
  unfold visit in Hv. destruct (visit_data _ kw (S n) h l) as [dat|] eqn:Ed; [|discriminate]. cbn [rbind] in Hv. unfold finish in Hv.
  destruct (nth_error h l) as [o|] eqn:Eo; [|discriminate]. cbn [jinja_hooks hk_finish] in Hv. destruct (find_template v (jnode_of h o) _) as [t|] eqn:Et; [|discriminate]. cbn [rbind] in Hv.
  destruct (render (tp_name t) dat) as [s|] eqn:Er; [|discriminate]. cbn [rbind] in Hv. assert (d = DtV (VStr s)) as -> by congruence. clear Hv.
  assert (exists dd, dat = DtD dd) as [dd ->].
  { cbn [visit_data] in Ed. rewrite Eo in Ed. destruct (visit_rows _ _ _ _ _) as [r|]; [|discriminate]. cbn [rbind] in Ed. eexists. apply Ok_inv in Ed. symmetry. exact Ed. }
  pose proof (proj1 (Forall_forall _ _) Hp _ (nth_error_In _ _ Eo)) as Ho.
  destruct (C66_everything_is_shown _ kw n h l o dd Eo Ho Ed) as (S1 & _ & S2).
  exists o, (facet_of o), (option_map facet_of (parent_of h o)), t, dd, s. split; [reflexivity|]. split; [apply facet_seen|].
  split; [destruct (parent_of h o); [apply facet_seen|exact I]|]. split; [exact (proj1 (proj1 (C48_chosen jc e flat ts v prefixes _ _ H1 H2 H3 H4) t) Et)|].
  split; [exact Er|]. split; [reflexivity|]. split; [exact S1|]. split; [|split].
  - intros name x Hin Hh. destruct (S2 _ _ Hin Hh) as (e' & E & K). inversion K. subst. exact E.
  - intros name cs Hin Hh. destruct (S2 _ _ Hin Hh) as (e' & E & K). inversion K as [|l0 ds F E1 E2| | | | |]. subst. destruct (T2 _ _ F) as (texts & ->).
    exists texts, (join_with (o_kind o)). split; [|split].
    + clear - F. remember (map _ texts) as ds. revert texts Heqds. induction F as [|c d0 cs ds E _ IH]; intros [|s texts] Ed; try discriminate Ed; [constructor|]. cbn [map] in Ed.
      assert (d0 = DtV (VStr s)) as -> by congruence. constructor; [exact E|]. apply IH. congruence.
    + unfold separator. destruct (o_kind o); cbn; repeat split; intros; try reflexivity; try (destruct H as [H|H]; discriminate H); try discriminate; try congruence; intuition congruence.
    + rewrite E. cbn [jinja_hooks hk_list]. rewrite map_map. cbn [text_of]. rewrite map_id. reflexivity.
  - intros name cs Hin Hh. destruct (S2 _ _ Hin Hh) as (e' & E & K). inversion K as [| |l0 ds F E1 E2| | | |]. subst.
    assert (G : exists texts, ds = combine (map fst cs) (map (fun s => DtV (VStr s)) texts) /\ Forall2 (fun c s => visit (jinja_hooks v render) kw n h (snd c) = Ok (DtV (VStr s))) cs texts).
    { clear - F T. induction F as [|c d0 cs ds [E0 E] _ (ts0 & -> & F2)]; [exists []; split; [reflexivity|constructor]|]. destruct (T _ _ _ E) as (s & Es). exists (s :: ts0). cbn [map combine]. split.
      - f_equal. destruct d0 as [a b]. cbn in *. subst. reflexivity.
      - constructor; [rewrite <- Es; exact E|exact F2]. }
    destruct G as (texts & -> & F2). exists texts. split; [exact F2|exact E].
Qed.

(* a *b* rendered with six templates; render gives the name of the template and the
   value or the content of the node *)
Definition site_conf : env := env_from_dict
  [(lit "mau", EDict [(lit "visitor", EDict [(lit "templates", EDict [
     (lit "prefixes", EList [lit "web"]);
     (lit "custom", EDict (map (fun s => (lit s, EStr (lit "...")))
        ["text.j2"; "text.pt_style.j2"; "style.style__star.j2"; "style.j2"; "paragraph-line.j2"; "paragraph.pf_web.j2"; "document.j2"]%string))])])])] None.
Definition named_render (name : str) (d : data) : res str :=
  match d with
  | DtD dd => Ok (name ++ lit "(" ++ match dget (lit "value") dd, dget (lit "content") dd with Some (DtV (VStr s)), _ | None, Some (DtV (VStr s)) => s | _, _ => [] end ++ lit ")")
  | _ => Ok []
  end.
Example C72_ex : exists flat ts v, all_templates ex_jc site_conf = Ok flat /\ build_templates (jc_extension ex_jc) flat = Ok ts /\
  jinja_init ex_jc site_conf = Ok v /\ iter_value (env_get site_conf (lit "mau.visitor.templates.prefixes")) = Ok [lit "web"] /\
  proper_heap para_heap /\
  visit (jinja_hooks v named_render) (mkKwargs true true) 9 para_heap 0 =
    Ok (DtV (VStr (lit "document(paragraph.pf_web(paragraph-line(text(a )style.style__star(text.pt_style(b)))))"))).
Proof.
  eexists _, _, _. split; [vm_compute; reflexivity|]. split; [vm_compute; reflexivity|]. split; [vm_compute; reflexivity|]. split; [vm_compute; reflexivity|].
  split; [apply C50_exists_ex|vm_compute; reflexivity].
Qed.
