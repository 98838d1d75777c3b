(* PropertiesBlame.v -- C82: the errors of the visitors name the node they are about *)
From Verif Require Import Visitors Messages PropertiesCli PropertiesMessages PropertiesJinja PropertiesTemplate PropertiesVisit PropertiesBuild PropertiesDrawn BlameFacts SpecVisitor PropertiesVisitor SpecJinja PlaceInline PropertiesDoc BuildFacts.
From Verif Require Import SpecBlame.
From Coq Require Import List Lia PeanoNat String.
Import ListNotations.
#[local] Open Scope list_scope.
#[local] Notation length := List.length.

Lemma adjusted c : for_people c (adjust_context c).
Proof. unfold for_people, adjust_context, move_to. cbn. repeat split; try lia; reflexivity. Qed.

Section Blame.
  Context (jc : jconfig) (e : env) (flat : env) (ts : list template) (v : jvisitor) (prefixes : list str).
  Context (some_templates : all_templates jc e = Ok flat) (built : build_templates (jc_extension jc) flat = Ok ts).
  Context (ready : jinja_init jc e = Ok v) (prefixed : iter_value (env_get e (lit "mau.visitor.templates.prefixes")) = Ok prefixes).

  (* C82: when a document cannot be rendered, there is a node of the document (or one that
     is made for its footnotes, tables and groups) such that no template is for it, and then
     the error says so and has the place and the type of that node; or the template that
     is for it fails with the error, on data that have the place and the type. *)
  Theorem C82_node render n d done err :
    render_document (jinja_hooks v render) (mkKwargs true true) n (Some d) done = Exc err ->
    err = ExPy "RecursionError" \/
    exists k a c f parent, appears d done k a c /\ facet_like k a f /\
      match parent with None => True | Some g => exists k' a' c', appears d done k' a' c' /\ facet_like k' a' g end /\
      (((forall t, ~ chosen ts prefixes (f, parent) t) /\
        exists place, for_people c place /\ err = ExMau (MsgVisitor "Cannot find a suitable template." (Some place) (Some (type_name k)))) \/
       (exists t dat, chosen ts prefixes (f, parent) t /\ render (tp_name t) (DtD dat) = Exc err /\
          dget (lit "_context") dat = Some (DtC c) /\ dget (lit "_type") dat = Some (DtV (VStr (type_name k))))).
  Proof.
    intros E. cbn [render_document] in E. pose proof (heap_of_fails n d done) as F. destruct (heap_of n d done) as [h|x] eqn:Eh; cbn [rbind] in E.
    2:{ left. apply F. congruence. }
    destruct (heap_of_wf _ _ _ _ Eh) as (W & Z). pose proof (heap_known d done n h Eh) as K.
    destruct (visit_fails _ _ n h 0 W Z err E) as [R|(m & l & o & dat & Eo & Ed & Ef)]; [left; exact R|right].
    assert (Kn : forall p q, nth_error h p = Some q -> appears d done (o_kind q) (o_args q) (o_ctx q)) by (intros p q Eq; exact (proj1 (Forall_forall _ _) K _ (nth_error_In _ _ Eq))).
    assert (exists dd, dat = DtD dd /\ exists m', m = S m') as (dd & -> & m' & ->).
    { destruct m as [|m]; cbn [visit_data] in Ed; [discriminate|]. rewrite Eo in Ed. destruct (visit_rows _ _ _ _ _) as [r|]; [|discriminate]. cbn [rbind] in Ed. eexists. split; [apply Ok_inv in Ed; symmetry; exact Ed|eauto]. }
    destruct (C66_everything_is_shown _ _ m' h l o dd Eo (wf_proper _ _ _ W Eo) Ed) as (S1 & _ & _).
    destruct S1 as (T1 & _ & _ & _ & _ & _ & C1).
    exists (o_kind o), (o_args o), (o_ctx o), (facet_of o), (option_map facet_of (parent_of h o)).
    split; [exact (Kn _ _ Eo)|]. split; [repeat split|]. split.
    { unfold parent_of. destruct (o_parent o) as [p|]; [|exact I]. destruct (nth_error h p) as [q|] eqn:Eq; cbn [option_map]; [|exact I]. exists (o_kind q), (o_args q), (o_ctx q). split; [exact (Kn _ _ Eq)|repeat split]. }
    cbn [jinja_hooks hk_finish] in Ef. unfold jnode_of in Ef. cbn [fst] in Ef.
    match type of Ef with context [find_template v ?j ?x] => destruct (C48_chosen jc e flat ts v prefixes j x some_templates built ready prefixed) as [Q1 Q2]; destruct (find_template v j x) as [t|y] eqn:Et end; cbn [rbind] in Ef.
    - right. exists t, dd. split; [apply Q1; reflexivity|]. split; [|split; [exact C1|exact T1]]. destruct (render (tp_name t) (DtD dd)); cbn [rbind] in Ef; [discriminate|congruence].
    - left. destruct (proj1 (Q2 y) eq_refl) as [-> No]. split; [exact No|]. exists (adjust_context (o_ctx o)). split; [apply adjusted|].
      assert (err = visitor_exception "Cannot find a suitable template." (fc_type (facet_of o)) (DtD dd)) as -> by congruence. unfold visitor_exception. cbn in C1 |- *. rewrite C1. reflexivity.
  Qed.

  (* With the classes that come with Mau: every Mau error is one of the two that say what
     is wrong, with the place and the type of a node. *)
  Theorem C82_error jinja n d done m :
    (forall content config dat m', jinja content config dat <> JRaises (ExMau m')) ->
    vs_render (jinja_class jc jinja n) e (Some d) done = Exc (ExMau m) ->
    exists k a c place, appears d done k a c /\ for_people c place /\
      exists text, (text = "Cannot find a suitable template." \/ text = "Error rendering node with template")%string /\ m = MsgVisitor text (Some place) (Some (type_name k)).
  Proof.
    intros Hj E. cbn [jinja_class vs_render] in E. rewrite ready in E. cbn [rbind] in E.
    match type of E with rbind ?r _ = _ => destruct r as [x|x] eqn:Er end; cbn [rbind] in E; [discriminate|]. assert (x = ExMau m) as -> by congruence. clear E.
    destruct (C82_node _ _ _ _ _ Er) as [K|(k & a & c & f & p & Ha & _ & _ & [(_ & place & Hp & K)|(t & dat & _ & K & C1 & T1)])]; [discriminate K| |].
    - exists k, a, c, place. split; [exact Ha|]. split; [exact Hp|]. exists "Cannot find a suitable template."%string. split; [left; reflexivity|congruence].
    - exists k, a, c, (adjust_context c). split; [exact Ha|]. split; [apply adjusted|]. exists "Error rendering node with template"%string. split; [right; reflexivity|].
      unfold jinja_render in K. destruct (template_source (jv_templates v) (tp_name t)) as [content|]; [|discriminate K]. destruct (env_asdict e) as [config|x] eqn:Ee; cbn [rbind] in K; [|exfalso].
      + destruct (jinja content config (DtD dat)) as [s| |x] eqn:Ej; [discriminate K| |].
        * unfold visitor_exception in K. rewrite T1, C1 in K. cbn [text_of] in K. congruence.
        * exfalso. apply (Hj content config (DtD dat) m). rewrite Ej. congruence.
      + apply (asdict_quiet e m). rewrite Ee. congruence.
  Qed.
End Blame.

(* The four lines that are logged. *)
Definition blames (log : list str) (text : string) (place : str) (k : kind) : Prop :=
  log = [lit "[MAU] Visitor error"; lit "[MAU] Message: " ++ lit text; lit "[MAU] Context: " ++ place; lit "[MAU] Node type: " ++ type_name k].
(* A place in a source, or the lines and columns alone if there is none. *)
Definition shows_context (s : str) (c : context) : Prop :=
  match c_source c with
  | Some ((_ :: _) as src) => shows_place s src (c_start_line c) (c_start_column c) (c_end_line c) (c_end_column c)
  | _ => shows_place (lit ":" ++ s) [] (c_start_line c) (c_start_column c) (c_end_line c) (c_end_column c)
  end.
Lemma any_context c : shows_context (write_context c) c.
Proof.
  unfold shows_context. destruct (c_source c) as [[|ch s]|] eqn:E.
  - destruct (C77_no_source c (or_intror E)) as (k & l & m & n & -> & H). exists k, l, m, n. split; [reflexivity|exact H].
  - apply context_shown; [exact E|discriminate].
  - destruct (C77_no_source c (or_introl E)) as (k & l & m & n & -> & H). exists k, l, m, n. split; [reflexivity|exact H].
Qed.
Lemma log_visitor text place k : blames (log_message (MsgVisitor text (Some place) (Some (type_name k)))) text (write_context place) k.
Proof. unfold blames. cbn [log_message app]. destruct (type_name k) eqn:E; [destruct k; discriminate E|reflexivity]. Qed.

(* C82: the run ends with 1, writes no file, and its log says what is wrong, with the
   place and the type of the node. *)
Theorem C82_main w a e text x fmt jc jinja n flat ts v prefixes m :
  main_environment w a = Ok e -> wd_text w (op_input a) = Ok text -> op_lexer_only a = false ->
  parse_document (wd_depth w) (wd_config w) e text (mkOrigin 0 0 (Some (op_input a))) = Ok x ->
  op_format a = Some fmt -> fmt <> [] -> dget fmt (wd_visitors w) = Some (jinja_class jc jinja n) ->
  all_templates jc (dx_env x) = Ok flat -> build_templates (jc_extension jc) flat = Ok ts -> jinja_init jc (dx_env x) = Ok v ->
  iter_value (env_get (dx_env x) (lit "mau.visitor.templates.prefixes")) = Ok prefixes ->
  (forall content config dat m', jinja content config dat <> JRaises (ExMau m')) ->
  vs_render (jinja_class jc jinja n) (dx_env x) (document_of x) (dx_done x) = Exc (ExMau m) ->
  snd (main w a) = Exit 1 /\ (forall f, ~ PropertiesCli.writes (main w a) f) /\
  exists d k args c place text shown, document_of x = Some d /\ appears d (dx_done x) k args c /\ for_people c place /\ shows_context shown place /\
    (text = "Cannot find a suitable template." \/ text = "Error rendering node with template")%string /\
    blames (logged (main w a)) text shown k.
Proof.
  intros E1 E2 Hl Hp Hf Hn Hv T1 T2 T3 T4 Hj Hr.
  assert (Lx : exists toks, lex_document (buffer text (mkOrigin 0 0 (Some (op_input a)))) = Ok toks).
  { unfold parse_document in Hp. destruct (wd_depth w) as [|dp]; cbn [dp_run] in Hp; [discriminate Hp|]. destruct (lex_document _) as [toks|]; [eauto|discriminate Hp]. }
  destruct (C62_error_reported w a e text m E1 E2) as (R1 & _ & R3).
  { right. split; [exact Hl|]. split; [exact Lx|]. right. exists x, fmt, (jinja_class jc jinja n). auto. }
  split; [exact R1|]. split; [exact R3|].
  assert (L : logged (main w a) = log_message m).
  { unfold main. rewrite E1. cbn [rbind]. rewrite E2. cbn [rbind]. destruct Lx as [toks ->]. rewrite Hl, Hp, Hf. destruct fmt as [|ch fmt]; [congruence|]. rewrite Hv, Hr. apply log_fail. }
  rewrite L. destruct (document_of x) as [d|] eqn:Ed.
  - destruct (C82_error jc (dx_env x) flat ts v prefixes T1 T2 T3 T4 jinja n d (dx_done x) m Hj Hr) as (k & args & c & place & Ha & Hpl & text' & Ht & ->).
    exists d, k, args, c, place, text', (write_context place). split; [reflexivity|]. split; [exact Ha|]. split; [exact Hpl|]. split; [apply any_context|]. split; [exact Ht|]. apply log_visitor.
  - exfalso. cbn [jinja_class vs_render] in Hr. rewrite T3 in Hr. cbn [rbind render_document jinja_hooks hk_none] in Hr. discriminate Hr.
Qed.

(* Runs of the command line on documents with something that has no template, or with a
   template that uses something that is not defined. *)
Definition picky (content : env_val) (config : dict env_val) (d : data) : outcome_of_jinja :=
  match tiny content config d with JText s => if str_eqb s (lit "t(bad)") then JUndefined else JText s | r => r end.
Definition world3 (s : string) : world := mkWorld (fun _ => None) (fun f => Ok (mau s))
  [(lit "tiny", jinja_class templates1 picky 9)] (mkConfig (fun _ => Missing) (fun _ => lit "id") (fun _ => lit "fid") 100) 5.
Definition log_of (s : string) : list str * Cli.ending :=
  let run := main (world3 s) (mkOptions None (lit "a.mau") None [] [] [] [] (Some (lit "tiny")) false false) in (logged run, snd run).
Example C82_ex :
  log_of "one *two*||three [class](four, c)" = ([lit "[MAU] Visitor error"; lit "[MAU] Message: Cannot find a suitable template."; lit "[MAU] Context: a.mau:3,6-3,22"; lit "[MAU] Node type: macro-class"], Exit 1) /\
  log_of "one|bad" = ([lit "[MAU] Visitor error"; lit "[MAU] Message: Error rendering node with template"; lit "[MAU] Context: a.mau:2,0-2,3"; lit "[MAU] Node type: text"], Exit 1) /\
  log_of "one *two*" = ([], Exit 0).
Proof. split; [|split]; vm_compute; reflexivity. Qed.

(* C82 is false in full for labels (finding 41): the place is not theirs. *)
Theorem C82_refuted_label : exists s, log_of s = ([lit "[MAU] Visitor error"; lit "[MAU] Message: Cannot find a suitable template."; lit "[MAU] Context: 1,0-1,0"; lit "[MAU] Node type: label"], Exit 1) /\
  exists before, s = (before ++ "|.title is here|three")%string /\ log_of before = ([], Exit 0).
Proof. exists "one||two||.title is here|three"%string. split; [vm_compute; reflexivity|]. exists "one||two|"%string. split; [reflexivity|vm_compute; reflexivity]. Qed.
