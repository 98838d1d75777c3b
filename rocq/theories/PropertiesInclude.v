(* PropertiesInclude.v -- C45, C46: included files *)
From Verif Require Import AttachFacts EnvFacts PropertiesLexer PropertiesDoc SpecInclude DocFacts RunFacts SimFacts TermFiles MonoFacts.

(* ------------------------------------------------------------------ C46 *)
Theorem C46_variables_unchanged cf m o ty args x x' : acts cf (dp_run m cf) (EInclude o ty args) x x' -> dx_env x' = dx_env x.
Proof.
  intros H. assert (R : forall e n d f t o, fine_res (dp_run m cf e n d f t o)) by (intros; apply dp_run_fine).
  cbn [acts] in H. apply element_include_inv in H as (a & _ & H). apply do_include_inv in H as (node & a' & y & ok & _ & F & _ & ->); [|exact R].
  destruct F as (_ & _ & _ & _ & _ & _ & F & _). destruct ok; exact F.
Qed.

Lemma call_args_get named k : NoDup (keys named) ->
  dget k (fold_left (fun d (kv : str * str) => dset (removeprefix CALL (fst kv)) (snd kv) d) (filter (fun kv : str * str => startswith CALL (fst kv)) named) []) = dget (CALL ++ k) named.
Proof.
  intros Hn. assert (K : forall acc, dget k (fold_left (fun d (kv : str * str) => dset (removeprefix CALL (fst kv)) (snd kv) d) (filter (fun kv : str * str => startswith CALL (fst kv)) named) acc) =
    match dget (CALL ++ k) named with Some v => Some v | None => dget k acc end).
  { induction named as [|[j w] named IH]; intros acc; [reflexivity|]. inversion Hn as [|? ? Hj Hn']; subst. cbn [filter fst]. destruct (startswith CALL j) eqn:Ej.
    - apply startswith_spec in Ej as [r ->]. cbn [fold_left fst snd]. rewrite IH by exact Hn'. rewrite removeprefix_app. cbn [dget]. rewrite dget_dset.
      destruct (str_eqb_spec (CALL ++ k) (CALL ++ r)) as [E|N].
      + apply app_inv_head in E. subst r. rewrite (proj2 (dget_none (CALL ++ k) named) Hj), str_eqb_refl. reflexivity.
      + destruct (dget (CALL ++ k) named); [reflexivity|]. destruct (str_eqb_spec k r) as [->|]; [contradiction|reflexivity].
    - rewrite IH by exact Hn'. cbn [dget]. destruct (str_eqb_spec (CALL ++ k) j) as [<-|_]; [|reflexivity]. rewrite startswith_app in Ej. discriminate Ej. }
  rewrite K. destruct (dget (CALL ++ k) named); reflexivity.
Qed.
Lemma call_args_nodup l : forall acc, NoDup (keys acc) -> NoDup (keys (fold_left (fun d (kv : str * str) => dset (removeprefix CALL (fst kv)) (snd kv) d) l acc)).
Proof. induction l as [|kv l IH]; intros acc H; [exact H|]. cbn [fold_left]. apply IH, dset_nodup, H. Qed.
Lemma dget_map_str k (d : dict str) : dget k (map (fun kv : str * str => (fst kv, EStr (snd kv))) d) = option_map EStr (dget k d).
Proof. induction d as [|[j w] d IH]; [reflexivity|]. cbn [map dget fst snd]. destruct (str_eqb k j); [reflexivity|exact IH]. Qed.
Lemma ddel_nodup {A} k (d : dict A) : NoDup (keys d) -> NoDup (keys (ddel k d)).
Proof.
  induction d as [|[j w] d IH]; intros H; [exact H|]. inversion H as [|? ? Hj H']; subst. cbn [ddel]. destruct (str_eqb k j); [exact H'|].
  cbn. constructor; [|exact (IH H')]. intros K. apply Hj. apply in_map_iff in K as ([k' v] & E & K). cbn in E. subst k'. apply in_ddel in K.
  change j with (fst (j, v)). apply in_map, K.
Qed.
Lemma mau_args_facts a : NoDup (keys (na_named a)) ->
  NoDup (keys (na_named (mau_args a))) /\ forall k, k <> lit "uri" -> k <> lit "pass_environment" -> dget k (na_named (mau_args a)) = dget k (na_named a).
Proof.
  intros H. unfold mau_args. split.
  - apply ddel_nodup, ddel_nodup. unfold args_set_names, set_names. cbn [na_named]. apply dupd_nodup, H.
  - intros k H1 H2. rewrite !pop_other by assumption. apply set_names_other. intros [E|[]]. congruence.
Qed.

(* The environment of the included file: the call: arguments, and, unless
   pass_environment is given and not true, the variables of the document. *)
Theorem C46_included_environment cf m o ty args x x' : acts cf (dp_run m cf) (EInclude o ty args) x x' -> t_value ty = lit "mau" ->
  exists a uri text forbidden e y at_, given_args (EInclude o ty args) x a /\ cf_files cf uri = File text /\
    dp_run m cf e (dx_next x) (dx_done x) forbidden text (mkOrigin 0 0 (Some uri)) = Ok y /\
    (adds x x' (DMau uri (dx_nodes y) at_) \/ adds_nothing x x') /\
    (NoDup (keys (na_named a)) ->
     let passed := dget (lit "pass_environment") (na_named a) in
     (passed = None \/ passed = Some (lit "true") -> exists e0, env_from_environment (dx_env x) None = Ok e0 /\
        forall k, env_item e k = match dget (CALL ++ k) (na_named a) with Some s => Ok (EStr s) | None => env_item e0 k end) /\
     (forall v, passed = Some v -> v <> lit "true" ->
        forall k, env_item e k = match dget (CALL ++ k) (na_named a) with Some s => Ok (EStr s) | None => Exc (ExPy "KeyError") end)).
Proof.
  intros H Hty. assert (R : forall e n d f t o, fine_res (dp_run m cf e n d f t o)) by (intros; apply dp_run_fine).
  cbn [acts] in H. apply element_include_inv in H as (a & Hg & H). apply do_include_inv in H as (node & a' & y0 & ok & H1 & F & _ & E); [|exact R].
  rewrite Hty in H1. change (include_node cf (dp_run m cf) (lit "mau") (merge_contexts (t_ctx o) (t_ctx ty)) a) with (dp_mau cf (dp_run m cf) a (merge_contexts (t_ctx o) (t_ctx ty))) in H1.
  apply mau_inv in H1 as (uri & text & e & y & _ & _ & Ef & Ee & Ey & -> & _). exists a, uri, text. do 2 eexists. exists y. eexists.
  split; [destruct args as [[c t]|]; exact Hg|]. split; [exact Ef|]. split; [exact Ey|].
  split; [destruct F as (F1 & _); destruct ok; subst x'; [left; reflexivity|right; exact F1]|].
  intros Hnd. destruct (mau_args_facts a Hnd) as [N1 N2].
  assert (G : forall e0 k, env_item (env_dupdate e0 (map (fun kv : str * str => (fst kv, EStr (snd kv))) (call_args (mau_args a))) None) k =
     match dget (CALL ++ k) (na_named a) with Some s => Ok (EStr s) | None => env_item e0 k end).
  { intros e0 k. unfold env_item, env_dupdate. rewrite flatten_flat.
    - rewrite dget_dupd, dget_map_str.
      + unfold call_args. rewrite (call_args_get _ k N1), N2 by discriminate. destruct (dget (CALL ++ k) (na_named a)); reflexivity.
      + unfold keys. rewrite map_map. cbn [fst]. apply (call_args_nodup _ []). constructor.
    - split; [unfold keys; rewrite map_map; apply (call_args_nodup _ []); constructor|]. apply Forall_forall. intros kv Hin. apply in_map_iff in Hin as (p & <- & _). exact I. }
  assert (P : dget (lit "pass_environment") (na_named (snd (pop_arg (args_set_names a [lit "uri"]) (lit "uri")))) = dget (lit "pass_environment") (na_named a)).
  { rewrite pop_other by discriminate. apply set_names_other. intros [E'|[]]. discriminate E'. }
  unfold mau_pass in Ee. rewrite P in Ee. split.
  - intros [Hp|Hp]; rewrite Hp in Ee; cbn [or_else] in Ee; rewrite str_eqb_refl in Ee; exists e; (split; [exact Ee|apply G]).
  - intros v Hp Hv. rewrite Hp in Ee. cbn [or_else] in Ee. destruct (str_eqb_spec v (lit "true")) as [E'|_]; [contradiction|]. subst e. intros k. rewrite G. reflexivity.
Qed.

(* The text of the sentences of the included files: a file that sets a variable
   of the document and one given by call:, and shows both. *)
Definition cf_files1 : config :=
  mkConfig (fun u => if str_eqb u (lit "f") then File (mau "{v} {w}|:v:2|{v} {w}") else Missing) (fun _ => lit "id") (fun _ => lit "fid") 100.
Definition said_in (l : list dnode) : list str :=
  flat_map (fun n => match n with DParagraph c _ => [flat_map (fun l : list inode * context => flat_map (fun n => match n with NText s _ => s | _ => [] end) (fst l)) c] | _ => [] end) l.
Definition said (s : string) : res (list (str * list str)) :=
  rmap (map (fun n => match n with DMau u c _ => (u, said_in c) | _ => ([], said_in [n]) end)) (rmap dx_nodes (parse_document 5 cf_files1 env_empty (mau s) (mkOrigin 0 0 None))).
Example C46_ex :
  said ":v:1|<< mau:f, call:w=8||{v}|" = Ok [(lit "f", [lit "1 8"; lit "2 8"]); ([], [lit "1"])].
Proof. vm_compute. reflexivity. Qed.

(* ------------------------------------------------------------------ C45 *)
Lemma list_max_in (l : list nat) x : In x l -> x <= list_max l.
Proof. intros H. apply (proj1 (Forall_forall _ _) (proj1 (list_max_le l (list_max l)) (le_n _)) x H). Qed.

(* When the blocks of the document and of the files do not include, a bounded number
   of parsers inside parsers is enough: the result does not depend on the bound. *)
Theorem C45_terminates_partial cf files text :
  (forall u t, cf_files cf u = File t -> In u files /\ blocks_do_not_include t) -> blocks_do_not_include text ->
  exists N, forall n e next done forbidden o, N <= n ->
    dp_run n cf e next done forbidden text o = dp_run N cf e next done forbidden text o.
Proof.
  intros Hf Ht. pose (sz := fun u => match cf_files cf u with File t => size (text_lines t) | _ => 0 end).
  pose (top := size (text_lines text) + list_max (map sz files)). exists (length files + top + 2). intros n e next done forb o Hn.
  apply (run_enough cf files (fun u t H => proj1 (Hf u t H)) (fun u t H => proj2 (Hf u t H)) top) with (k := length files); try lia; [| |exact Ht].
  - intros u t H. assert (K : size (text_lines t) = sz u) by (unfold sz; rewrite H; reflexivity). rewrite K.
    pose proof (list_max_in (map sz files) (sz u) (in_map sz _ _ (proj1 (Hf u t H)))). unfold top. lia.
  - unfold left_. clear. induction files as [|u l IH]; [reflexivity|]. cbn [filter]. destruct (negb _); cbn; lia.
Qed.
(* A document that does not include anything does not depend on any file. *)
Theorem C45_without_includes cf text : (forall l, In l (text_lines text) -> ~ includes l) ->
  exists N, forall n e next done forbidden o, N <= n ->
    dp_run n cf e next done forbidden text o = dp_run N cf e next done forbidden text o.
Proof.
  intros H. exists (S (size (text_lines text))). intros n e next done forb o Hn. apply (run_plain cf (size (text_lines text))); try lia.
  apply Forall_forall. exact H.
Qed.

(* An include of a file that is being read is refused. *)
Theorem C45_cycle_reported cf m o ty args x a uri : t_value ty = lit "mau" -> given_args (EInclude o ty args) x a ->
  dget (lit "uri") (na_named (args_set_names a [lit "uri"])) = Some uri -> uri <> [] ->
  In (Some uri) (dx_forbidden x) \/ c_source (t_ctx o) = Some uri ->
  fails (do_element cf (dp_run m cf) (EInclude o ty args)) x
    (parser_error "To avoid recursion, you cannot include this file." (Some (merge_contexts (t_ctx o) (t_ctx ty)))).
Proof.
  intros Hty Hg Hu Hne Hin. set (ctx := merge_contexts (t_ctx o) (t_ctx ty)).
  assert (K : forall x', dx_forbidden x' = dx_forbidden x -> fails (dp_do_include cf (dp_run m cf) (t_value ty) ctx a) x'
    (parser_error "To avoid recursion, you cannot include this file." (Some ctx))).
  { intros x' Hx rem. rewrite Hty. unfold dp_do_include. apply bind_exc.
    change (snd (dp_mau cf (dp_run m cf) a ctx (rem, x')) = Exc (parser_error "To avoid recursion, you cannot include this file." (Some ctx))).
    unfold dp_mau. cbn [pop_arg]. rewrite Hu. destruct uri as [|c uri]; [contradiction|]. unfold need_uri. cbn [nonempty].
    rewrite (bind_ok (pret (c :: uri)) _ _ _ _ eq_refl), (bind_ok (pmod _) _ _ _ _ eq_refl), (bind_ok pget _ _ _ _ eq_refl).
    cbn [snd dx_forbidden set_forbidden]. match goal with |- snd ((if ?b then _ else _) _) = _ => assert (Eb : b = true); [|rewrite Eb; reflexivity] end. apply source_in_spec.
    destruct (add_source_incl (c_source ctx) (dx_forbidden x')) as [A1 A2]. destruct Hin as [Hin|Hin]; [apply A1; rewrite Hx; exact Hin|].
    change (c_source ctx) with (c_source (t_ctx o)) in *. rewrite Hin in *. exact A2. }
  intros rem. destruct args as [[c t]|]; cbn [do_element].
  - destruct Hg as (Hn & p & Hp & ->). rewrite (bind_ok dp_pop_args_opt _ (rem, x) (rem, set_args x None) (dx_args x) eq_refl), Hn.
    rewrite (bind_ok (dp_inline_args t) _ (rem, set_args x None) (rem, set_args x None) (arguments_of p)); [apply (K (set_args x None) eq_refl)|].
    unfold dp_inline_args. rewrite (bind_ok pget _ _ _ _ eq_refl). change (dx_env (snd (rem, set_args x None))) with (dx_env x). rewrite Hp. reflexivity.
  - cbn [given_args] in Hg. subst a. rewrite (bind_ok dp_pop_args _ (rem, x) (rem, set_args x None) _ eq_refl). apply (K (set_args x None) eq_refl).
Qed.

(* While an included file is read, the files that were forbidden still are, and so
   are that file and the one that includes it. *)
Theorem C45_forbidden_inherited cf m o ty args x x' : acts cf (dp_run m cf) (EInclude o ty args) x x' -> t_value ty = lit "mau" ->
  exists uri text e forbidden y, cf_files cf uri = File text /\
    dp_run m cf e (dx_next x) (dx_done x) forbidden text (mkOrigin 0 0 (Some uri)) = Ok y /\
    ~ In (Some uri) (dx_forbidden x) /\ c_source (t_ctx o) <> Some uri /\
    In (Some uri) forbidden /\ In (c_source (t_ctx o)) forbidden /\ incl (dx_forbidden x) forbidden /\
    dx_forbidden x' = dx_forbidden y /\ incl forbidden (dx_forbidden x') /\
    exists c, ic_callee c = uri /\ ic_caller c = c_source (t_ctx o) /\ dx_calls x' = dx_calls x ++ c :: dx_calls y.
Proof.
  intros H Hty. assert (R : forall e n d f t o, fine_res (dp_run m cf e n d f t o)) by (intros; apply dp_run_fine).
  cbn [acts] in H. apply element_include_inv in H as (a & Hg & H). apply do_include_inv in H as (node & a' & y0 & ok & H1 & F & _ & E); [|exact R].
  rewrite Hty in H1. change (include_node cf (dp_run m cf) (lit "mau") (merge_contexts (t_ctx o) (t_ctx ty)) a) with (dp_mau cf (dp_run m cf) a (merge_contexts (t_ctx o) (t_ctx ty))) in H1.
  apply mau_inv in H1 as (uri & text & e & y & _ & Es & Ef & _ & Ey & _ & ->). exists uri, text. do 2 eexists. exists y. split; [exact Ef|]. split; [exact Ey|].
  cbn [dx_forbidden set_args merge_contexts c_source] in *. destruct (add_source_incl (c_source (t_ctx o)) (dx_forbidden x)) as [A1 A2].
  destruct (add_source_incl (Some uri) (add_source (c_source (t_ctx o)) (dx_forbidden x))) as [B1 B2].
  assert (N : ~ In (Some uri) (add_source (c_source (t_ctx o)) (dx_forbidden x))) by (intros K; apply source_in_spec in K; congruence).
  assert (D : dx_forbidden x' = dx_forbidden y) by (destruct ok; subst x'; reflexivity).
  split; [intros K; apply N, A1, K|]. split; [intros K; apply N; rewrite <- K; exact A2|]. split; [exact B2|]. split; [exact (B1 _ A2)|].
  split; [intros v Hv; apply B1, A1, Hv|]. split; [exact D|]. split; [rewrite D; exact (run_forbidden _ _ _ _ _ _ _ _ _ Ey)|].
  eexists. split; [|split]; [| |destruct ok; subst x'; reflexivity]; reflexivity.
Qed.

(* no other element changes the list of the forbidden files or of the calls *)
Definition same_calls (x x' : dx) : Prop := dx_forbidden x' = dx_forbidden x /\ dx_calls x' = dx_calls x.
Lemma other_include_calls cf m ty ctx a x r z : ty <> lit "mau" -> runs (include_node cf (dp_run m cf) ty ctx a) x r z -> same_calls x z.
Proof.
  intros Hty H. unfold include_node in H. destruct (str_eqb _ _).
  { unfold dp_image in H. cbn [pop_arg] in H. apply runs_need_uri in H as (uri & _ & _ & H). apply runs_ret in H as [_ ->]. split; reflexivity. }
  destruct (str_eqb_spec ty (lit "mau")) as [E|_]; [contradiction|].
  destruct (str_eqb _ _).
  { unfold dp_include_raw in H. cbn [pop_arg] in H. apply runs_need_uri in H as (uri & _ & _ & H). apply runs_read in H as (t & _ & H). apply runs_ret in H as [_ ->]. split; reflexivity. }
  destruct (str_eqb _ _).
  { apply runs_bind_inv in H as (f & y & H1 & H); [|unfold dp_toc; apply quiet_bind; [apply fresh_quiet|]; intros id; quiet]. apply runs_ret in H as [_ ->]. unfold dp_toc in H1. apply runs_fresh in H1. apply runs_pmod in H1. apply runs_ret in H1 as [_ ->]. split; reflexivity. }
  destruct (str_eqb _ _).
  { apply runs_bind_inv in H as (f & y & H1 & H); [|unfold dp_footnotes; apply quiet_bind; [apply fresh_quiet|]; intros id; quiet]. apply runs_ret in H as [_ ->]. unfold dp_footnotes in H1. apply runs_fresh in H1. apply runs_pmod in H1. apply runs_ret in H1 as [_ ->]. split; reflexivity. }
  destruct (str_eqb _ _).
  { unfold dp_blockgroup in H. cbn [pop_arg] in H. destruct (dget _ _) as [name|]; [|destruct (runs_raise _ _ _ _ H)].
    apply runs_fresh in H. apply runs_pmod in H. apply runs_ret in H as [_ ->]. split; reflexivity. }
  apply runs_ret in H as [_ ->]. split; reflexivity.
Qed.
Lemma nodup_app {A} (a b : list A) : NoDup a -> NoDup b -> (forall x, In x a -> ~ In x b) -> NoDup (a ++ b).
Proof.
  induction 1 as [|x a Hx _ IH]; intros Hb H; [exact Hb|]. cbn. constructor; [|apply IH; [exact Hb|intros y Hy; apply H; right; exact Hy]].
  intros K. apply in_app_or in K as [K|K]; [exact (Hx K)|exact (H x (or_introl eq_refl) K)].
Qed.
Definition includes_mau (el : element) : Prop := match el with EInclude _ ty _ => t_value ty = lit "mau" | _ => False end.
Lemma acts_calls cf m el x x' : acts cf (dp_run m cf) el x x' -> ~ includes_mau el -> same_calls x x'.
Proof.
  assert (R : forall e n d f t o, fine_res (dp_run m cf e n d f t o)) by (intros; apply dp_run_fine).
  intros H Hm. destruct el as [t|t|o n c v|p t|o op c|o t c|h t|o t c|o ty args|items|ls]; cbn [acts do_element] in H.
  - apply runs_ret in H as [_ ->]. split; reflexivity.
  - apply do_rule_inv in H as (ok & _ & ->). destruct ok; split; reflexivity.
  - apply do_variable_inv in H as (k & s & _ & ->). split; reflexivity.
  - apply do_label_inv in H as (nodes & ms & hs & next & ->). split; reflexivity.
  - apply do_control_inv in H as (k & _ & ->). split; reflexivity.
  - apply do_arguments_inv in H as (p & _ & ->). split; reflexivity.
  - apply do_header_inv in H as (nodes & ms & hs & next & ctx & ok & _ & _ & H). destruct ok; [destruct H as (links & _ & ->)|subst x']; split; reflexivity.
  - apply do_block_inv in H as (node & a & nctx & y & H1 & H); [|exact R].
    assert (Y : same_calls x y).
    { apply engine_inv in H1 as [[-> _]|(_ & u & y1 & _ & _ & _ & -> & _)]; [split; reflexivity| |exact R]. unfold after_child. destruct (isolated _); split; reflexivity. }
    destruct (nonempty (dget (lit "footnote") (na_named a))) as [name|]; [destruct H as (mm & _ & ->); exact Y|].
    destruct (nonempty (dget (lit "group") (na_named a))) as [g|]; [|destruct H as (ok & _ & ->); destruct ok; exact Y].
    destruct (nonempty (dget (lit "position") (na_named a))) as [q|]; [destruct H as (mm & _ & ->); exact Y|destruct H as (ok & _ & ->); destruct ok; exact Y].
  - apply element_include_inv in H as (a & _ & H). apply do_include_inv in H as (node & a' & y & ok & H1 & _ & _ & ->); [|exact R].
    apply other_include_calls in H1; [|exact Hm]. destruct ok; exact H1.
  - destruct H as (i & its & nodes & x1 & H1 & _ & H). apply runs_items in H1 as (ms & hs & next & ->). apply do_list_inv in H as (start & latest & ctx & ok & _ & -> & _).
    destruct ok; split; reflexivity.
  - apply do_paragraph_inv in H as (lines & ms & hs & next & ctx & ok & _ & ->). destruct ok; split; reflexivity.
Qed.
Lemma made_of_tokens toks els : made_of toks els -> forall el t, In el els -> In t (tokens_of el) -> In t toks.
Proof.
  induction 1 as [|el rest els _ _ _ IH]; intros el' t He Ht; [destruct He|]. apply in_or_app. destruct He as [->|He]; [left; exact Ht|right; exact (IH _ _ He Ht)].
Qed.

(* A successful document: no file is included twice (blocks aside), and neither the
   document itself nor a forbidden file is included. *)
Definition once (forbidden : list (option str)) (source : option str) (x : dx) : Prop :=
  NoDup (map ic_callee (dx_calls x)) /\ incl forbidden (dx_forbidden x) /\
  (forall c, In c (dx_calls x) -> ~ In (Some (ic_callee c)) forbidden /\ source <> Some (ic_callee c) /\ In (Some (ic_callee c)) (dx_forbidden x)).
Theorem C45_included_once n cf e next done forbidden text o y : dp_run n cf e next done forbidden text o = Ok y ->
  NoDup (map ic_callee (dx_calls y)) /\
  forall c, In c (dx_calls y) -> ~ In (Some (ic_callee c)) forbidden /\ o_source o <> Some (ic_callee c).
Proof.
  assert (G : forall n e next done forbidden text o y, dp_run n cf e next done forbidden text o = Ok y -> once forbidden (o_source o) y).
  { clear. induction n as [|n IH]; intros e next done forb text o y H; [discriminate|].
    apply dp_run_inv in H as (m & toks & x0 & els & x & Em & El & Ei & M & A & Hf). injection Em as <-.
    apply finalise_frame in Hf as [F1 F2]. unfold once. rewrite F1, F2. change (once forb (o_source o) x).
    assert (I0 : once forb (o_source o) x0).
    { unfold dp_init in Ei. destruct (not_callable _); [discriminate|]. apply Ok_inv in Ei. subst x0. split; [constructor|]. split; [apply incl_refl|]. intros c []. }
    assert (Src : forall el t, In el els -> In t (tokens_of el) -> c_source (t_ctx t) = o_source o).
    { intros el t H1 H2. pose proof (made_of_tokens _ _ M el t H1 H2) as Ht. unfold buffer in El.
      destruct (C05_contexts_locate_tokens lex_document _ _ _ _ _ _ (or_introl eq_refl) El Ht) as (p & q & _ & _ & _ & _ & _ & _ & K). exact K. }
    clear M Ei El F1 F2. revert Src I0. induction A as [x|el els x z w H A IHA]; intros Src I0; [exact I0|].
    apply IHA; [intros el' t H1 H2; exact (Src el' t (or_intror H1) H2)|]. clear IHA A.
    destruct I0 as (N & I1 & I2).
    assert (Dec : includes_mau el \/ ~ includes_mau el).
    { destruct el as [| | | | | | | |o' ty args| |]; auto. cbn. destruct (str_eqb_spec (t_value ty) (lit "mau")); auto. }
    destruct Dec as [Hm|Hm].
    - destruct el as [| | | | | | | |o' ty args| |]; try contradiction. cbn in Hm.
      destruct (C45_forbidden_inherited _ _ _ _ _ _ _ H Hm) as (uri & txt & e' & f' & y' & _ & Hr & Nu & Ns & U1 & U2 & U3 & D1 & D2 & c & Ec & _ & Dc).
      destruct (IH _ _ _ _ _ _ _ Hr) as (N' & J1 & J2). rewrite (Src (EInclude o' ty args) o' (or_introl eq_refl)) in Ns, U2 by (destruct args as [[? ?]|]; left; reflexivity).
      unfold once. rewrite Dc, map_app. cbn [map]. rewrite Ec.
      assert (Old : forall c0, In c0 (dx_calls x) -> In (Some (ic_callee c0)) f') by (intros c0 Hc; apply U3, I2, Hc).
      assert (New : forall c0, In c0 (dx_calls y') -> ~ In (Some (ic_callee c0)) f') by (intros c0 Hc; apply J2, Hc).
      split; [|split].
      + assert (NU : ~ In uri (map ic_callee (dx_calls x) ++ map ic_callee (dx_calls y'))).
        { intros K. apply in_app_or in K as [K|K]; apply in_map_iff in K as (c0 & E0 & K); [apply Nu; rewrite <- E0; apply I2, K|].
          apply (New c0 K). rewrite E0. exact U1. }
        assert (ND : NoDup (map ic_callee (dx_calls x) ++ map ic_callee (dx_calls y'))).
        { apply nodup_app; [exact N|exact N'|]. intros u K1 K2. apply in_map_iff in K1 as (c1 & <- & K1). apply in_map_iff in K2 as (c2 & E2 & K2).
          apply (New c2 K2). rewrite E2. exact (Old c1 K1). }
        apply NoDup_Add with (a := uri) (l := map ic_callee (dx_calls x) ++ map ic_callee (dx_calls y')); [apply Add_app|]. split; assumption.
      + intros v Hv. apply D2, U3, I1, Hv.
      + intros c0 Hc. apply in_app_or in Hc as [Hc|[<-|Hc]].
        * destruct (I2 c0 Hc) as (K1 & K2 & K3). split; [exact K1|]. split; [exact K2|]. apply D2, U3, K3.
        * rewrite Ec. split; [intros K; apply Nu, I1, K|]. split; [exact Ns|]. apply D2, U1.
        * destruct (J2 c0 Hc) as (K1 & K2 & K3). split; [intros K; apply K1, U3, I1, K|]. split; [|rewrite D1; exact K3].
          intros K. apply K1. rewrite <- K. exact U2.
    - destruct (acts_calls _ _ _ _ _ H Hm) as [D1 D2]. unfold once. rewrite D1, D2. auto. }
  intros H. destruct (G _ _ _ _ _ _ _ _ H) as (K1 & _ & K2). split; [exact K1|]. intros c Hc. destruct (K2 c Hc) as (H1 & H2 & _). auto.
Qed.

(* ---- two files that include each other from inside a block ---- *)
Definition block_including (f : string) : str := mau ("----|<< mau:" ++ f ++ "|----|")%string.
Definition cf_loop : config :=
  mkConfig (fun u => if str_eqb u (lit "f") then File (block_including "g") else if str_eqb u (lit "g") then File (block_including "f") else Missing)
    (fun _ => lit "id") (fun _ => lit "fid") 100.

Fixpoint list_eqb {A} (eqb : A -> A -> bool) (a b : list A) : bool :=
  match a, b with [], [] => true | x :: a, y :: b => eqb x y && list_eqb eqb a b | _, _ => false end.
Lemma list_eqb_eq {A} (eqb : A -> A -> bool) : (forall x y, eqb x y = true -> x = y) -> forall a b, list_eqb eqb a b = true -> a = b.
Proof.
  intros H. induction a as [|x a IH]; intros [|y b] E; try discriminate; [reflexivity|]. cbn in E. apply andb_true_iff in E as [E1 E2].
  rewrite (H _ _ E1), (IH _ E2). reflexivity.
Qed.
Definition val_eqb (a b : env_val) : bool :=
  match a, b with EStr s, EStr t => str_eqb s t | EList l, EList m => list_eqb str_eqb l m | _, _ => false end.
Lemma str_eqb_eq a b : str_eqb a b = true -> a = b.
Proof. destruct (str_eqb_spec a b); [auto|discriminate]. Qed.
Lemma val_eqb_eq a b : val_eqb a b = true -> a = b.
Proof. destruct a, b; try discriminate; cbn; intros H; [apply str_eqb_eq in H|apply (list_eqb_eq _ str_eqb_eq) in H]; congruence. Qed.
Definition env_eqb : env -> env -> bool := list_eqb (fun a b : str * env_val => str_eqb (fst a) (fst b) && val_eqb (snd a) (snd b)).
Lemma env_eqb_eq a b : env_eqb a b = true -> a = b.
Proof.
  apply list_eqb_eq. intros [k v] [k' v'] H. cbn in H. apply andb_true_iff in H as [H1 H2]. rewrite (str_eqb_eq _ _ H1), (val_eqb_eq _ _ H2). reflexivity.
Qed.
Definition source_eqb (a b : option str) : bool := match a, b with Some a, Some b => str_eqb a b | None, None => true | _, _ => false end.
Lemma source_eqb_eq a b : source_eqb a b = true -> a = b.
Proof. destruct a, b; try discriminate; [|reflexivity]. cbn. intros H. rewrite (str_eqb_eq _ _ H). reflexivity. Qed.

(* the calls of the parser in the cycle *)
Record call := mkC { k_env : env; k_forb : list (option str); k_text : str; k_o : origin }.
Definition call_run (n : nat) (c : call) : res dx := dp_run n cf_loop (k_env c) 0 [] (k_forb c) (k_text c) (k_o c).
Definition only_at (c : call) : run_fn := fun e next done forb text o =>
  match next, done with
  | 0, [] => if env_eqb e (k_env c) && list_eqb source_eqb forb (k_forb c) && str_eqb text (k_text c) &&
               Nat.eqb (o_line o) (o_line (k_o c)) && Nat.eqb (o_column o) (o_column (k_o c)) && source_eqb (o_source o) (o_source (k_o c))
             then Exc (ExPy "RecursionError") else Exc ExFuel
  | _, _ => Exc ExFuel
  end.
Lemma only_at_below c run : run (k_env c) 0 [] (k_forb c) (k_text c) (k_o c) = Exc (ExPy "RecursionError") ->
  forall e next done forb text o, below ExFuel (only_at c e next done forb text o) (run e next done forb text o).
Proof.
  intros H e next done forb text o. unfold only_at. destruct next; [|left; reflexivity]. destruct done; [|left; reflexivity].
  match goal with |- below _ (if ?b then _ else _) _ => destruct b eqn:E end; [|left; reflexivity]. right.
  repeat (apply andb_true_iff in E as [E ?]). rewrite (env_eqb_eq _ _ E). rewrite (list_eqb_eq _ source_eqb_eq _ _ ltac:(eassumption)), (str_eqb_eq text (k_text c)) by assumption.
  destruct o as [l co so], c as [ce cfb ct [cl cc cs]]. cbn in *. rewrite (proj1 (Nat.eqb_eq l cl)), (proj1 (Nat.eqb_eq co cc)), (source_eqb_eq so cs) by assumption. symmetry. exact H.
Qed.
Lemma call_step c c' n : dp_level cf_loop (only_at c') (k_env c) 0 [] (k_forb c) (k_text c) (k_o c) = Exc (ExPy "RecursionError") ->
  call_run n c' = Exc (ExPy "RecursionError") -> call_run (S n) c = Exc (ExPy "RecursionError").
Proof.
  intros H1 H2. destruct (level_below ExFuel cf_loop (only_at c') (dp_run n cf_loop) ltac:(discriminate) (only_at_below c' (dp_run n cf_loop) H2)
    (k_env c) 0 [] (k_forb c) (k_text c) (k_o c)) as [E|E]; [rewrite H1 in E; discriminate|]. unfold call_run. rewrite dp_run_level, <- E. exact H1.
Qed.

Definition env_in : env := match dp_init env_empty 0 [] [] with Ok x => dx_env x | _ => env_empty end.
Definition start : call := mkC env_empty [] (block_including "f") (mkOrigin 0 0 None).
Definition start_block : call := mkC env_in [] (mau "<< mau:f") (mkOrigin 1 0 None).
Definition first_file : call := mkC env_in [None; Some (lit "f")] (block_including "g") (mkOrigin 0 0 (Some (lit "f"))).
Definition file_f : call := mkC env_in [Some (lit "g"); Some (lit "f")] (block_including "g") (mkOrigin 0 0 (Some (lit "f"))).
Definition in_f : call := mkC env_in [] (mau "<< mau:g") (mkOrigin 1 0 (Some (lit "f"))).
Definition file_g : call := mkC env_in [Some (lit "f"); Some (lit "g")] (block_including "f") (mkOrigin 0 0 (Some (lit "g"))).
Definition in_g : call := mkC env_in [] (mau "<< mau:f") (mkOrigin 1 0 (Some (lit "g"))).

(* The claim without its hypothesis is false: the parser of a block has an empty list
   of forbidden files, so two files that include each other from inside blocks are
   read for ever; no depth is enough, and the cycle is not reported. *)
Theorem C45_refuted_block n : parse_document n cf_loop env_empty (block_including "f") (mkOrigin 0 0 None) = Exc (ExPy "RecursionError").
Proof.
  change (call_run n start = Exc (ExPy "RecursionError")).
  assert (G : forall n, call_run n file_f = Exc (ExPy "RecursionError") /\ call_run n in_f = Exc (ExPy "RecursionError") /\
                        call_run n file_g = Exc (ExPy "RecursionError") /\ call_run n in_g = Exc (ExPy "RecursionError")).
  { clear n. induction n as [|n (I1 & I2 & I3 & I4)]; [repeat split|]. split; [|split; [|split]].
    - apply (call_step file_f in_f n); [vm_compute; reflexivity|exact I2].
    - apply (call_step in_f file_g n); [vm_compute; reflexivity|exact I3].
    - apply (call_step file_g in_g n); [vm_compute; reflexivity|exact I4].
    - apply (call_step in_g file_f n); [vm_compute; reflexivity|exact I1]. }
  destruct n as [|n]; [reflexivity|]. apply (call_step start start_block n); [vm_compute; reflexivity|].
  destruct n as [|n]; [reflexivity|]. apply (call_step start_block first_file n); [vm_compute; reflexivity|].
  destruct n as [|n]; [reflexivity|]. apply (call_step first_file in_f n); [vm_compute; reflexivity|]. apply G.
Qed.

(* Whatever the files, a result other than RecursionError does not depend on the
   depth: no larger recursion limit changes it. *)
Theorem C60_depth_irrelevant cf n m e next done forbidden text o : n <= m ->
  dp_run n cf e next done forbidden text o <> Exc (ExPy "RecursionError") ->
  dp_run m cf e next done forbidden text o = dp_run n cf e next done forbidden text o.
Proof. intros H Hn. destruct (run_below cf n m H e next done forbidden text o) as [E|E]; [contradiction|symmetry; exact E]. Qed.

(* the hypotheses of C45_terminates_partial hold of a document with a block, that
   includes a file *)
Lemma block_in_split lines content : block_in lines content -> exists a f b, lines = a ++ f :: content ++ f :: b.
Proof.
  induction 1 as [c content rest _ _|c content rest b _ _ _ (a' & f & b' & ->)|content rest b _ _ (a' & f & b' & ->)|l ts rest b _ _ (a' & f & b' & ->)].
  - exists [], (fence c), rest. reflexivity.
  - exists (fence c :: content ++ fence c :: a'), f, b'. cbn. rewrite <- app_assoc. reflexivity.
  - exists (slashes :: content ++ slashes :: a'), f, b'. cbn. rewrite <- app_assoc. reflexivity.
  - exists (l :: a'), f, b'. reflexivity.
Qed.
Lemma includes_start l : includes l -> exists s, l = lit "<<" ++ s.
Proof.
  intros (ts & H & v & Hv). inversion H; subst; cbn in Hv; unfold opt_tok in Hv; try (eexists; reflexivity);
    repeat (destruct Hv as [Hv|Hv]; [discriminate|]); try contradiction; destruct s; cbn in Hv; repeat (destruct Hv as [Hv|Hv]; [discriminate|]); contradiction.
Qed.
Example C45_ex :
  let text := mau "----|hello|----|<< mau:f, call:v=1, call:w=2|" in
  (forall u t, cf_files cf_files1 u = File t -> In u [lit "f"] /\ blocks_do_not_include t) /\ blocks_do_not_include text /\
  rmap (fun x => map ic_callee (dx_calls x)) (parse_document 5 cf_files1 env_empty text (mkOrigin 0 0 None)) = Ok [lit "f"].
Proof.
  cbv zeta. split; [|split].
  - intros u t H. unfold cf_files1 in H. cbn [cf_files] in H. destruct (str_eqb_spec u (lit "f")) as [->|_]; [|discriminate].
    split; [left; reflexivity|]. injection H as <-. intros content l B Hl Hi. apply block_in_split in B as (a & f & b & E). apply includes_start in Hi as [s ->].
    assert (K : In (lit "<<" ++ s) (text_lines (mau "{v} {w}|:v:2|{v} {w}"))).
    { rewrite E. apply in_or_app. right. right. apply in_or_app. left. exact Hl. }
    vm_compute in K. repeat (destruct K as [K|K]; [discriminate|]). exact K.
  - intros content l B Hl Hi. apply block_in_split in B as (a & f & b & E). apply includes_start in Hi as [s ->].
    apply in_split in Hl as (c1 & c2 & ->). rewrite <- app_assoc in E. cbn [app] in E.
    assert (K : exists pre post, text_lines (mau "----|hello|----|<< mau:f, call:v=1, call:w=2|") = pre ++ (lit "<<" ++ s) :: post /\ In f pre /\ In f post).
    { exists (a ++ f :: c1), (c2 ++ f :: b). rewrite E, <- app_assoc. split; [reflexivity|]. split; apply in_or_app; right; left; reflexivity. }
    destruct K as (pre & post & K & H1 & H2). vm_compute in K. clear -K H1 H2.
    do 3 (destruct pre as [|? pre]; [discriminate K|injection K; clear K; intros K ?; subst]).
    destruct pre as [|? pre].
    + injection K as _ K. subst post. destruct H2 as [<-|[]]. repeat (destruct H1 as [H1|H1]; [discriminate|]). exact H1.
    + injection K; clear K; intros K _. destruct pre as [|? [|? pre]]; discriminate K.
  - vm_compute. reflexivity.
Qed.
