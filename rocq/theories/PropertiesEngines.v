(* PropertiesEngines.v -- C40 and C41 *)
From Verif Require Import SpecEngines PropertiesManagers.

Lemma split_sub_1 d : forall s cur, split_sub [d] 0 cur s = match split_on d s with [] => [cur] | p :: r => (cur ++ p) :: r end.
Proof.
  induction s as [|c s IH]; intros cur.
  - cbn. rewrite app_nil_r. reflexivity.
  - cbn [split_sub]. change (startswith [d] (c :: s)) with (N.eqb d c && true). rewrite andb_true_r.
    cbn [split_on]. destruct (N.eqb_spec d c) as [->|Hne].
    + rewrite N.eqb_refl. cbn [length Nat.sub]. rewrite IH, app_nil_r.
      destruct (split_on c s) eqn:E; [apply split_on_nonnil in E; contradiction|]. reflexivity.
    + destruct (N.eqb_spec c d) as [K|_]; [congruence|]. rewrite IH.
      destruct (split_on d s); [cbn; reflexivity|]. rewrite <- app_assoc. reflexivity.
Qed.
Lemma py_split_1 d s : py_split [d] s = Ok (split_on d s).
Proof.
  unfold py_split. rewrite split_sub_1. destruct (split_on d s) eqn:E; [apply split_on_nonnil in E; contradiction|]. reflexivity.
Qed.

Lemma endswith_1 d l : endswith [d] l = true <-> exists b, l = b ++ [d].
Proof. apply endswith_spec. Qed.

Lemma split_short d s : (length (split_on d s) <? 2) = true -> no_chr d s.
Proof.
  intros H. pose proof (join_split d s) as J. pose proof (split_on_parts d s) as F. pose proof (split_on_nonnil d s) as E.
  destruct (split_on d s) as [|p [|q r]]; [congruence| |discriminate]. cbn in J. subst p. inversion F; assumption.
Qed.
Lemma join_last sep (l : list str) : 2 <= length l -> join sep l = join sep (removelast l) ++ sep ++ last l [].
Proof.
  induction l as [|a l IH]; [cbn; lia|]. destruct l as [|b l]; [cbn; lia|]. intros _.
  destruct l as [|c l]; [reflexivity|]. rewrite join_cons by discriminate. rewrite IH by (cbn; lia).
  change (removelast (a :: b :: c :: l)) with (a :: removelast (b :: c :: l)). rewrite join_cons by discriminate.
  rewrite <- !app_assoc. reflexivity.
Qed.
Lemma split_long d s : (length (split_on d s) <? 2) = false ->
  s = join [d] (removelast (split_on d s)) ++ [d] ++ last (split_on d s) [] /\ no_chr d (last (split_on d s) []).
Proof.
  rewrite Nat.ltb_ge. intros H. split.
  - rewrite <- join_last by exact H. symmetry. apply join_split.
  - pose proof (split_on_parts d s) as F. rewrite Forall_forall in F. apply F. apply (@app_removelast_last _ _ []) in H || idtac.
    pose proof (split_on_nonnil d s) as E. rewrite (app_removelast_last [] E) at 2. rewrite in_app_iff. right; left; reflexivity.
Qed.

Lemma source_line_ok d prefix default aliases c n l :
  exists sl, source_line_of [d] prefix default aliases c n l = Ok sl /\ writes (sl_number sl) (S n) /\
    exists m, source_reads d l (sl_content sl) m /\
      shows prefix default aliases m (sl_style sl) (option_map fst (sl_marker sl)).
Proof.
  unfold source_line_of. destruct (endswith [d] l) eqn:E; cbn [negb].
  2:{ eexists. split; [reflexivity|]. split; [apply str_of_nat_writes|]. exists None. split; [|split; reflexivity].
      cbn. apply sr_plain. intros x m ->. rewrite app_assoc, app_assoc in E.
      assert (endswith [d] (((x ++ [d]) ++ m) ++ [d]) = true) by (apply endswith_spec; eauto). congruence. }
  apply endswith_1 in E as (b & ->). rewrite removelast_last, py_split_1. cbn [rbind].
  destruct (length (split_on d b) <? 2) eqn:L.
  { eexists. split; [reflexivity|]. split; [apply str_of_nat_writes|]. exists None. split; [|split; reflexivity].
    cbn. apply sr_plain. intros x m K. rewrite !app_assoc in K. apply app_inj_tail in K as [K _]. apply split_short in L.
    apply L. rewrite K, !in_app_iff. left; right; left; reflexivity. }
  apply split_long in L as [L1 L2]. set (m := last (split_on d b) []) in *. set (x := join [d] (removelast (split_on d b))) in *.
  assert (R : source_reads d (b ++ [d]) x (Some m)).
  { rewrite L1. rewrite <- !app_assoc. apply sr_marked, L2. }
  destruct (startswith prefix m) eqn:S.
  - eexists. split; [reflexivity|]. split; [apply str_of_nat_writes|]. exists (Some m). split; [exact R|]. cbn. split.
    + intros r _. split; [reflexivity|]. unfold named_style. destruct m as [|? [|? ?]]; reflexivity.
    + intros K. apply startswith_spec in S as [r S]. destruct (K r S).
  - assert (NP : forall r, m <> prefix ++ r).
    { intros r K. assert (startswith prefix m = true) by (rewrite K; apply startswith_app). congruence. }
    destruct m as [|a m'].
    + eexists. split; [reflexivity|]. split; [apply str_of_nat_writes|]. exists (Some []). split; [exact R|]. cbn. split.
      * intros r K. destruct (NP r K).
      * auto.
    + eexists. split; [reflexivity|]. split; [apply str_of_nat_writes|]. exists (Some (a :: m')). split; [exact R|]. cbn. split.
      * intros r K. destruct (NP r K).
      * auto.
Qed.


Lemma pop_arg_eq a k : pop_arg a k = (dget k (na_named a), snd (pop_arg a k)).
Proof. reflexivity. Qed.
Lemma pop_arg_named a k : na_named (snd (pop_arg a k)) = ddel k (na_named a).
Proof. reflexivity. Qed.

(* C40.  A source block has one line per line of the content, numbered from 1; each
   has the text of the line and what its marker means.  It never fails. *)
Theorem C40_source_lines e t a d aliases :
  NoDup (keys (na_named a)) -> setting a "marker_delimiter" (lit ":") = [d] -> style_aliases e = Ok aliases ->
  exists language lines left, source_block e t a = Ok (language, lines, left) /\
    length lines = length (split_on NL (t_value t)) /\
    forall i l, nth_error (split_on NL (t_value t)) i = Some l ->
      exists sl m, nth_error lines i = Some sl /\
        writes (sl_number sl) (S i) /\
        source_reads d l (sl_content sl) m /\
        shows (setting a "highlight_marker" (lit "@")) (setting a "highlight_default_style" (lit "default")) aliases
          m (sl_style sl) (option_map fst (sl_marker sl)).
Proof.
  intros Hnd Hd Ha. unfold source_block, pop_arg. cbv iota zeta beta. rewrite Ha. cbn [rbind].
  cbn [na_named na_unnamed]. rewrite !dget_ddel by auto using ddel_nodup.
  change (str_eqb (lit "highlight_marker") (lit "marker_delimiter")) with false.
  change (str_eqb (lit "highlight_default_style") (lit "marker_delimiter")) with false.
  change (str_eqb (lit "highlight_default_style") (lit "highlight_marker")) with false. cbv iota.
  unfold setting in *. assert (Hd' : or_else (dget (lit "marker_delimiter") (na_named a)) (lit ":") = [d]) by exact Hd. rewrite Hd'.
  set (prefix := match dget (lit "highlight_marker") (na_named a) with Some v => v | None => lit "@" end).
  set (default := match dget (lit "highlight_default_style") (na_named a) with Some v => v | None => lit "default" end).
  change (or_else (dget (lit "highlight_marker") (na_named a)) (lit "@")) with prefix.
  change (or_else (dget (lit "highlight_default_style") (na_named a)) (lit "default")) with default.
  match goal with |- context [for_each ?f ?l] => set (F := f); set (L := l) end.
  destruct (for_each_forall F (fun nl sl => writes (sl_number sl) (S (fst nl)) /\ exists m,
      source_reads d (snd nl) (sl_content sl) m /\ shows prefix default aliases m (sl_style sl) (option_map fst (sl_marker sl))) L) as (bs & Eb & Fb).
  { intros [n l] _. destruct (source_line_ok d prefix default aliases (t_ctx t) n l) as (sl & E & W & m & R & Sh). exists sl. cbn [fst snd]. eauto. }
  rewrite Eb. cbn [rbind]. do 3 eexists. split; [reflexivity|].
  assert (EL : forall i, nth_error L i = option_map (fun v => (i, v)) (nth_error (split_on NL (t_value t)) i)).
  { intros i. unfold L. rewrite enumerate_nth. reflexivity. }
  destruct (for_each_nth _ _ _ Eb) as [Hlen _].
  split.
  { rewrite Hlen. clear -L. unfold L. generalize 0. induction (split_on NL (t_value t)) as [|x r IH]; intros n; [reflexivity|]. cbn. rewrite IH. reflexivity. }
  intros i l Hi. clear Eb Hlen. specialize (EL i). rewrite Hi in EL. cbn in EL. revert i EL Hi.
  assert (G : forall i nl, nth_error L i = Some nl -> exists sl, nth_error bs i = Some sl /\
     writes (sl_number sl) (S (fst nl)) /\ exists m,
      source_reads d (snd nl) (sl_content sl) m /\ shows prefix default aliases m (sl_style sl) (option_map fst (sl_marker sl))).
  { clear -Fb. induction Fb as [|x y l1 l2 H F IH]; intros [|i] nl E; try discriminate.
    - injection E as <-. exists y. split; [reflexivity|exact H].
    - exact (IH i nl E). }
  intros i EL _. destruct (G i _ EL) as (sl & E & W & m & R & Sh). exists sl, m. auto.
Qed.

(* the reading of a line is unique *)
Theorem C40_unique d l c m c' m' : source_reads d l c m -> source_reads d l c' m' -> c = c' /\ m = m'.
Proof.
  intros H H'. inversion H as [l0 N E1 E2 E3|x y Ny E1 E2 E3]; inversion H' as [l0' N' E1' E2' E3'|x' y' Ny' E1' E2' E3']; subst.
  - auto.
  - destruct (N _ _ eq_refl).
  - destruct (N' _ _ eq_refl).
  - rewrite !app_assoc in E1'. apply app_inj_tail in E1' as [E _].
    enough (c' = c /\ y' = y) as [-> ->] by auto.
    assert (Hr : rev y' ++ d :: rev c' = rev y ++ d :: rev c).
    { apply (f_equal (@rev N)) in E. rewrite !rev_app_distr in E. exact E. }
    assert (Q : forall u v w z, no_chr d u -> no_chr d v -> u ++ d :: w = v ++ d :: z -> u = v /\ w = z).
    { clear. induction u as [|a u IH]; intros [|b v] w z Hu Hv E; cbn in E.
      - injection E as <-. auto.
      - injection E as <- E. destruct Hv. left; reflexivity.
      - injection E as -> E. destruct Hu. left; reflexivity.
      - injection E as <- E. destruct (IH v w z) as [-> ->]; auto; intros K; [apply Hu|apply Hv]; right; exact K. }
    destruct (Q _ _ _ _ (fun K => Ny' (proj2 (in_rev _ _) K)) (fun K => Ny (proj2 (in_rev _ _) K)) Hr) as [E1 E2].
    apply (f_equal (@rev N)) in E1, E2. rewrite !rev_involutive in *. auto.
Qed.

(* the language: given by name, or by the first unnamed argument; otherwise text *)
Theorem C40_language e t a language lines left :
  NoDup (keys (na_named a)) -> source_block e t a = Ok (language, lines, left) ->
  language = match dget (lit "language") (na_named a), na_unnamed a with
             | Some l, _ => l
             | None, l :: _ => l
             | None, [] => lit "text"
             end.
Proof.
  intros Hnd. unfold source_block, pop_arg. cbv iota zeta beta. intros H.
  destruct (rbind_ok _ _ _ H) as (al & _ & H1). destruct (rbind_ok _ _ _ H1) as (ls & _ & H2). clear H H1.
  apply Ok_inv in H2. injection H2 as <- _ _. unfold or_else, args_set_names, set_names.
  cbn [pop_arg snd na_named na_unnamed]. set (n3 := ddel _ (ddel _ (ddel _ (na_named a)))).
  assert (E : dget (lit "language") n3 = dget (lit "language") (na_named a)).
  { unfold n3. rewrite !dget_ddel by auto using ddel_nodup. reflexivity. }
  cbn [filter]. unfold dmem. rewrite E. destruct (dget (lit "language") (na_named a)) as [l|] eqn:El.
  - cbn [negb combine dupd fold_left na_named]. rewrite E. reflexivity.
  - cbn [negb combine length]. destruct (na_unnamed a) as [|l u].
    + cbn [combine dupd fold_left na_named]. rewrite E. reflexivity.
    + cbn [combine]. change (dupd [] [(lit "language", l)]) with [(lit "language", l)]. cbn [dupd fold_left fst snd].
      rewrite dget_dset, str_eqb_refl. reflexivity.
Qed.

(* where the lines are *)
Theorem C40_line_positions e t a language lines left i sl :
  source_block e t a = Ok (language, lines, left) -> nth_error lines i = Some sl ->
  c_start_line (sl_ctx sl) = c_start_line (t_ctx t) + i /\ c_end_line (sl_ctx sl) = c_start_line (t_ctx t) + i /\
  c_start_column (sl_ctx sl) = c_start_column (t_ctx t) /\ c_source (sl_ctx sl) = c_source (t_ctx t) /\
  match sl_marker sl with
  | None => forall l, nth_error (split_on NL (t_value t)) i = Some l -> c_end_column (sl_ctx sl) = c_start_column (t_ctx t) + length l
  | Some (m, mc) => c_start_line mc = c_start_line (t_ctx t) + i /\ c_start_column mc = c_start_column (t_ctx t) + length (sl_content sl)
  end.
Proof.
  unfold source_block, pop_arg. cbv iota zeta beta. intros H Hi.
  destruct (rbind_ok _ _ _ H) as (al & _ & H1). destruct (rbind_ok _ _ _ H1) as (ls & E & H2). clear H H1.
  apply Ok_inv in H2. injection H2 as _ <- _. destruct (for_each_nth _ _ _ E) as [Hlen Hn].
  assert (exists nl, nth_error (enumerate_from 0 (split_on NL (t_value t))) i = Some nl) as [nl Hnl].
  { destruct (nth_error (enumerate_from 0 (split_on NL (t_value t))) i) eqn:K; [eauto|]. exfalso.
    apply nth_error_None in K. rewrite <- Hlen in K. apply nth_error_None in K. congruence. }
  destruct (Hn _ _ Hnl) as (sl' & Hsl & Hof). assert (sl' = sl) by congruence. subst sl'. clear Hsl Hi.
  rewrite enumerate_nth in Hnl. destruct (nth_error (split_on NL (t_value t)) i) as [l|] eqn:El; [|discriminate].
  cbn in Hnl. injection Hnl as <-. cbn [fst snd] in Hof. unfold source_line_of in Hof.
  assert (Q : forall l', Some l = Some l' -> length l' = length l) by (intros l' [= ->]; reflexivity).
  destruct (endswith _ l); cbn [negb] in Hof.
  2:{ apply Ok_inv in Hof. subst sl. cbn. repeat split. intros l' K. rewrite (Q _ K). reflexivity. }
  destruct (rbind_ok _ _ _ Hof) as (sp & Esp & Hof1). clear Hof. destruct (length sp <? 2).
  { apply Ok_inv in Hof1. subst sl. cbn. repeat split. intros l' K. rewrite (Q _ K). reflexivity. }
  destruct (startswith _ (last sp [])).
  { apply Ok_inv in Hof1. subst sl. cbn. repeat split. intros l' K. rewrite (Q _ K). reflexivity. }
  destruct (last sp []) as [|m1 m2] eqn:Em; apply Ok_inv in Hof1; subst sl; cbn; repeat split.
  intros l' K. rewrite (Q _ K). reflexivity.
Qed.

(* A delimiter of more characters does not work: only the last character of the line
   is removed before the marker is looked for. *)
Definition a_token (v : str) : token := mkToken T_TEXT v (mkContext 3 0 3 (length v) None).
Theorem C40_refuted_long_delimiter :
  let a := mkArgs [] [(lit "marker_delimiter", lit "::")] [] [] None in
  source_block env_empty (a_token (lit "x = 1::here::")) a =
  Ok (lit "text",
      [mkSourceLine (lit "1") (lit "x = 1") None (Some (lit "here:", mkContext 3 5 3 13 None)) (mkContext 3 0 3 6 None)],
      empty_args).
Proof. vm_compute. reflexivity. Qed.

(* An empty delimiter is an error that is not a MauException. *)
Theorem C40_refuted_empty_delimiter e t a aliases : style_aliases e = Ok aliases -> t_value t <> [] ->
  dget (lit "marker_delimiter") (na_named a) = Some [] -> source_block e t a = Exc (ExPy "ValueError").
Proof.
  intros Ha Hv Hd. unfold source_block, pop_arg. cbv iota zeta beta. rewrite Ha, Hd. cbn [rbind or_else].
  destruct (split_on NL (t_value t)) as [|l r] eqn:E; [apply split_on_nonnil in E; contradiction|]. reflexivity.
Qed.

Example C40_ex :
  let t := a_token (join [NL] [lit "plain"; lit "x:1:"; lit "y:@+:"; lit "a:b"; lit "::"; lit "z:@:"; lit ":"]) in
  exists left, source_block (env_update env_empty (env_from_dict [(lit "+", EStr (lit "add"))] (Some (lit "mau.parser.source_highlight_style_aliases"))) None true)
     t (mkArgs [lit "python"] [] [] [] None) = Ok (lit "python",
       [mkSourceLine (lit "1") (lit "plain") None None (mkContext 3 0 3 5 None);
        mkSourceLine (lit "2") (lit "x") None (Some (lit "1", mkContext 4 1 4 4 None)) (mkContext 4 0 4 1 None);
        mkSourceLine (lit "3") (lit "y") (Some (lit "add")) None (mkContext 5 0 5 5 None);
        mkSourceLine (lit "4") (lit "a:b") None None (mkContext 6 0 6 3 None);
        mkSourceLine (lit "5") (lit "") None None (mkContext 7 0 7 2 None);
        mkSourceLine (lit "6") (lit "z") (Some (lit "default")) None (mkContext 8 0 8 4 None);
        mkSourceLine (lit "7") (lit ":") None None (mkContext 9 0 9 1 None)], left).
Proof. eexists. vm_compute. reflexivity. Qed.

(* C41.  The lines of a raw block joined by newline are its content. *)
Theorem C41_raw_verbatim t :
  join [NL] (map fst (raw_lines t)) = t_value t /\ Forall (no_chr NL) (map fst (raw_lines t)) /\
  forall i l c, nth_error (raw_lines t) i = Some (l, c) ->
    c = mkContext (c_start_line (t_ctx t) + i) (c_start_column (t_ctx t)) (c_start_line (t_ctx t) + i)
          (c_start_column (t_ctx t) + length l) (c_source (t_ctx t)).
Proof.
  assert (E : map fst (raw_lines t) = split_on NL (t_value t)).
  { unfold raw_lines. rewrite map_map. cbn [fst]. generalize 0. induction (split_on NL (t_value t)) as [|x r IH]; intros n; [reflexivity|].
    cbn. rewrite IH. reflexivity. }
  rewrite E. split; [apply join_split|]. split; [apply split_on_parts|].
  intros i l c H. unfold raw_lines in H. rewrite nth_error_map, enumerate_nth in H.
  destruct (nth_error (split_on NL (t_value t)) i) as [l'|]; [|discriminate]. cbn in H. injection H as <- <-. reflexivity.
Qed.

Print Assumptions C40_source_lines.
Print Assumptions C40_unique.
Print Assumptions C40_language.
Print Assumptions C40_line_positions.
Print Assumptions C40_refuted_empty_delimiter.
Print Assumptions C41_raw_verbatim.
