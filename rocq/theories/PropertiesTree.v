(* PropertiesTree.v -- C73: every element makes exactly the node that is written *)
From Verif Require Import AttachFacts PropertiesAttach PropertiesDoc PropertiesEngines.
From Verif Require Export SpecTree.
#[local] Notation length := List.length.

(* ------------------------------------------------------------ small facts *)
Lemma ends_last {A} (a : A) r : ends (a :: r) a (last (a :: r) a).
Proof.
  split; [eexists; reflexivity|]. destruct (exists_last (l := a :: r)) as (l & b & E); [discriminate|]. exists l. rewrite E, last_last. reflexivity.
Qed.
Lemma separated_split c s : separated c s (split_on c s).
Proof. split; [apply join_split|apply split_on_parts]. Qed.
Lemma classes_given_split v : classes_given v (match nonempty v with None => [] | Some s => split_on COMMA s end).
Proof. destruct v as [[|c s]|]; cbn [nonempty classes_given]; [reflexivity|apply separated_split|reflexivity]. Qed.
Lemma map_fst_pair {A B} (b : B) (l : list A) : map fst (map (fun a => (a, b)) l) = l.
Proof. rewrite map_map. apply map_id. Qed.

(* numbers *)
Lemma digits_ne s n : digits s n -> s <> [].
Proof. destruct 1; [discriminate|destruct s; discriminate..]. Qed.
Lemma int_digits_app : forall s acc r n, int_digits acc s = Some n -> s <> [] -> int_digits acc (s ++ r) = int_digits n r.
Proof.
  induction s as [|c s IH]; intros acc r n H Hs; [congruence|]. clear Hs. cbn [int_digits app] in *. destruct (is_digit c).
  - destruct s as [|d s]; [cbn in H; injection H as <-; reflexivity|]. apply IH; [exact H|discriminate].
  - destruct (c =? 95)%N; [|discriminate]. destruct s as [|d s]; [discriminate|]. cbn [app]. destruct (is_digit d) eqn:Ed; [|discriminate].
    apply (IH acc r n) in H; [|discriminate]. exact H.
Qed.
Lemma digits_int s n : digits s n -> int_digits 0 s = Some n /\ is_digit (hd 0%N s) = true.
Proof.
  induction 1 as [c Hc|s n c H [IH1 IH2] Hc|s n c H [IH1 IH2] Hc].
  - cbn [int_digits hd]. rewrite Hc. auto.
  - split; [rewrite (int_digits_app _ _ _ _ IH1) by exact (digits_ne _ _ H); cbn [int_digits]; rewrite Hc; reflexivity|].
    apply digits_ne in H. destruct s; [congruence|exact IH2].
  - split; [rewrite (int_digits_app _ _ _ _ IH1) by exact (digits_ne _ _ H)|].
    + change (lit "_" ++ [c]) with [95%N; c]. cbn [int_digits]. change (is_digit 95) with false. cbn [N.eqb Pos.eqb]. rewrite Hc. reflexivity.
    + apply digits_ne in H. destruct s; [congruence|exact IH2].
Qed.
(* what has been read so far, and the rest *)
Lemma int_digits_more : forall k s p acc n, length s <= k -> digits p acc -> int_digits acc s = Some n -> digits (p ++ s) n.
Proof.
  induction k as [|k IH]; intros [|c s] p acc n Hk Hp H; cbn [int_digits] in H; try (injection H as <-; rewrite app_nil_r; exact Hp); cbn [List.length] in Hk; [lia|].
  destruct (is_digit c) eqn:Ec.
  - change (c :: s) with ([c] ++ s). rewrite app_assoc. eapply IH; [lia| |exact H]. apply dg_more; assumption.
  - destruct (N.eqb_spec c 95) as [->|]; [|discriminate]. destruct s as [|d s]; [discriminate|]. destruct (is_digit d) eqn:Ed; [|discriminate].
    cbn [int_digits] in H. rewrite Ed in H. change (95%N :: d :: s) with ((lit "_" ++ [d]) ++ s). rewrite app_assoc.
    cbn [List.length] in Hk. eapply IH; [lia| |exact H]. apply dg_sep; assumption.
Qed.
Lemma int_digits_digits s n c r : s = c :: r -> is_digit c = true -> int_digits 0 s = Some n -> digits s n.
Proof.
  intros -> Hc H. cbn [int_digits] in H. rewrite Hc in H. change (c :: r) with ([c] ++ r).
  eapply int_digits_more; [reflexivity| |exact H]. replace (10 * 0 + (c - 48))%N with (c - 48)%N by lia. apply dg_one, Hc.
Qed.
Lemma py_int_number v z : py_int v = Ok z -> written_number v z.
Proof.
  intros H. destruct (lstrip_suffix v) as (b & Eb & Hb). destruct (rstrip_prefix (lstrip v)) as (a & Ea & Ha). exists b, (strip v), a.
  split; [unfold strip; congruence|]. split; [exact Hb|]. split; [exact Ha|]. clear Eb Ea Hb Ha b a. unfold py_int in H.
  assert (K : forall s n, match s with c :: _ => if is_digit c then int_digits 0 s else None | [] => None end = Some n -> digits s n).
  { intros [|c s] n E; [discriminate|]. destruct (is_digit c) eqn:Ec; [|discriminate]. exact (int_digits_digits _ _ _ _ eq_refl Ec E). }
  destruct (strip v) as [|c r]; [discriminate|]. destruct (N.eqb_spec c 45) as [->|N1].
  { destruct (match r with c :: _ => _ | [] => _ end) as [n|] eqn:E; [|discriminate]. cbn [option_map] in H. apply Ok_inv in H. subst z.
    apply (nb_minus r n), K, E. }
  destruct (N.eqb_spec c 43) as [->|N2].
  { destruct (match r with c :: _ => _ | [] => _ end) as [n|] eqn:E; [|discriminate]. cbn [option_map] in H. apply Ok_inv in H. subst z.
    apply (nb_plus r n), K, E. }
  destruct (if is_digit c then int_digits 0 (c :: r) else None) as [n|] eqn:E; [|discriminate]. cbn [option_map] in H. apply Ok_inv in H. subst z.
  apply nb_plain, K, E.
Qed.
Lemma space_not_digit c : is_digit c = true -> is_space c = false.
Proof.
  unfold is_digit, is_space. intros H. apply andb_true_iff in H as [H1 H2]. apply N.leb_le in H1, H2.
  repeat match goal with |- context[(?a <=? ?b)%N] => destruct (N.leb_spec a b); try lia; cbn end;
  repeat match goal with |- context[(?a =? ?b)%N] => destruct (N.eqb_spec a b); try lia; cbn end; reflexivity.
Qed.
Lemma lstrip_spaces b s : forallb is_space b = true -> lstrip (b ++ s) = lstrip s.
Proof. induction b as [|c b IH]; [reflexivity|]. cbn. intros H. apply andb_true_iff in H as [-> H]. exact (IH H). Qed.
Lemma forallb_rev {A} (f : A -> bool) l : forallb f (rev l) = forallb f l.
Proof. induction l as [|a l IH]; [reflexivity|]. cbn. rewrite forallb_app, IH. cbn. rewrite andb_true_r. apply andb_comm. Qed.
Lemma strip_between b s a c r d l : forallb is_space b = true -> forallb is_space a = true ->
  s = c :: r -> is_space c = false -> s = l ++ [d] -> is_space d = false -> strip (b ++ s ++ a) = s.
Proof.
  intros Hb Ha E1 Hc E2 Hd. unfold strip. rewrite lstrip_spaces by exact Hb. rewrite E1 at 1. cbn [app]. rewrite lstrip_id by exact Hc.
  unfold rstrip. change (c :: r ++ a) with ((c :: r) ++ a). rewrite <- E1, rev_app_distr, lstrip_spaces by (rewrite forallb_rev; exact Ha).
  rewrite E2, rev_app_distr. cbn [rev app]. rewrite lstrip_id by exact Hd. cbn [rev]. rewrite rev_involutive. reflexivity.
Qed.
Lemma digits_last s n : digits s n -> exists l d, s = l ++ [d] /\ is_digit d = true.
Proof.
  destruct 1 as [c Hc|s n c _ Hc|s n c _ Hc]; [exists [], c; auto|exists s, c; auto|exists (s ++ lit "_"), c; rewrite app_assoc; auto].
Qed.
Lemma number_int v z : written_number v z -> py_int v = Ok z.
Proof.
  intros (b & s & a & -> & Hb & Ha & H).
  assert (E : strip (b ++ s ++ a) = s).
  { destruct H as [s n H|s n H|s n H]; destruct (digits_last _ _ H) as (l & d & E & Hd); destruct (digits_int _ _ H) as [_ Hh]; pose proof (digits_ne _ _ H) as Hn;
      destruct s as [|c r]; try congruence; cbn [hd] in Hh.
    - eapply strip_between; [exact Hb|exact Ha|reflexivity|apply space_not_digit, Hh|exact E|apply space_not_digit, Hd].
    - eapply strip_between; [exact Hb|exact Ha|reflexivity|reflexivity|rewrite E; rewrite app_assoc; reflexivity|apply space_not_digit, Hd].
    - eapply strip_between; [exact Hb|exact Ha|reflexivity|reflexivity|rewrite E; rewrite app_assoc; reflexivity|apply space_not_digit, Hd]. }
  unfold py_int. rewrite E. clear E.
  destruct H as [s n H|s n H|s n H]; destruct (digits_int _ _ H) as [Hi Hh]; pose proof (digits_ne _ _ H) as Hn; destruct s as [|c r]; try congruence; cbn [hd] in Hh.
  - destruct (N.eqb_spec c 45) as [->|]; [discriminate Hh|]. destruct (N.eqb_spec c 43) as [->|]; [discriminate Hh|]. rewrite Hh, Hi. reflexivity.
  - change (lit "+" ++ c :: r) with (43%N :: c :: r). cbv iota beta. change (43 =? 45)%N with false. change (43 =? 43)%N with true. cbv iota. rewrite Hh, Hi. reflexivity.
  - change (lit "-" ++ c :: r) with (45%N :: c :: r). cbv iota beta. change (45 =? 45)%N with true. cbv iota. rewrite Hh, Hi. reflexivity.
Qed.

(* ------------------------------------------------- the actions, in full *)
Section Full.
  Context (cf : config) (run : run_fn) (run_ok : forall e n d f t o, fine_res (run e n d f t o)).

  Lemma text_full t x ns z : runs (dp_text cf (t_value t) (origin_of t)) x ns z ->
    inline_of cf (dx_env x) t ns /\ exists ms ls next, z = mentions x ms ls next.
  Proof.
    intros H. split; [|exact (runs_text _ _ _ _ _ _ H)]. unfold dp_text in H. apply runs_pget in H. apply runs_lift in H as (p & Ep & H).
    apply runs_lift in H as (tx & Et & H). apply runs_pmod in H. apply runs_ret in H as [-> _]. exists p, (dx_next x), tx. auto.
  Qed.
  Lemma line_nodes_full ls : forall x r z, runs (dp_line_nodes cf ls) x r z ->
    Forall2 (fun t ln => inline_of cf (dx_env x) t (fst ln) /\ snd ln = t_ctx t) ls r.
  Proof.
    induction ls as [|t ls IH]; intros x r z H; cbn [dp_line_nodes] in H; [apply runs_ret in H as [-> _]; constructor|].
    apply runs_bind_inv in H as (nodes & y & H1 & H); [|apply text_quiet]. apply text_full in H1 as (Hi & a & b & c & ->).
    apply runs_bind_inv in H as (rest & y2 & H2 & H); [|apply line_nodes_quiet]. apply IH in H2. apply runs_ret in H as [-> _].
    constructor; [split; [exact Hi|reflexivity]|exact H2].
  Qed.
  Lemma item_full h t x n z : runs (dp_do_item cf h t) x n z -> item_made cf (dx_env x) (h, t) n.
  Proof.
    intros H. unfold dp_do_item in H. apply runs_bind_inv in H as (c & y & H1 & H); [|apply text_quiet]. apply text_full in H1 as (Hi & _).
    apply runs_first_last in H as (u & r & E & H). apply runs_ret in H as [-> _]. exists c, u, (last c u). split; [exact Hi|]. split; [|reflexivity].
    rewrite E. apply ends_last.
  Qed.
  Lemma items_full items x its z : reads_items cf items x its z ->
    Forall2 (fun it j => fst j = it /\ item_made cf (dx_env x) it (snd j)) items its.
  Proof.
    intros H. assert (K : Forall2 (fun it j => fst j = it /\ item_made cf (dx_env x) it (snd j)) items its /\ dx_env z = dx_env x); [|apply K].
    induction H as [x|h t r x n x1 its x2 H _ [IH1 IH2]]; [split; [constructor|reflexivity]|].
    pose proof (item_full _ _ _ _ _ H) as Hi. apply runs_item in H as (a & b & c & ->).
    split; [constructor; [split; [reflexivity|exact Hi]|exact IH1]|exact IH2].
  Qed.
  Lemma paragraph_full ls x b z : runs (dp_do_paragraph cf ls) x b z -> exists n ms hs next ok,
    let y := set_labels (set_args (mentions x ms hs next) None) [] in
    makes cf run x (EParagraph ls) n /\ admitted y ok /\
    z = (if ok then set_nodes (set_control y None) (dx_nodes x ++ [n]) else set_control y None).
  Proof.
    intros H. unfold dp_do_paragraph in H. apply runs_bind_inv in H as (lines & y & H1 & H); [|apply line_nodes_quiet].
    pose proof (line_nodes_full _ _ _ _ H1) as Hl. apply runs_line_nodes in H1 as (a & b' & c & ->). apply runs_pop_args in H. apply runs_first_last in H as (u & r & E & H).
    apply runs_pop_labels in H. apply runs_finish in H as (ok & Ha & ->). do 5 eexists. split; [|split; [exact Ha|reflexivity]].
    assert (Hu : exists f l, ends ls f l /\ snd u = t_ctx f /\ snd (last lines u) = t_ctx l).
    { clear - Hl E. subst lines. inversion Hl as [|t ln ts lns [_ H1] H2]; subst. exists t, (last (t :: ts) t). split; [apply ends_last|]. split; [exact H1|].
      clear - Hl H1. revert Hl. generalize (t :: ts) (u :: r). intros l1 l2 H. assert (G : forall d d', snd d = t_ctx d' -> snd (last l2 d) = t_ctx (last l1 d')).
      { induction H as [|a b l1 l2 [_ E] H IH]; intros d d' Hd; [exact Hd|]. destruct H; [exact E|]. apply IH, Hd. }
      apply G, H1. }
    destruct Hu as (f & l & He & E1 & E2). cbn [fst snd]. rewrite E1, E2. exact (mk_paragraph cf run x ls lines f l Hl He).
  Qed.
  Lemma list_full items x i its nodes x1 b z : reads_items cf items x (i :: its) x1 -> nested (level i) its nodes ->
    runs (dp_do_list (fst (fst i)) (snd i) nodes) x1 b z -> exists n ms hs next latest ok,
    let y := set_labels (set_latest (set_args (mentions x ms hs next) None) latest) [] in
    makes cf run x (EItems items) n /\ admitted y ok /\
    z = (if ok then set_nodes (set_control y None) (dx_nodes x ++ [n]) else set_control y None).
  Proof.
    intros H1 H2 H. pose proof (items_full _ _ _ _ H1) as Hi. apply runs_items in H1 as (ms & hs & next & ->).
    assert (Hc : exists start latest ok, list_start x (pending x) start /\
        let y := set_labels (set_latest (set_args (mentions x ms hs next) None) latest) [] in
        admitted y ok /\
        z = (if ok then set_nodes (set_control y None) (dx_nodes x ++ [DList (is_hash (t_value (fst (fst i)))) true start (snd i :: nodes) (mkAttrs (pending x) (dx_labels x) (merge_contexts (dnode_ctx (snd i)) (dnode_ctx (last (snd i :: nodes) (snd i)))))])
             else set_control y None)).
    { unfold dp_do_list in H. apply runs_pop_args in H. apply runs_pget in H. 
      change (dx_args (mentions x ms hs next)) with (dx_args x) in H. change (args_or (dx_args x)) with (pending x) in H.
      unfold list_start, arg. destruct (dget (lit "start") (na_named (pending x))) as [v|].
      - destruct (str_eqb v (lit "auto")).
        + apply runs_bind_inv in H as (start & y & Hs & H); [|quiet]. apply runs_pmod in Hs. apply runs_ret in Hs as [-> ->].
          apply runs_pop_labels in H. apply runs_finish in H as (ok & Ha & ->). exists (dx_latest x). do 2 eexists. split; [reflexivity|]. split; [exact Ha|]. reflexivity.
        + apply runs_bind_inv in H as (start & y & Hs & H); [|apply quiet_bind; [apply quiet_lift, py_int_fine|intros; quiet]]. apply runs_lift in Hs as (z0 & Ez & Hs). apply runs_pmod in Hs. apply runs_ret in Hs as [-> ->].
          apply runs_pop_labels in H. apply runs_finish in H as (ok & Ha & ->). exists z0. do 2 eexists. split; [apply py_int_number, Ez|]. split; [exact Ha|]. reflexivity.
      - apply runs_bind_inv in H as (start & y & Hs & H); [|quiet]. apply runs_pmod in Hs. apply runs_ret in Hs as [-> ->].
        apply runs_pop_labels in H. apply runs_finish in H as (ok & Ha & ->). exists 1%Z. do 2 eexists. split; [reflexivity|]. split; [exact Ha|]. reflexivity. }
    destruct Hc as (start & latest & ok & Hs & Ha & E). do 6 eexists. split; [|split; [exact Ha|exact E]].
    eapply mk_list; [exact Hi|exact H2|apply ends_last|apply is_hash_iff|exact Hs].
  Qed.
  Lemma header_full hd t x b z : runs (dp_do_header cf hd t) x b z -> exists h ms hs next ok,
    let y := set_labels (set_args (mentions (set_shared x (S (dx_next x)) (dx_done x)) ms hs next) None) [] in
    makes cf run x (EHeader hd t) (DHeader h) /\ admitted y ok /\
    if ok : bool then exists links toc, z = set_nodes (set_toc (set_links (set_control y None) links) toc) (dx_nodes x ++ [DHeader h])
    else z = set_control y None.
  Proof.
    intros H.
    unfold dp_do_header in H. apply runs_fresh in H. apply runs_bind_inv in H as (nodes2 & y2 & H1 & H); [|apply text_quiet].
    apply text_full in H1 as (Hi & ms2 & hs2 & next2 & ->). apply runs_pop_args in H. cbn [pop_arg] in H. apply runs_first_last in H as (u & r & E & H).
    apply runs_pop_labels in H. apply runs_admitted in H as (ok2 & Ha2 & H). 
    set (h2 := mkHeader (dx_next x) (length (t_value hd)) (arg (pending x) "internal_id") (dget (lit "name") (ddel (lit "internal_id") (na_named (pending x)))) nodes2
                (without ["internal_id"; "name"]%string (pending x)) (dx_labels x) (merge_contexts (t_ctx hd) (merge_contexts (inode_ctx u) (inode_ctx (last nodes2 u))))).
    set (y3 := set_labels (set_args (mentions (set_shared x (S (dx_next x)) (dx_done x)) ms2 hs2 next2) None) []) in *.
    assert (Hm : makes cf run x (EHeader hd t) (DHeader h2)).
    { unfold h2. rewrite dget_ddel_ne by discriminate. apply mk_header; [exact Hi|rewrite E; apply ends_last]. }
    exists h2, ms2, hs2, next2, ok2. split; [exact Hm|]. split; [exact Ha2|]. fold y3. destruct ok2; [|apply runs_ret in H as [_ ->]; reflexivity].
    assert (K : forall q : D unit, quiet q -> (forall x0 u0 y0, runs q x0 u0 y0 -> exists l, y0 = set_links x0 l) ->
       runs (q ;;; pmod (fun x => set_toc x (tm_add_header (dx_toc x) h2)) ;;; dp_save (DHeader h2) ;;; pret true) (set_control y3 None) b z ->
       exists links toc, z = set_nodes (set_toc (set_links (set_control y3 None) links) toc) (dx_nodes x ++ [DHeader h2])).
    { intros q Q Hq HH. apply runs_bind_inv in HH as (v & y4 & H1 & HH); [|exact Q]. apply Hq in H1 as (l & ->). apply runs_pmod in HH. unfold dp_save in HH. apply runs_pmod in HH.
      apply runs_ret in HH as [_ ->]. exists l. eexists. reflexivity. }
    assert (S0 : forall x0 : dx, x0 = set_links x0 (dx_links x0)) by (intros []; reflexivity).
    revert H. apply K.
    - destruct (dget (lit "name") _) as [[|c n]|]; quiet. apply quiet_lift, hm_add_fine.
    - intros x0 u0 y0 HH. destruct (dget (lit "name") _) as [[|c n]|]; [apply runs_ret in HH as [_ ->]; eexists; apply S0| |apply runs_ret in HH as [_ ->]; eexists; apply S0].
      apply runs_pget in HH. apply runs_lift in HH as (m & _ & HH). specialize (HH []). unfold pmod in HH. apply pair_equal_spec in HH as [HH _]. apply pair_equal_spec in HH as [_ <-]. exists m. reflexivity.
  Qed.
  (* blocks *)
  Lemma pending_without x : block_args x = without ["classes"; "engine"]%string (pending x).
  Proof. reflexivity. Qed.
  Lemma engine_is_or x : block_engine x = or_else (arg (pending x) "engine") (lit "default").
  Proof. unfold block_engine, arg. cbn [pop_arg fst snd na_named]. rewrite dget_ddel_ne by discriminate. reflexivity. Qed.
  Lemma engine_given x name : block_engine x = lit name -> name <> "default"%string -> engine_is (pending x) name.
  Proof.
    intros H Hn. rewrite engine_is_or in H. left. destruct (arg (pending x) "engine") as [v|]; cbn [or_else] in H; [congruence|]. exfalso. apply Hn. clear - H.
    assert (I : forall a b, lit a = lit b -> a = b). 2: symmetry; exact (I _ _ H).
    induction a as [|c a IH]; intros [|d b] E; cbn in E; try discriminate; [reflexivity|]. injection E as E1 E2. apply IH in E2. subst b. f_equal.
    apply (f_equal N.to_nat) in E1. rewrite <- (Ascii.ascii_N_embedding c), <- (Ascii.ascii_N_embedding d). f_equal. apply N2Nat.inj, E1.
  Qed.
  Lemma engine_default x : block_engine x = lit "default" -> engine_is (pending x) "default".
  Proof. rewrite engine_is_or. unfold engine_is. destruct (arg (pending x) "engine") as [v|]; cbn [or_else]; [left; congruence|right; auto]. Qed.
  Lemma engine_full ctx content x node a nctx y :
    runs (dp_engine run (block_engine x) ctx content (block_classes x) (block_args x)) (set_args x None) (node, a, nctx) y ->
    block_made run x content (block_classes x) node a nctx.
  Proof.
    intros H. pose proof (engine_inv _ run_ok _ _ _ _ _ _ _ _ _ _ H) as K. unfold dp_engine in H.
    destruct (str_eqb_spec (block_engine x) (lit "default")) as [Ed|Nd].
    { apply engine_default in Ed as Hd. destruct K as [(_ & K)|(_ & t & y' & E1 & E2 & E3 & _ & -> & -> & ->)].
      - destruct (K Ed) as (Hc & -> & -> & ->). rewrite pending_without. eapply bm_empty; [exact Hd| |left; reflexivity].
        intros t Et. destruct Hc as [Hc|(t' & Hc & Hv)]; congruence.
      - rewrite pending_without. eapply bm_mau; [exact Hd|split; [exact E1|exact E2]|exact E3]. }
    clear K Nd. destruct (str_eqb_spec (block_engine x) (lit "raw")) as [Er|Nr].
    { apply engine_given in Er; [|discriminate]. apply runs_ret in H as [E _]. injection E as -> -> ->. rewrite pending_without. destruct content as [t|].
      - unfold token_truthy. destruct (t_value t) eqn:Ev.
        + eapply bm_empty; [exact Er|intros t' [= <-]; exact Ev|right; left; reflexivity].
        + eapply bm_raw; [exact Er|split; [reflexivity|rewrite Ev; discriminate]|]. destruct (C41_raw_verbatim t) as (R1 & R2 & R3). split; [split; [exact R1|exact R2]|exact R3].
      - eapply bm_empty; [exact Er|intros t' [=]|right; left; reflexivity]. }
    destruct (str_eqb_spec (block_engine x) (lit "source")) as [Es|Ns]; [|destruct (runs_raise _ _ _ _ H)].
    apply engine_given in Es; [|discriminate]. destruct content as [t|].
    - unfold token_truthy in H. destruct (t_value t) eqn:Ev.
      + apply runs_ret in H as [E _]. injection E as -> -> ->. rewrite pending_without. eapply bm_empty; [exact Es|intros t' [= <-]; exact Ev|right; right; left; reflexivity].
      + apply runs_pget in H. apply runs_lift in H as ([[lg lns] a2] & Eb & H). apply runs_ret in H as [E _]. injection E as -> -> ->.
        eapply bm_source; [exact Es|split; [reflexivity|rewrite Ev; discriminate]|exact Eb].
    - apply runs_ret in H as [E _]. injection E as -> -> ->. rewrite pending_without. eapply bm_empty; [exact Es|intros t' [=]|right; right; left; reflexivity].
  Qed.
  Lemma include_full ty ctx a x node a' z : runs (include_node cf run ty ctx a) x (node, a') z -> include_made cf run ctx a ty node a'.
  Proof.
    intros H. unfold include_node in H. destruct (str_eqb_spec ty (lit "image")) as [->|N1].
    { unfold dp_image in H. cbn [pop_arg] in H. apply runs_need_uri in H as (uri & Eu & Nu & H). apply runs_ret in H as [E _]. injection E as -> ->.
      cbn [na_named]. rewrite !(dget_ddel_ne (lit "classes")) by discriminate. rewrite (dget_ddel_ne (lit "alt_text")) by discriminate.
      apply (im_image cf run ctx a uri); [split; [exact Eu|exact Nu]|apply classes_given_split]. }
    destruct (str_eqb_spec ty (lit "mau")) as [->|N2].
    { unfold dp_mau in H. cbn [pop_arg] in H. apply runs_need_uri in H as (uri & Eu & Nu & H). apply runs_pmod in H. apply runs_pget in H.
      destruct (source_in _ _) eqn:Es; [destruct (runs_raise _ _ _ _ H)|]. cbv zeta in H. apply runs_pmod in H. apply runs_read in H as (text & Et & H).
      apply runs_pget in H. apply runs_bind_inv in H as (e & y & H1 & H); [|destruct (str_eqb _ _); [apply quiet_lift, nest_env_fine|quiet]].
      apply runs_lift in H as (y2 & Ey & H). apply runs_pmod in H. apply runs_ret in H as [E _]. injection E as -> ->.
      eapply (im_mau cf run ctx a uri); [split; [exact Eu|exact Nu]|exact Et|exact Ey]. }
    destruct (str_eqb_spec ty (lit "raw")) as [->|N3].
    { unfold dp_include_raw in H. cbn [pop_arg] in H. apply runs_need_uri in H as (uri & Eu & Nu & H). apply runs_read in H as (t & Et & H).
      apply runs_ret in H as [E _]. injection E as -> ->. eapply (im_raw cf run ctx a uri); [split; [exact Eu|exact Nu]|exact Et| |].
      - rewrite map_fst_pair. apply separated_split.
      - apply Forall_forall. intros l Hl. apply in_map_iff in Hl as (s & <- & _). reflexivity. }
    destruct (str_eqb_spec ty (lit "toc")) as [->|N4].
    { apply runs_bind_inv in H as (f & y & H1 & H); [|unfold dp_toc; apply quiet_bind; [apply fresh_quiet|]; intros id; quiet].
      unfold dp_toc in H1. apply runs_fresh in H1. apply runs_pmod in H1. apply runs_ret in H1 as [-> ->]. apply runs_ret in H as [E _]. injection E as -> ->. apply im_toc. }
    destruct (str_eqb_spec ty (lit "footnotes")) as [->|N5].
    { apply runs_bind_inv in H as (f & y & H1 & H); [|unfold dp_footnotes; apply quiet_bind; [apply fresh_quiet|]; intros id; quiet].
      unfold dp_footnotes in H1. apply runs_fresh in H1. apply runs_pmod in H1. apply runs_ret in H1 as [-> ->]. apply runs_ret in H as [E _]. injection E as -> ->. apply im_footnotes. }
    destruct (str_eqb_spec ty (lit "blockgroup")) as [->|N6].
    { unfold dp_blockgroup in H. cbn [pop_arg] in H. destruct (dget (lit "group") _) as [g|] eqn:Eg; [|destruct (runs_raise _ _ _ _ H)].
      apply runs_fresh in H. apply runs_pmod in H. apply runs_ret in H as [E _]. injection E as -> ->. apply (im_group cf run ctx a _ g), Eg. }
    apply runs_ret in H as [E _]. injection E as -> ->. apply im_other. cbn [map In known_contents]. intuition congruence.
  Qed.

  Lemma saved el x y ok n z : is_node el -> ~ kept_apart el x -> makes cf run x el n -> admitted y ok ->
    dx_control y = dx_control x -> dx_nodes y = dx_nodes x -> dx_env z = dx_env y -> dx_nodes z = (if ok then dx_nodes x ++ [n] else dx_nodes x) ->
    exists added, effect cf run el x z added /\ dx_nodes z = dx_nodes x ++ added.
  Proof.
    intros Hn Hk Hm Ha Ec En Ee Hz. apply admitted_allowed in Ha. unfold allowed in Ha. rewrite Ec in Ha. fold (allowed x (dx_env y)) in Ha. rewrite <- Ee in Ha.
    exists (if ok then [n] else []). split; [|destruct ok; [exact Hz|rewrite app_nil_r; exact Hz]]. left. split; [exact Hn|]. split; [exact Hk|]. exists n. split; [exact Hm|].
    destruct ok; [left; split; [apply Ha; reflexivity|reflexivity]|right; split; [intros K; apply Ha in K; discriminate K|reflexivity]].
  Qed.
End Full.

(* ------------------------------------------------------------------ C73 *)
(* Every element adds to the document the node that is written, if its condition
   holds; a block kept apart is stored; the others add nothing. *)
Theorem C73_element cf m el x x' : acts cf (dp_run m cf) el x x' ->
  exists added, effect cf (dp_run m cf) el x x' added /\ dx_nodes x' = dx_nodes x ++ added.
Proof.
  intros H. assert (R : forall e n d f t o, fine_res (dp_run m cf e n d f t o)) by (intros; apply dp_run_fine).
  assert (O : ~ is_node el -> match el with
       | ELabel _ t => exists ns role, label_role el = [role] /\ inline_of cf (dx_env x) t ns /\ dx_labels x' = dset role ns (dx_labels x)
       | _ => dx_labels x' = dx_labels x
       end -> exists added, effect cf (dp_run m cf) el x x' added /\ dx_nodes x' = dx_nodes x ++ added).
  { intros Hn Hl. exists []. apply C42_between in H as (E & _); [|exact Hn]. unfold adds_nothing in E. split; [|rewrite app_nil_r; exact E]. right. right. auto. }
  destruct el as [t|t|o n c v|r t|o op c|o t c|h t|o t c|o ty args|items|ls]; cbn [acts] in H.
  - apply O; [tauto|]. apply runs_ret in H as [_ ->]. reflexivity.
  - apply do_rule_inv in H as (ok & Ha & ->). eapply saved; [exact I|intros []|apply mk_rule|exact Ha|reflexivity|reflexivity|destruct ok; reflexivity|destruct ok; reflexivity].
  - apply O; [tauto|]. apply do_variable_inv in H as (k & s & _ & ->). reflexivity.
  - apply O; [tauto|]. cbn [do_element] in H. unfold dp_do_label in H. apply runs_bind_inv in H as (nodes & y & H1 & H); [|apply text_quiet]. apply text_full in H1 as (Hi & a & b' & c & ->).
    apply runs_pmod in H. apply runs_ret in H as [_ ->]. exists nodes. eexists. split; [reflexivity|]. split; [exact Hi|]. reflexivity.
  - apply O; [tauto|]. apply do_control_inv in H as (k & E & ->). reflexivity.
  - apply O; [tauto|]. apply do_arguments_inv in H as (p & E & ->). reflexivity.
  - clear O. apply (header_full cf (dp_run m cf)) in H as (hd & ms & hs & next & ok & Hm & Ha & H).
    eapply saved; [exact I|intros []|exact Hm|exact Ha|reflexivity|reflexivity| |]; (destruct ok; [destruct H as (links & toc & ->)|subst x']; reflexivity).
  - clear O. cbn [do_element] in H. apply do_block_inv in H as (node & a & nctx & y & H1 & H); [|exact R].
    pose proof (engine_args _ R _ _ _ _ _ _ _ _ _ _ H1) as (_ & _ & Pk). pose proof (engine_full _ R _ _ _ _ _ _ _ H1) as Hm.
    assert (Hc : classes_given (arg (pending x) "classes") (block_classes x)) by apply classes_given_split.
    assert (F : dx_labels y = dx_labels x /\ dx_control y = dx_control x /\ dx_nodes y = dx_nodes x).
    { apply engine_inv in H1 as [(-> & _)|(_ & t' & y' & _ & _ & _ & -> & _)]; [auto|unfold after_child; destruct (isolated _); auto|exact R]. }
    destruct F as (F2 & F3 & F4). rewrite F2 in H.
    assert (G : forall k, In k ["footnote"; "group"; "position"]%string -> dget (lit k) (na_named a) = pending_arg x k).
    { intros k Hk. rewrite pending_args, Pk, block_args_other; [reflexivity| | |]; cbn [In] in Hk; destruct Hk as [<-|[<-|[<-|[]]]]; cbn; intuition discriminate. }
    rewrite (G "footnote"%string), (G "group"%string), (G "position"%string) in H by (cbn; auto).
    destruct (nonempty (pending_arg x "footnote")) as [name|] eqn:Ef.
    { destruct H as (k & Ek & ->). exists []. split; [|rewrite app_nil_r; exact F4]. right. left. split; [left; exact (given_some _ _ _ Ef)|]. split; [reflexivity|].
      destruct (pending_arg x "footnote") as [[|ch s]|]; [discriminate Ef| |discriminate Ef]. cbn [nonempty] in Ef.
      eexists. split; [eapply bd_block; [exact Hc|exact Hm]|]. unfold fm_add_body in Ek. destruct (dmem _ _); [discriminate Ek|]. apply Ok_inv in Ek. subst k.
      cbn [set_foot dx_foot fm_bodies]. replace (ch :: s) with name by congruence. rewrite dget_dset, str_eqb_refl; reflexivity. }
    assert (Nf : ~ arg_given x "footnote") by (apply given_none, Ef).
    assert (K : (exists ok, admitted (set_labels y []) ok /\
              x' = (if ok then set_nodes (set_control (set_labels y []) None) (dx_nodes y ++ [node (mkAttrs a (dx_labels x) (merge_contexts (t_ctx o) (t_ctx c)))]) else set_control (set_labels y []) None)) ->
            ~ kept_apart (EBlock o t c) x -> exists added, effect cf (dp_run m cf) (EBlock o t c) x x' added /\ dx_nodes x' = dx_nodes x ++ added).
    { intros (ok & Ha & ->) Hk. eapply saved; [exact I|exact Hk|eapply mk_block; [exact Hc|exact Hm]|exact Ha|exact F3|exact F4|destruct ok; reflexivity|destruct ok; cbn; rewrite F4; reflexivity]. }
    destruct (nonempty (pending_arg x "group")) as [g|] eqn:Eg.
    2: { apply K; [exact H|]. intros [Hk|[Hk _]]; [contradiction|]. apply given_none in Eg. contradiction. }
    destruct (nonempty (pending_arg x "position")) as [p|] eqn:Ep.
    2: { apply K; [exact H|]. intros [Hk|[_ Hk]]; [contradiction|]. apply given_none in Ep. contradiction. }
    clear K. destruct H as (k & Ek & ->). exists []. split; [|rewrite app_nil_r; exact F4]. right. left.
    split; [right; split; [exact (given_some _ _ _ Eg)|exact (given_some _ _ _ Ep)]|]. split; [reflexivity|].
    assert (Q : exists n group position items, makes cf (dp_run m cf) x (EBlock o t c) n /\
           pending_arg x "group" = Some group /\ pending_arg x "position" = Some position /\
           dget group (gm_items (dx_groups (set_groups (set_labels y []) k))) = Some items /\ dget position items = Some n).
    { eexists. exists g, p. eexists. split; [eapply mk_block; [exact Hc|exact Hm]|].
      split; [destruct (pending_arg x "group") as [[|]|]; [discriminate Eg|exact Eg|discriminate Eg]|].
      split; [destruct (pending_arg x "position") as [[|]|]; [discriminate Ep|exact Ep|discriminate Ep]|].
      unfold gm_add_block in Ek. destruct (dmem _ _); [discriminate Ek|]. apply Ok_inv in Ek. subst k. cbn [set_groups dx_groups gm_items].
      split; rewrite dget_dset, str_eqb_refl; reflexivity. }
    destruct (pending_arg x "footnote") as [[|ch s]|]; [exact Q|discriminate Ef|exact Q].
  - clear O. apply element_include_inv in H as (a & Hg & H). apply do_include_inv in H as (node & a' & y & ok & H1 & F & Ha & ->); [|exact R].
    apply include_full in H1. destruct F as (F1 & F2 & F3 & F4 & F5 & F6 & F7 & _).
    eapply saved; [exact I|intros []| |exact Ha|exact F3|exact F1|destruct ok; reflexivity|destruct ok; [reflexivity|exact F1]].
    refine (mk_include cf (dp_run m cf) x o ty args a node a' _ H1). destruct args as [[c t]|]; exact Hg.
  - clear O. destruct H as (i & its & nodes & x1 & H1 & H2 & H). eapply list_full in H as (n & ms & hs & next & latest & ok & Hm & Ha & ->); [|exact H1|exact H2].
    eapply saved; [exact I|intros []|exact Hm|exact Ha|reflexivity|reflexivity|destruct ok; reflexivity|destruct ok; reflexivity].
  - clear O. apply (paragraph_full cf (dp_run m cf)) in H as (n & ms & hs & next & ok & Hm & Ha & ->).
    eapply saved; [exact I|intros []|exact Hm|exact Ha|reflexivity|reflexivity|destruct ok; reflexivity|destruct ok; reflexivity].
Qed.
Lemma C73_elements cf m els x z : act_all cf (dp_run m cf) els x z -> exists added, tree cf (dp_run m cf) els x z added /\ dx_nodes z = dx_nodes x ++ added.
Proof.
  induction 1 as [x|el els x y z H _ (rest & T & E)]; [exists []; split; [constructor|symmetry; apply app_nil_r]|].
  pose proof (C73_element _ _ _ _ _ H) as (added & Ef & Ea). exists (added ++ rest). split; [econstructor; eassumption|]. rewrite E, Ea, app_assoc. reflexivity.
Qed.
(* The nodes of a document are those of its elements, in order. *)
Theorem C73_document n cf e next done forb text o y : dp_run n cf e next done forb text o = Ok y ->
  exists m toks x0 els x, n = S m /\ lex_document (buffer text o) = Ok toks /\ dp_init e next done forb = Ok x0 /\
    SpecDoc.made_of toks els /\ tree cf (dp_run m cf) els x0 x (dx_nodes y).
Proof.
  intros H. apply dp_run_inv in H as (m & toks & x0 & els & x & -> & El & Ei & M & A & Hf). exists m, toks, x0, els, x. split; [reflexivity|]. split; [exact El|]. split; [exact Ei|].
  split; [exact M|]. apply C73_elements in A as (added & T & E). 
  assert (E0 : dx_nodes x0 = []). { unfold dp_init in Ei. destruct (not_callable _); [discriminate|]. apply Ok_inv in Ei. subst x0. reflexivity. }
  rewrite E0 in E. cbn [app] in E. 
  assert (Ey : dx_nodes y = dx_nodes x).
  { unfold dp_finalise in Hf. apply rbind_ok in Hf as ([fl fs] & _ & Hf). apply rbind_ok in Hf as ([[t ids] tocs] & _ & Hf). apply rbind_ok in Hf as (hl & _ & Hf).
    apply rbind_ok in Hf as (gr & _ & Hf). apply Ok_inv in Hf. subst y. reflexivity. }
  rewrite Ey, E. exact T.
Qed.
(* the start of a list is read as a number exactly when it is written as one *)
Theorem C73_start_number v z : py_int v = Ok z <-> written_number v z.
Proof. split; [apply py_int_number|apply number_int]. Qed.

(* The context of a paragraph is that of its first and last lines: it need not
   contain those between them.  The same for the items of a list. *)
Definition box_in (a b : context) : Prop :=
  c_start_line b <= c_start_line a /\ c_end_line a <= c_end_line b /\ c_start_column b <= c_start_column a /\ c_end_column a <= c_end_column b.
Definition parts (n : dnode) : list context :=
  match n with DParagraph lines _ => map snd lines | DList _ _ _ content _ => map dnode_ctx content | _ => [] end.
Theorem C73_refuted_context :
  (exists n, doc "a|longer line|b" = Ok [n] /\ ~ Forall (fun c => box_in c (dnode_ctx n)) (parts n)) /\
  (exists n, doc "* a|* longer item|* b|" = Ok [n] /\ ~ Forall (fun c => box_in c (dnode_ctx n)) (parts n)).
Proof.
  split; (eexists; split; [vm_compute; reflexivity|]); intros H; rewrite Forall_forall in H; unfold box_in in H; cbn in H.
  - specialize (H _ (or_intror (or_introl eq_refl))). cbn in H. lia.
  - specialize (H _ (or_intror (or_introl eq_refl))). cbn in H. lia.
Qed.

Definition cf_raw : config :=
  mkConfig (fun u => if str_eqb u (lit "f") then File (mau "one|two") else Missing) (fun _ => lit "id") (fun _ => lit "fid") 100.
Example C73_ex :
  doc ". t|[start= 1_0]|# one|#* sub||[a,internal_id=x,name=n,k=v]|== Title" = Ok
    [DList true true 10
       [DItem 1 [NText (lit "one") (mkContext 2 2 2 5 None)] (mkContext 2 0 2 5 None);
        DList true false 1 [DItem 2 [NText (lit "sub") (mkContext 3 3 3 6 None)] (mkContext 3 0 3 6 None)] (mkAttrs empty_args [] (mkContext 3 0 3 6 None))]
       (mkAttrs (mkArgs [] [(lit "start", lit "1_0")] [] [] None) [(lit "title", [NText (lit "t") (mkContext 0 2 0 3 None)])] (mkContext 2 0 3 6 None));
     DHeader (mkHeader 0 2 (Some (lit "x")) (Some (lit "n")) [NText (lit "Title") (mkContext 6 3 6 8 None)]
       (mkArgs [lit "a"] [(lit "k", lit "v")] [] [] None) [] (mkContext 6 0 6 8 None))] /\
  doc "[python,engine=source,classes=""a,b""]|----|x = 1|----||:f:a|@if f!=a|text" = Ok
    [DSource [lit "a"; lit "b"] (Some (lit "python")) [mkSourceLine (lit "1") (lit "x = 1") None None (mkContext 2 0 2 5 None)] (mkAttrs empty_args [] (mkContext 1 0 3 4 None))] /\
  rmap dx_nodes (parse_document 5 cf_raw env_empty (mau "<< raw:f|") (mkOrigin 0 0 None)) = Ok
    [DIncludeRaw (lit "f") [(lit "one", mkContext 0 0 0 6 None); (lit "two", mkContext 0 0 0 6 None)] (mkAttrs empty_args [] (mkContext 0 0 0 6 None))].
Proof. vm_compute. auto. Qed.
Example C73_ex_numbers : written_number (lit " -1_000 ") (-1000)%Z /\ ~ exists z, written_number (lit "1__0") z.
Proof. split; [apply py_int_number; reflexivity|]. intros (z & H). apply number_int in H. discriminate H. Qed.
