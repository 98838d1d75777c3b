(* PropertiesManagers.v -- C34 (table of contents), C35 (footnotes), C36 (header
   links), C37 (block groups): for every history of the calls. *)
From Verif Require Import SpecManagers.
From Coq Require Import Lia.

(* ------------------------------------------------------------- str(n) *)
Lemma decimal_app s t acc : decimal acc (s ++ t) = match decimal acc s with Some a => decimal a t | None => None end.
Proof. revert acc; induction s as [|c s IH]; intros acc; cbn [app decimal]; [reflexivity|]. destruct (is_digit c); [apply IH|reflexivity]. Qed.

Lemma decimal_digit acc n : (n < 10)%N -> decimal acc [(48 + n)%N] = Some (10 * acc + N.to_nat n).
Proof.
  intros H. cbn [decimal]. unfold is_digit.
  destruct (N.leb_spec 48 (48 + n)), (N.leb_spec (48 + n) 57); try lia. cbn [andb]. do 2 f_equal. lia.
Qed.

Lemma digits_decimal f n : (N.to_nat (N.log2 n) < f) -> decimal 0 (digits_fuel f n) = Some (N.to_nat n).
Proof.
  revert n; induction f as [|f IH]; intros n H; [lia|]. cbn [digits_fuel].
  destruct (N.ltb_spec n 10) as [Hn|Hn].
  - rewrite decimal_digit by exact Hn. f_equal.
  - rewrite decimal_app, IH.
    + rewrite decimal_digit by (apply N.mod_lt; lia). f_equal.
      pose proof (N.div_mod n 10 ltac:(lia)) as E. lia.
    + assert (N.log2 (n / 10) < N.log2 n)%N; [|lia].
      assert (n / 10 <= n / 2)%N by (apply N.div_le_compat_l; lia).
      assert (N.log2 (n / 10) <= N.log2 (n / 2))%N by (apply N.log2_le_mono; assumption).
      assert (N.log2 n = N.succ (N.log2 (n / 2)))%N; [|lia].
      rewrite <- N.div2_div. rewrite (N.div2_odd n) at 1.
      assert (0 < N.div2 n)%N by (rewrite N.div2_div; apply N.div_str_pos; lia).
      destruct (N.odd n); cbn [N.b2n].
      * rewrite N.log2_succ_double by assumption. reflexivity.
      * rewrite N.add_0_r, N.log2_double by assumption. reflexivity.
Qed.

Lemma str_of_nat_writes n : writes (str_of_nat n) n.
Proof.
  unfold writes, str_of_nat, str_of_N. split.
  - cbn [digits_fuel]. destruct (_ <? 10)%N; [discriminate|]. intros E. apply app_eq_nil in E. destruct E; discriminate.
  - rewrite digits_decimal by lia. f_equal. lia.
Qed.

Lemma Some_inv {A} (a b : A) : Some a = Some b -> a = b.
Proof. congruence. Qed.

(* ----------------------------------------------------------- for_each *)
Lemma for_each_ok {A B} (f : A -> res B) (g : A -> B) l : (forall a, In a l -> f a = Ok (g a)) -> for_each f l = Ok (map g l).
Proof.
  induction l as [|a l IH]; intros H; cbn [for_each map]; [reflexivity|].
  rewrite (H a) by (left; reflexivity). cbn [rbind]. rewrite IH; [reflexivity|]. intros b Hb. apply H. right; exact Hb.
Qed.

Lemma for_each_forall {A B} (f : A -> res B) (R : A -> B -> Prop) l :
  (forall a, In a l -> exists b, f a = Ok b /\ R a b) -> exists bs, for_each f l = Ok bs /\ Forall2 R l bs.
Proof.
  induction l as [|a l IH]; intros H; cbn [for_each]; [eauto|].
  destruct (H a) as (b & E & Hb); [left; reflexivity|]. destruct IH as (bs & E' & Hbs); [intros c Hc; apply H; right; exact Hc|].
  exists (b :: bs). rewrite E. cbn [rbind]. rewrite E'. auto.
Qed.

Lemma for_each_exc {A B} (f : A -> res B) l1 a l2 ex :
  (forall b, In b l1 -> exists c, f b = Ok c) -> f a = Exc ex -> for_each f (l1 ++ a :: l2) = Exc ex.
Proof.
  intros H1 Ha. induction l1 as [|b l IH]; cbn [app for_each].
  - rewrite Ha. reflexivity.
  - destruct (H1 b) as [c Hc]; [left; reflexivity|]. rewrite Hc. cbn [rbind]. rewrite IH; [reflexivity|]. intros d Hd. apply H1. right; exact Hd.
Qed.

Lemma for_each_nth {A B} (f : A -> res B) l bs : for_each f l = Ok bs ->
  length bs = length l /\ forall k a, nth_error l k = Some a -> exists b, nth_error bs k = Some b /\ f a = Ok b.
Proof.
  revert bs; induction l as [|a l IH]; intros bs H; cbn [for_each] in H.
  - apply Ok_inv in H. subst. split; [reflexivity|]. intros [|k] a; discriminate.
  - destruct (rbind_ok _ _ _ H) as (b & Hb & H'). destruct (rbind_ok _ _ _ H') as (bs' & Hbs & H''). apply Ok_inv in H''. subst bs.
    destruct (IH _ Hbs) as [Hl Hk]. split; [cbn; lia|]. intros [|k] x Hx; cbn in Hx.
    + injection Hx as <-. exists b. split; [reflexivity|exact Hb].
    + apply Hk in Hx. exact Hx.
Qed.

Lemma enumerate_nth {A} (l : list A) n k : nth_error (enumerate_from n l) k = option_map (fun a => (n + k, a)) (nth_error l k).
Proof.
  revert n k; induction l as [|a l IH]; intros n [|k]; cbn; try reflexivity.
  - rewrite Nat.add_0_r. reflexivity.
  - rewrite IH. replace (S n + k) with (n + S k) by lia. reflexivity.
Qed.

Lemma enumerate_snd {A} (l : list A) n : map snd (enumerate_from n l) = l.
Proof. revert n; induction l as [|a l IH]; intros n; cbn; [reflexivity|]. rewrite IH. reflexivity. Qed.

Lemma keys_app {A} (d e : dict A) : keys (d ++ e) = keys d ++ keys e.
Proof. apply map_app. Qed.

Lemma nodup_app_not {A} (l m : list A) a : NoDup (l ++ a :: m) -> ~ In a l.
Proof. intros H. apply NoDup_remove_2 in H. intros Hin. apply H. apply in_app_iff. left; exact Hin. Qed.

Lemma nodup_app_l {A} (l m : list A) : NoDup (l ++ m) -> NoDup l.
Proof.
  induction l as [|a l IH]; cbn; intros H; constructor; inversion H; subst; [|auto].
  intros Hin. apply H2. apply in_app_iff. left; exact Hin.
Qed.

(* a list with a repetition has a first one *)
Lemma first_repeat (l : list str) : ~ NoDup l -> exists l1 a l2, l = l1 ++ a :: l2 /\ NoDup l1 /\ In a l1.
Proof.
  induction l as [|b l IH] using rev_ind; intros H; [destruct H; constructor|].
  destruct (ListDec.NoDup_dec str_eq_dec l) as [Hd|Hd].
  - destruct (in_dec str_eq_dec b l) as [Hin|Hin].
    + exists l, b, []. auto.
    + destruct H. apply (Permutation_NoDup (l := b :: l)); [apply Permutation_cons_append|]. constructor; assumption.
  - destruct (IH Hd) as (l1 & a & l2 & -> & H1 & H2). exists l1, a, (l2 ++ [b]). rewrite <- app_assoc. auto.
Qed.

(* ---------------------------------------------------------- C35 footnotes *)
Section Footnotes.
  Context {B C : Type}.
  Implicit Types (h : list (foot_event B)).

  Lemma foot_step_exc h e : fold_left foot_step h (@Exc (fman B) e) = Exc e.
  Proof. induction h as [|x h IH]; cbn; [reflexivity|]. exact IH. Qed.

  Lemma foot_run h m :
    NoDup (keys (fm_bodies m ++ defined h)) ->
    fold_left foot_step h (Ok m) = Ok (mkFman (fm_macros m ++ mentioned h) (fm_bodies m ++ defined h) (fm_lists m ++ foot_lists h)).
  Proof.
    revert m; induction h as [|e h IH]; intros m H; cbn [fold_left].
    - unfold defined, mentioned, foot_lists; cbn. rewrite !app_nil_r. destruct m; reflexivity.
    - destruct e as [l|n b c|i]; cbn [foot_step rbind].
      + rewrite IH by exact H. unfold fm_add_macros, mentioned; cbn. rewrite app_assoc. reflexivity.
      + unfold fm_add_body.
        assert (Hn : ~ In n (keys (fm_bodies m))).
        { unfold defined in H. cbn in H. unfold keys in H. rewrite map_app in H. cbn in H. eapply nodup_app_not, H. }
        destruct (dmem n (fm_bodies m)) eqn:E; [apply dmem_In in E; contradiction|].
        rewrite IH; cbn [fm_macros fm_bodies fm_lists]; rewrite dset_new by exact Hn.
        * unfold defined, mentioned, foot_lists; cbn. rewrite <- !app_assoc. reflexivity.
        * rewrite <- app_assoc. exact H.
      + rewrite IH by exact H. unfold fm_add_list, foot_lists; cbn. rewrite <- app_assoc. reflexivity.
  Qed.

  Lemma foot_history_ok h : NoDup (map fst (defined h)) ->
    foot_history h = Ok (mkFman (mentioned h) (defined h) (foot_lists h)).
  Proof. intros H. unfold foot_history. rewrite foot_run; [reflexivity|exact H]. Qed.

  Lemma defined_split h l1 a l2 : map fst (defined h) = l1 ++ a :: l2 ->
    exists h1 b c h2, h = h1 ++ Define a b c :: h2 /\ map fst (defined h1) = l1.
  Proof.
    revert l1; induction h as [|e h IH]; intros l1 H; [destruct l1; discriminate|].
    destruct e as [l|n b c|i].
    - destruct (IH l1 H) as (h1 & b & c & h2 & -> & E). exists (Mentions l :: h1), b, c, h2. auto.
    - destruct l1 as [|x l1]; cbn in H.
      + injection H as -> _. exists [], b, c, h. auto.
      + injection H as -> H. destruct (IH l1 H) as (h1 & b' & c' & h2 & -> & E).
        exists (Define x b c :: h1), b', c', h2. split; [reflexivity|]. exact (f_equal (cons x) E).
    - destruct (IH l1 H) as (h1 & b & c & h2 & -> & E). exists (FootList i :: h1), b, c, h2. auto.
  Qed.

  (* A second definition of a name is an error, at that definition; nothing else in
     the history can fail. *)
  Theorem C35_second_definition h :
    (NoDup (map fst (defined h)) <-> exists m, foot_history h = Ok m) /\
    (~ NoDup (map fst (defined h)) ->
     exists h1 name body ctx h2,
       h = h1 ++ Define name body ctx :: h2 /\ In name (map fst (defined h1)) /\ NoDup (map fst (defined h1)) /\
       foot_history h = Exc (parser_error "Footnote has been already defined." (Some ctx))).
  Proof.
    assert (D : ~ NoDup (map fst (defined h)) ->
     exists h1 name body ctx h2,
       h = h1 ++ Define name body ctx :: h2 /\ In name (map fst (defined h1)) /\ NoDup (map fst (defined h1)) /\
       foot_history h = Exc (parser_error "Footnote has been already defined." (Some ctx))).
    { intros H. destruct (first_repeat _ H) as (l1 & a & l2 & E & H1 & H2).
      destruct (defined_split _ _ _ _ E) as (h1 & b & c & h2 & -> & E1).
      exists h1, a, b, c, h2. rewrite E1. do 3 (split; [solve [auto]|]).
      unfold foot_history. rewrite fold_left_app. fold (foot_history h1). rewrite foot_history_ok by (rewrite E1; exact H1).
      cbn [fold_left foot_step rbind]. unfold fm_add_body. cbn [fm_bodies].
      replace (dmem a (defined h1)) with true by (symmetry; apply dmem_In; unfold keys; rewrite E1; exact H2).
      apply foot_step_exc. }
    split; [|exact D]. split.
    - intros H. eexists. apply foot_history_ok, H.
    - intros [m Hm]. destruct (ListDec.NoDup_dec str_eq_dec (map fst (defined h))) as [Hd|Hd]; [exact Hd|].
      destruct (D Hd) as (? & ? & ? & ? & ? & _ & _ & _ & E). congruence.
  Qed.

  Context (copy : B -> C).
  Context (uid : footnote C -> str).

  Definition note (nb : nat * (str * B)) : str * footnote C :=
    let '(number, (name, body)) := nb in
    (name, mkFootnote name (str_of_nat number) (uid (mkFootnote name (str_of_nat number) [] (copy body))) (copy body)).
  Definition notes (d : dict B) : dict (footnote C) := map note (enumerate_from 1 d).

  Lemma fm_footnotes_ok (m : fman B) : fm_footnotes copy (fun f => Ok (uid f)) m = Ok (notes (fm_bodies m)).
  Proof. unfold fm_footnotes. rewrite (for_each_ok _ note); [reflexivity|]. intros [n [name b]] _. reflexivity. Qed.

  Lemma notes_keys d : keys (notes d) = keys d.
  Proof.
    unfold notes, keys. rewrite map_map. rewrite <- (enumerate_snd d 1) at 2. rewrite map_map. apply map_ext.
    intros [n [a b]]. reflexivity.
  Qed.

  Lemma notes_nth (h : list (foot_event B)) k f : nth_error (map snd (notes (defined h))) k = Some f -> made_of copy uid h k f.
  Proof.
    unfold notes. rewrite map_map, nth_error_map, enumerate_nth.
    destruct (nth_error (defined h) k) as [[name body]|] eqn:E; [|discriminate]. cbn. intros [= <-].
    exists name, body. cbn [fn_name fn_public_id fn_content fn_internal_id].
    split; [exact E|]. split; [reflexivity|]. split; [exact (str_of_nat_writes (S k))|]. split; reflexivity.
  Qed.

  Lemma notes_length d : length (notes d) = length d.
  Proof. unfold notes. rewrite map_length. rewrite <- (enumerate_snd d 1) at 2. rewrite map_length. reflexivity. Qed.

  Lemma notes_get (h : list (foot_event B)) name f : dget name (notes (defined h)) = Some f -> fn_name f = name /\ exists k, made_of copy uid h k f.
  Proof.
    intros H. apply dget_in in H. split.
    - unfold notes in H. apply in_map_iff in H. destruct H as ([n [a b]] & E & _). cbn in E. injection E as <- <-. reflexivity.
    - apply (in_map snd) in H. destruct (In_nth_error _ _ H) as [k Hk]. exists k. apply notes_nth, Hk.
  Qed.

  (* After any history without a repeated definition: when all the mentions are
     defined, each mention is assigned the footnote of that name, and each list all
     the footnotes in the order of the definitions, numbered from 1. *)
  Theorem C35_footnotes_linked h m :
    foot_history h = Ok m ->
    (forall x, In x (mentioned h) -> In (mn_name x) (map fst (defined h))) ->
    exists links lists,
      fm_process copy (fun f => Ok (uid f)) m = Ok (links, lists) /\
      Forall2 (fun x l => fst l = mn_id x /\ fn_name (snd l) = mn_name x /\ exists k, made_of copy uid h k (snd l))
              (mentioned h) links /\
      Forall2 (fun id l => fst l = id /\ length (snd l) = length (defined h) /\
                 forall k f, nth_error (snd l) k = Some f -> made_of copy uid h k f)
              (foot_lists h) lists.
  Proof.
    intros Hm Hdef. assert (Hn : NoDup (map fst (defined h))) by (apply C35_second_definition; eauto).
    rewrite foot_history_ok in Hm by exact Hn. apply Ok_inv in Hm. subst m.
    destruct (for_each_forall (fm_link (notes (defined h)))
                (fun x l => fst l = mn_id x /\ fn_name (snd l) = mn_name x /\ exists k, made_of copy uid h k (snd l))
                (mentioned h)) as (links & E & HL).
    { intros x Hx. unfold fm_link. destruct (dget (mn_name x) (notes (defined h))) as [f|] eqn:Ef.
      - exists (mn_id x, f). split; [reflexivity|]. destruct (notes_get _ _ _ Ef). auto.
      - apply dget_none in Ef. rewrite notes_keys in Ef. destruct (Ef (Hdef x Hx)). }
    exists links, (map (fun id => (id, map snd (notes (defined h)))) (foot_lists h)). split; [|split; [exact HL|]].
    - unfold fm_process. rewrite fm_footnotes_ok. cbn [rbind fm_macros fm_bodies fm_lists]. rewrite E. reflexivity.
    - clear. induction (foot_lists h) as [|i l IH]; cbn [map]; constructor; [|exact IH]. cbn. split; [reflexivity|]. split.
      + rewrite map_length. apply notes_length.
      + intros k f. apply notes_nth.
  Qed.

  (* The first mention of an undefined footnote is an error. *)
  Theorem C35_undefined_mention h m l1 x l2 :
    foot_history h = Ok m ->
    mentioned h = l1 ++ x :: l2 ->
    (forall y, In y l1 -> In (mn_name y) (map fst (defined h))) ->
    ~ In (mn_name x) (map fst (defined h)) ->
    fm_process copy (fun f => Ok (uid f)) m = Exc (parser_error "Footnote has not been defined." (Some (mn_ctx x))).
  Proof.
    intros Hm E Hdef Hx. assert (Hn : NoDup (map fst (defined h))) by (apply C35_second_definition; eauto).
    rewrite foot_history_ok in Hm by exact Hn. apply Ok_inv in Hm. subst m.
    unfold fm_process. rewrite fm_footnotes_ok. cbn [rbind fm_macros fm_bodies fm_lists]. rewrite E.
    rewrite (for_each_exc _ _ _ _ (parser_error "Footnote has not been defined." (Some (mn_ctx x)))); [reflexivity| |].
    - intros y Hy. unfold fm_link. destruct (dget (mn_name y) (notes (defined h))) as [f|] eqn:Ef; [eauto|].
      apply dget_none in Ef. rewrite notes_keys in Ef. destruct (Ef (Hdef y Hy)).
    - unfold fm_link. replace (dget (mn_name x) (notes (defined h))) with (@None (footnote C)); [reflexivity|].
      symmetry. apply dget_none. rewrite notes_keys. exact Hx.
  Qed.
End Footnotes.

(* Merging another manager (a block with isolate=false), with new names: as if its
   history came after. *)
Theorem C35_update_appends {B} (h1 h2 : list (foot_event B)) m1 m2 :
  foot_history h1 = Ok m1 -> foot_history h2 = Ok m2 ->
  NoDup (map fst (defined (h1 ++ h2))) ->
  Ok (fm_update m1 m2) = foot_history (h1 ++ h2).
Proof.
  intros H1 H2 H. rewrite (foot_history_ok (h1 ++ h2)) by exact H.
  assert (N1 : NoDup (map fst (defined h1))) by (apply C35_second_definition; eauto).
  assert (N2 : NoDup (map fst (defined h2))) by (apply C35_second_definition; eauto).
  rewrite foot_history_ok in H1 by exact N1. rewrite foot_history_ok in H2 by exact N2.
  apply Ok_inv in H1, H2. subst. unfold fm_update. cbn. f_equal.
  unfold mentioned, defined, foot_lists in *. rewrite !flat_map_app in *. f_equal. apply dupd_new; [exact N2|].
  intros k Hk Hk'. rewrite map_app in H. unfold keys in *.
  clear - H Hk Hk'. induction (map fst (flat_map _ h1)) as [|a l IH]; [destruct Hk'|].
  cbn in H. inversion H; subst. destruct Hk' as [->|Hk']; [|auto]. apply H2. apply in_app_iff. right; exact Hk.
Qed.

(* but a body with a known name silently replaces the first one *)
Theorem C35_refuted_update_duplicate : exists (h1 h2 : list (foot_event nat)) m1 m2,
  foot_history h1 = Ok m1 /\ foot_history h2 = Ok m2 /\
  ~ NoDup (map fst (defined (h1 ++ h2))) /\
  fm_bodies (fm_update m1 m2) = [(lit "a", 2)].
Proof.
  exists [Define (lit "a") 1 empty_context], [Define (lit "a") 2 empty_context].
  do 2 eexists. split; [reflexivity|]. split; [reflexivity|]. split; [|reflexivity].
  intros H. inversion H. apply H2. left. reflexivity.
Qed.

Example C35_witness :
  let m n := mkMention n (lit (if n =? 7 then "b" else "a")) empty_context in
  let h := [Mentions [m 7]; Define (lit "a") 10 empty_context; FootList 3; Define (lit "b") 20 empty_context; Mentions [m 8]] in
  match foot_history h with
  | Ok f => fm_process (fun b => b) (fun f => Ok (fn_name f)) f
  | Exc e => Exc e
  end = let a := mkFootnote (lit "a") (lit "1") (lit "a") 10 in
        let b := mkFootnote (lit "b") (lit "2") (lit "b") 20 in
        Ok ([(7, b); (8, a)], [(3, [a; b])]).
Proof. vm_compute. reflexivity. Qed.

(* ------------------------------------------------------ C36 header links *)
Lemma link_step_exc h e : fold_left link_step h (@Exc hman e) = Exc e.
Proof. induction h as [|x h IH]; cbn; [reflexivity|]. exact IH. Qed.

Lemma link_run h m : NoDup (keys (hm_headers m ++ named_headers h)) ->
  fold_left link_step h (Ok m) = Ok (mkHman (hm_macros m ++ header_mentions h) (hm_headers m ++ named_headers h)).
Proof.
  revert m; induction h as [|e h IH]; intros m H; cbn [fold_left].
  - unfold named_headers, header_mentions; cbn. rewrite !app_nil_r. destruct m; reflexivity.
  - destruct e as [l|n x]; cbn [link_step rbind].
    + rewrite IH by exact H. unfold hm_add_macros, header_mentions; cbn. rewrite app_assoc. reflexivity.
    + unfold hm_add_header.
      assert (Hn : ~ In n (keys (hm_headers m))).
      { unfold named_headers in H. cbn in H. unfold keys in H. rewrite map_app in H. cbn in H. eapply nodup_app_not, H. }
      destruct (dmem n (hm_headers m)) eqn:E; [apply dmem_In in E; contradiction|].
      rewrite IH; cbn [hm_macros hm_headers]; rewrite dset_new by exact Hn.
      * unfold named_headers, header_mentions; cbn. rewrite <- !app_assoc. reflexivity.
      * rewrite <- app_assoc. exact H.
Qed.

Lemma link_history_ok h : NoDup (map fst (named_headers h)) -> link_history h = Ok (mkHman (header_mentions h) (named_headers h)).
Proof. intros H. unfold link_history. rewrite link_run; [reflexivity|exact H]. Qed.

Lemma named_split h l1 a l2 : map fst (named_headers h) = l1 ++ a :: l2 ->
  exists h1 x h2, h = h1 ++ Named a x :: h2 /\ map fst (named_headers h1) = l1.
Proof.
  revert l1; induction h as [|e h IH]; intros l1 H; [destruct l1; discriminate|].
  destruct e as [l|n x].
  - destruct (IH l1 H) as (h1 & x & h2 & -> & E). exists (Links l :: h1), x, h2. auto.
  - destruct l1 as [|y l1]; cbn in H.
    + injection H as -> _. exists [], x, h. auto.
    + injection H as -> H. destruct (IH l1 H) as (h1 & x' & h2 & -> & E).
      exists (Named y x :: h1), x', h2. split; [reflexivity|]. exact (f_equal (cons y) E).
Qed.

Theorem C36_duplicate_name h :
  (NoDup (map fst (named_headers h)) <-> exists m, link_history h = Ok m) /\
  (~ NoDup (map fst (named_headers h)) ->
   exists h1 name hd h2,
     h = h1 ++ Named name hd :: h2 /\ In name (map fst (named_headers h1)) /\ NoDup (map fst (named_headers h1)) /\
     link_history h = Exc (parser_error "Duplicate header id detected." (Some (h_ctx hd)))).
Proof.
  assert (D : ~ NoDup (map fst (named_headers h)) ->
   exists h1 name hd h2,
     h = h1 ++ Named name hd :: h2 /\ In name (map fst (named_headers h1)) /\ NoDup (map fst (named_headers h1)) /\
     link_history h = Exc (parser_error "Duplicate header id detected." (Some (h_ctx hd)))).
  { intros H. destruct (first_repeat _ H) as (l1 & a & l2 & E & H1 & H2).
    destruct (named_split _ _ _ _ E) as (h1 & x & h2 & -> & E1).
    exists h1, a, x, h2. rewrite E1. do 3 (split; [solve [auto]|]).
    unfold link_history. rewrite fold_left_app. fold (link_history h1). rewrite link_history_ok by (rewrite E1; exact H1).
    cbn [fold_left link_step rbind]. unfold hm_add_header. cbn [hm_headers].
    replace (dmem a (named_headers h1)) with true by (symmetry; apply dmem_In; unfold keys; rewrite E1; exact H2).
    apply link_step_exc. }
  split; [|exact D]. split.
  - intros H. eexists. apply link_history_ok, H.
  - intros [m Hm]. destruct (ListDec.NoDup_dec str_eq_dec (map fst (named_headers h))) as [Hd|Hd]; [exact Hd|].
    destruct (D Hd) as (? & ? & ? & ? & _ & _ & _ & E). congruence.
Qed.

(* Every link is assigned the only header with its name, and keeps its own text or
   takes the text of the header. *)
Theorem C36_links_resolved h m :
  link_history h = Ok m ->
  (forall x, In x (header_mentions h) -> In (mn_name (fst x)) (map fst (named_headers h))) ->
  exists links, hm_process m = Ok links /\
    Forall2 (fun x l => fst l = mn_id (fst x) /\
               (forall hd, In (mn_name (fst x), hd) (named_headers h) <-> hd = fst (snd l)) /\
               snd (snd l) = match snd x with [] => h_content (fst (snd l)) | own => own end)
            (header_mentions h) links.
Proof.
  intros Hm Hdef. assert (Hn : NoDup (map fst (named_headers h))) by (apply C36_duplicate_name; eauto).
  rewrite link_history_ok in Hm by exact Hn. apply Ok_inv in Hm. subst m. unfold hm_process. cbn [hm_headers hm_macros].
  apply for_each_forall. intros x Hx. unfold hm_link.
  destruct (dget (mn_name (fst x)) (named_headers h)) as [hd|] eqn:E.
  - eexists. split; [reflexivity|]. cbn. split; [reflexivity|]. split; [|reflexivity]. intros hd'. split.
    + intros Hin. apply (in_dget _ _ _ Hn) in Hin. congruence.
    + intros ->. apply dget_in, E.
  - apply dget_none in E. destruct (E (Hdef x Hx)).
Qed.

Theorem C36_unknown_name h m l1 x l2 :
  link_history h = Ok m ->
  header_mentions h = l1 ++ x :: l2 ->
  (forall y, In y l1 -> In (mn_name (fst y)) (map fst (named_headers h))) ->
  ~ In (mn_name (fst x)) (map fst (named_headers h)) ->
  hm_process m = Exc (parser_error "Cannot find header with this id." (Some (mn_ctx (fst x)))).
Proof.
  intros Hm E Hdef Hx. assert (Hn : NoDup (map fst (named_headers h))) by (apply C36_duplicate_name; eauto).
  rewrite link_history_ok in Hm by exact Hn. apply Ok_inv in Hm. subst m. unfold hm_process. cbn [hm_headers hm_macros].
  rewrite E. apply for_each_exc.
  - intros y Hy. unfold hm_link. destruct (dget (mn_name (fst y)) (named_headers h)) as [f|] eqn:Ef; [eauto|].
    apply dget_none in Ef. destruct (Ef (Hdef y Hy)).
  - unfold hm_link. replace (dget (mn_name (fst x)) (named_headers h)) with (@None header); [reflexivity|].
    symmetry. apply dget_none. exact Hx.
Qed.

Definition a_header (level : nat) (text : string) : header :=
  mkHeader 0 level None None [NText (lit text) empty_context] empty_args [] empty_context.
Example C36_witness :
  let l n name c := (mkMention n name empty_context, c) in
  let own := [NText (lit "own") empty_context] in
  match link_history [Links [l 1 (lit "x") []; l 2 (lit "y") own]; Named (lit "y") (a_header 1 "Y"); Named (lit "x") (a_header 2 "X")] with
  | Ok m => hm_process m
  | Exc e => Exc e
  end = Ok [(1, (a_header 2 "X", [NText (lit "X") empty_context])); (2, (a_header 1 "Y", own))].
Proof. vm_compute. reflexivity. Qed.

(* ------------------------------------------------------- C37 block groups *)
Section Groups.
  Context {B : Type}.
  Implicit Types (h : list (group_event B)).

  (* the manager after a history: groups are there when a block was put in them *)
  Definition same_groups (m : gman B) h : Prop :=
    (forall g, dget g (gm_items m) = match blocks_of g h with [] => None | l => Some l end) /\ gm_groups m = shown h.

  Lemma group_get m h g : same_groups m h -> gm_group m g = blocks_of g h.
  Proof. intros [H _]. unfold gm_group. rewrite H. destruct (blocks_of g h); reflexivity. Qed.

  Lemma blocks_app g h1 h2 : blocks_of (B := B) g (h1 ++ h2) = blocks_of g h1 ++ blocks_of g h2.
  Proof. apply flat_map_app. Qed.

  Lemma group_step_exc h e : fold_left group_step h (@Exc (gman B) e) = Exc e.
  Proof. induction h as [|x h IH]; cbn; [reflexivity|]. exact IH. Qed.

  Lemma group_history_ok h : (forall g, NoDup (map fst (blocks_of g h))) -> exists m, group_history h = Ok m /\ same_groups m h.
  Proof.
    induction h as [|e h IH] using rev_ind; intros H.
    - exists gm_init. split; [reflexivity|]. split; [intros g; reflexivity|reflexivity].
    - destruct IH as (m & Em & Hm).
      { intros g. specialize (H g). rewrite blocks_app, map_app in H. apply nodup_app_l in H. exact H. }
      unfold group_history. rewrite fold_left_app. fold (group_history h). rewrite Em. cbn [fold_left group_step rbind].
      destruct e as [g p b c|x]; cbn [group_step].
      + unfold gm_add_block. rewrite (group_get _ _ _ Hm).
        assert (Hp : ~ In p (keys (blocks_of g h))).
        { specialize (H g). rewrite blocks_app, map_app in H. cbn in H. rewrite str_eqb_refl in H. cbn in H. eapply nodup_app_not, H. }
        destruct (dmem p (blocks_of g h)) eqn:Ed; [apply dmem_In in Ed; contradiction|].
        eexists. split; [reflexivity|]. split.
        * intros g'. cbn [gm_items]. rewrite dget_dset, dset_new by exact Hp. rewrite blocks_app.
          change (blocks_of g' [Put g p b c]) with ((if str_eqb g g' then [(p, b)] else []) ++ []). rewrite app_nil_r.
          destruct (str_eqb_spec g' g) as [->|Hn].
          -- rewrite str_eqb_refl. destruct (blocks_of g h); reflexivity.
          -- destruct (str_eqb_spec g g') as [->|Hn']; [congruence|]. rewrite app_nil_r. apply Hm.
        * cbn. destruct Hm as [_ ->]. unfold shown. rewrite flat_map_app. cbn. rewrite app_nil_r. reflexivity.
      + eexists. split; [reflexivity|]. split.
        * intros g. cbn [gm_items]. rewrite blocks_app. cbn. rewrite app_nil_r. apply Hm.
        * cbn. destruct Hm as [_ ->]. unfold shown. rewrite flat_map_app. reflexivity.
  Qed.

  Lemma group_history_inv h m : group_history h = Ok m -> forall g, NoDup (map fst (blocks_of g h)).
  Proof.
    revert m; induction h as [|e h IH] using rev_ind; intros m H g; [constructor|].
    unfold group_history in H. rewrite fold_left_app in H. fold (group_history h) in H.
    destruct (group_history h) as [m0|ex] eqn:E0; [|discriminate].
    destruct (group_history_ok h (IH m0 eq_refl)) as (m1 & Em1 & Hm1). assert (m1 = m0) by congruence. subst m1.
    rewrite blocks_app, map_app. cbn [fold_left group_step rbind] in H. destruct e as [g0 p b c|x]; cbn [group_step] in H.
    - unfold gm_add_block in H. rewrite (group_get _ _ _ Hm1) in H.
      destruct (dmem p (blocks_of g0 h)) eqn:Ed; [discriminate|].
      cbn. rewrite app_nil_r. destruct (str_eqb_spec g0 g) as [->|Hn]; [|rewrite app_nil_r; apply (IH m0 eq_refl)].
      cbn. apply (Permutation_NoDup (l := p :: map fst (blocks_of g h))); [apply Permutation_cons_append|].
      constructor; [|apply (IH m0 eq_refl)]. intros Hin. apply dmem_In in Hin. congruence.
    - cbn. rewrite app_nil_r. apply (IH m0 eq_refl).
  Qed.

  (* A group node is assigned exactly the blocks of its group, in order; an unknown
     group is an error. *)
  Theorem C37_groups_collected h m :
    group_history h = Ok m ->
    (forall x, In x (shown h) -> exists p b c, In (Put (mn_name x) p b c) h) ->
    gm_process m = Ok (map (fun x => (mn_id x, blocks_of (mn_name x) h)) (shown h)).
  Proof.
    intros Hm Hk. pose proof (group_history_inv _ _ Hm) as Hn. destruct (group_history_ok h Hn) as (m' & E & Hs).
    assert (m' = m) by congruence. subst m'. unfold gm_process. rewrite (proj2 Hs). apply for_each_ok. intros x Hx. unfold gm_link.
    rewrite (proj1 Hs). destruct (Hk x Hx) as (p & b & c & Hin).
    assert (Hb : In (p, b) (blocks_of (mn_name x) h)).
    { unfold blocks_of. apply in_flat_map. eexists. split; [exact Hin|]. cbn. rewrite str_eqb_refl. left; reflexivity. }
    specialize (Hn (mn_name x)). destruct (blocks_of (mn_name x) h) as [|kv l] eqn:El; [destruct Hb|].
    do 2 f_equal. rewrite dupd_nil by exact Hn. rewrite <- El in *. clear - Hn.
    (* updating a dictionary with itself *)
    assert (G : forall d : dict B, NoDup (keys d) -> forall e, incl e d -> dupd d e = d).
    { intros d Hd. induction e as [|[k v] e IH]; intros He; [reflexivity|]. unfold dupd in *. cbn [fold_left fst snd].
      replace (dset k v d) with d; [apply IH; intros y Hy; apply He; right; exact Hy|].
      assert (Hin : In (k, v) d) by (apply He; left; reflexivity). clear - Hd Hin.
      induction d as [|[a w] d IH]; [destruct Hin|]. cbn in Hd. inversion Hd; subst. cbn.
      destruct (str_eqb_spec k a) as [->|Hn].
      - destruct Hin as [E|Hin]; [congruence|]. destruct H1. apply (in_map fst) in Hin. exact Hin.
      - destruct Hin as [E|Hin]; [congruence|]. rewrite <- IH by assumption. reflexivity. }
    apply G; [exact Hn|apply incl_refl].
  Qed.

  Theorem C37_unknown_group h m l1 x l2 :
    group_history h = Ok m ->
    shown h = l1 ++ x :: l2 ->
    (forall y, In y l1 -> exists p b c, In (Put (mn_name y) p b c) h) ->
    (forall p b c, ~ In (Put (mn_name x) p b c) h) ->
    gm_process m = Exc (parser_error "The group does not exist." (Some (mn_ctx x))).
  Proof.
    intros Hm Hsh Hk Hx. pose proof (group_history_inv _ _ Hm) as Hn. destruct (group_history_ok h Hn) as (m' & E & Hs).
    assert (m' = m) by congruence. subst m'. unfold gm_process. rewrite (proj2 Hs), Hsh. apply for_each_exc.
    - intros y Hy. unfold gm_link. rewrite (proj1 Hs). destruct (Hk y Hy) as (p & b & c & Hin).
      assert (Hb : In (p, b) (blocks_of (mn_name y) h)).
      { unfold blocks_of. apply in_flat_map. eexists. split; [exact Hin|]. cbn. rewrite str_eqb_refl. left; reflexivity. }
      destruct (blocks_of (mn_name y) h); [destruct Hb|]. eauto.
    - unfold gm_link. rewrite (proj1 Hs). replace (blocks_of (mn_name x) h) with (@nil (str * B)); [reflexivity|].
      destruct (blocks_of (mn_name x) h) as [|[p b] l] eqn:El; [reflexivity|exfalso].
      assert (Hin : In (p, b) (blocks_of (mn_name x) h)) by (rewrite El; left; reflexivity).
      unfold blocks_of in Hin. apply in_flat_map in Hin. destruct Hin as ([g p' b' c|y] & Hin & Hb); [|destruct Hb].
      destruct (str_eqb_spec g (mn_name x)) as [->|Hne]; [|destruct Hb]. destruct Hb as [Eq|[]]. injection Eq as -> ->.
      exact (Hx _ _ _ Hin).
  Qed.

  (* Putting a block where there is one already is an error, and the only one. *)
  Theorem C37_position_taken h :
    ((forall g, NoDup (map fst (blocks_of g h))) <-> exists m, group_history h = Ok m) /\
    (forall m g p b c h2, group_history h = Ok m -> In p (map fst (blocks_of g h)) ->
       group_history (h ++ Put g p b c :: h2) = Exc (parser_error "Position is already taken in group." (Some c))).
  Proof.
    split; [split|].
    - intros H. destruct (group_history_ok h H) as (m & E & _). eauto.
    - intros [m Hm]. apply (group_history_inv _ _ Hm).
    - intros m g p b c h2 Hm Hp. unfold group_history. rewrite fold_left_app. fold (group_history h). rewrite Hm.
      cbn [fold_left group_step rbind]. unfold gm_add_block.
      destruct (group_history_ok h (group_history_inv _ _ Hm)) as (m' & E & Hs). assert (m' = m) by congruence. subst m'.
      rewrite (group_get _ _ _ Hs). replace (dmem p (blocks_of g h)) with true by (symmetry; apply dmem_In; exact Hp).
      apply group_step_exc.
  Qed.
End Groups.

Example C37_witness :
  let x n g := mkMention n g empty_context in
  match group_history [Show (x 5 (lit "g")); Put (lit "g") (lit "left") 1 empty_context; Put (lit "k") (lit "left") 2 empty_context;
                       Put (lit "g") (lit "right") 3 empty_context; Show (x 6 (lit "k"))] with
  | Ok m => gm_process m
  | Exc e => Exc e
  end = Ok [(5, [(lit "left", 1); (lit "right", 3)]); (6, [(lit "left", 2)])].
Proof. vm_compute. reflexivity. Qed.

(* ------------------------------------------------- C34 table of contents *)
Fixpoint toc_ind' (P : toc_item -> Prop) (H : forall h es, Forall P es -> P (TocItem h es)) (t : toc_item) : P t :=
  match t with
  | TocItem h es => H h es ((fix go l := match l return Forall P l with
                                         | [] => Forall_nil _ | t :: r => Forall_cons t (toc_ind' P H t) (go r) end) es)
  end.

Lemma parents_item p i h es : parents p i (TocItem h es) = p :: forest_parents (Some i) (S i) es.
Proof.
  cbn [parents]. f_equal. generalize (S i). induction es as [|t es IH]; intros j; [reflexivity|].
  cbn [forest_parents]. f_equal. apply IH.
Qed.

Lemma size_preorder t : size t = length (preorder t).
Proof.
  induction t as [h es IH] using toc_ind'. cbn [size preorder length]. f_equal.
  induction IH as [|t es Ht _ IH]; [reflexivity|]. cbn. rewrite app_length, Ht, <- IH. reflexivity.
Qed.

Lemma parents_length t : forall p i, length (parents p i t) = size t.
Proof.
  induction t as [h es IH] using toc_ind'. intros p i. rewrite parents_item. cbn [length size]. f_equal.
  generalize (S i). induction IH as [|t es Ht _ IH]; intros j; [reflexivity|]. cbn. rewrite app_length, Ht, IH. reflexivity.
Qed.

Lemma under_split n : forall L nodes f r, nodes_under n L nodes = (f, r) -> length nodes < n ->
  nodes = flat_map preorder f ++ r /\ Forall (fun h => L < h_level h) (flat_map preorder f) /\
  match r with [] => True | h :: _ => h_level h <= L end.
Proof.
  induction n as [|n IH]; intros L nodes f r E Hn; [lia|]. cbn [nodes_under] in E.
  destruct nodes as [|h nodes]; [injection E as <- <-; cbn; repeat split; auto|]. cbn in Hn.
  destruct (Nat.leb_spec (h_level h) L) as [Hl|Hl]; [injection E as <- <-; cbn; repeat split; auto|].
  destruct (nodes_under n (h_level h) nodes) as [es r1] eqn:E1.
  destruct (nodes_under n L r1) as [si r2] eqn:E2. injection E as <- <-.
  destruct (IH _ _ _ _ E1 ltac:(lia)) as (S1 & F1 & R1).
  assert (length r1 <= length nodes) by (rewrite S1, app_length; lia).
  destruct (IH _ _ _ _ E2 ltac:(lia)) as (S2 & F2 & R2).
  cbn [flat_map preorder]. split; [|split].
  - cbn [app]. f_equal. rewrite <- app_assoc, <- S2. exact S1.
  - cbn. constructor; [exact Hl|]. apply Forall_app. split; [|exact F2]. eapply Forall_impl; [|exact F1]. cbn. lia.
  - exact R2.
Qed.

Lemma level_at_pre pre h r : level_at (pre ++ h :: r) (length pre) = h_level h.
Proof. unfold level_at. rewrite map_app, app_nth2; rewrite map_length; [|lia]. rewrite Nat.sub_diag. reflexivity. Qed.

Lemma level_at_mid pre l r k : length pre <= k < length pre + length l ->
  exists h, In h l /\ level_at (pre ++ l ++ r) k = h_level h.
Proof.
  intros H. unfold level_at. rewrite map_app, app_nth2; rewrite map_length; [|lia]. rewrite map_app, app_nth1; [|rewrite map_length; lia].
  destruct (nth_error l (k - length pre)) as [h|] eqn:E.
  - exists h. split; [eapply nth_error_In, E|]. apply nth_error_nth. rewrite nth_error_map, E. reflexivity.
  - apply nth_error_None in E. lia.
Qed.

(* the entry that contains the entries being added, if any, is at j; all the entries
   after it are not shallower than the next header *)
Definition after (p : option nat) : nat := match p with Some j => S j | None => 0 end.

Lemma under_parents n : forall L nodes f r, nodes_under n L nodes = (f, r) -> length nodes < n ->
  forall pre p hs, hs = pre ++ nodes ->
    match p with Some j => j < length pre /\ level_at hs j = L | None => True end ->
    (forall h r', nodes = h :: r' -> L < h_level h -> forall k, after p <= k < length pre -> h_level h <= level_at hs k) ->
    forall k q, nth_error (forest_parents p (length pre) f) k = Some q -> nearest_shallower hs (length pre + k) q.
Proof.
  induction n as [|n IH]; intros L nodes f r E Hn pre p hs Ehs Hp Hk k q Hq; [lia|]. cbn [nodes_under] in E.
  destruct nodes as [|h nodes]; [injection E as <- <-; destruct k; discriminate|]. cbn in Hn.
  destruct (Nat.leb_spec (h_level h) L) as [Hl|Hl]; [injection E as <- <-; destruct k; discriminate|].
  destruct (nodes_under n (h_level h) nodes) as [es r1] eqn:E1.
  destruct (nodes_under n L r1) as [si r2] eqn:E2. injection E as <- <-.
  destruct (under_split _ _ _ _ _ E1 ltac:(lia)) as (S1 & F1 & R1).
  assert (length r1 <= length nodes) by (rewrite S1, app_length; lia).
  cbn [forest_parents] in Hq. rewrite parents_item in Hq.
  assert (Hlev : level_at hs (length pre) = h_level h) by (rewrite Ehs; apply level_at_pre).
  destruct k as [|k]; cbn [app nth_error] in Hq.
  - injection Hq as <-. rewrite Nat.add_0_r. unfold nearest_shallower. rewrite Hlev. destruct p as [j|].
    + destruct Hp as [Hj Ej]. split; [exact Hj|]. split; [rewrite Ej; exact Hl|].
      intros x Hx. apply (Hk h nodes eq_refl Hl). cbn. lia.
    + intros x Hx. apply (Hk h nodes eq_refl Hl). cbn. lia.
  - set (m := length (forest_parents (Some (length pre)) (S (length pre)) es)) in *.
    assert (Em : m = length (flat_map preorder es)).
    { unfold m. clear. generalize (S (length pre)) at 1. induction es as [|t es IHes]; intros i; [reflexivity|].
      cbn. rewrite !app_length, parents_length, size_preorder. f_equal. apply IHes. }
    destruct (Nat.lt_ge_cases k m) as [Hkm|Hkm].
    + rewrite nth_error_app1 in Hq by exact Hkm.
      replace (length pre + S k) with (length (pre ++ [h]) + k) by (rewrite app_length; cbn; lia).
      replace (S (length pre)) with (length (pre ++ [h])) in Hq by (rewrite app_length; cbn; lia).
      apply (IH _ _ _ _ E1 ltac:(lia) (pre ++ [h]) (Some (length pre)) hs).
      * rewrite Ehs, <- app_assoc. reflexivity.
      * rewrite app_length. cbn. split; [lia|exact Hlev].
      * intros h' r' _ _ x Hx. rewrite app_length in Hx. cbn in Hx. lia.
      * exact Hq.
    + rewrite nth_error_app2 in Hq by exact Hkm. fold m in Hq.
      set (pre2 := pre ++ h :: flat_map preorder es).
      assert (L2 : length pre2 = length pre + S m) by (unfold pre2; rewrite app_length; cbn; lia).
      replace (length pre + size (TocItem h es)) with (length pre2) in Hq by (rewrite size_preorder, L2, Em; cbn; lia).
      replace (length pre + S k) with (length pre2 + (k - m)) by lia.
      apply (IH _ _ _ _ E2 ltac:(lia) pre2 p hs).
      * rewrite Ehs, S1. unfold pre2. rewrite <- app_assoc. reflexivity.
      * destruct p as [j|]; [|exact I]. destruct Hp as [Hj Ej]. split; [lia|exact Ej].
      * intros h' r' Er Hl' x Hx. rewrite Er in R1. destruct (Nat.lt_ge_cases x (length pre)) as [Hx1|Hx1].
        -- specialize (Hk h nodes eq_refl Hl x ltac:(lia)). lia.
        -- destruct (Nat.eq_dec x (length pre)) as [->|Hne]; [lia|].
           destruct (level_at_mid (pre ++ [h]) (flat_map preorder es) r1 x) as (y & Hy & Ey).
           { rewrite app_length. cbn. lia. }
           replace ((pre ++ [h]) ++ flat_map preorder es ++ r1) with hs in Ey by (rewrite Ehs, S1, <- app_assoc; reflexivity).
           rewrite Ey. rewrite Forall_forall in F1. specialize (F1 y Hy). lia.
      * exact Hq.
Qed.

(* The nested table of contents read in order is the list of the headers. *)
Theorem C34_every_header_once hs : Forall (fun h => 0 < h_level h) hs -> flat_map preorder (nest_headers hs) = hs.
Proof.
  intros H. unfold nest_headers. destruct (nodes_under (S (length hs)) 0 hs) as [f r] eqn:E.
  destruct (under_split _ _ _ _ _ E ltac:(lia)) as (S1 & _ & R). cbn. destruct r as [|h r]; [rewrite app_nil_r in S1; symmetry; exact S1|].
  assert (Hin : In h hs) by (rewrite S1; apply in_app_iff; right; left; reflexivity).
  rewrite Forall_forall in H. specialize (H h Hin). lia.
Qed.

(* Each entry sits directly under the nearest shallower header before it (at the top
   when there is none). *)
Theorem C34_entry_under_its_parent hs i : Forall (fun h => 0 < h_level h) hs -> i < length hs ->
  exists p, nth_error (forest_parents None 0 (nest_headers hs)) i = Some p /\ nearest_shallower hs i p.
Proof.
  intros H Hi.
  assert (Hlen : length (forest_parents None 0 (nest_headers hs)) = length hs).
  { rewrite <- (C34_every_header_once hs H) at 2. generalize 0. induction (nest_headers hs) as [|t f IH]; intros j; [reflexivity|].
    cbn. rewrite !app_length, parents_length, size_preorder. f_equal. apply IH. }
  destruct (nth_error (forest_parents None 0 (nest_headers hs)) i) as [p|] eqn:E; [|apply nth_error_None in E; lia].
  exists p. split; [reflexivity|]. unfold nest_headers in E. destruct (nodes_under (S (length hs)) 0 hs) as [f r] eqn:Ef.
  apply (under_parents _ _ _ _ _ Ef ltac:(lia) [] None hs eq_refl I); [|exact E]. cbn. lia.
Qed.

Lemma nth_error_ext {A} (l m : list A) : (forall i, nth_error l i = nth_error m i) -> l = m.
Proof.
  revert m; induction l as [|a l IH]; intros [|b m] H; [reflexivity|specialize (H 0); discriminate|specialize (H 0); discriminate|].
  f_equal; [specialize (H 0); cbn in H; congruence|]. apply IH. intros i. exact (H (S i)).
Qed.

Lemma nearest_unique hs i p q : nearest_shallower hs i p -> nearest_shallower hs i q -> p = q.
Proof.
  destruct p as [j|], q as [k|]; cbn; try reflexivity.
  - intros (H1 & H2 & H3) (G1 & G2 & G3). f_equal. destruct (Nat.lt_trichotomy j k) as [Hl|[->|Hl]]; [|reflexivity|].
    + specialize (H3 k ltac:(lia)). lia.
    + specialize (G3 j ltac:(lia)). lia.
  - intros (H1 & H2 & H3) G. specialize (G j H1). lia.
  - intros G (H1 & H2 & H3). specialize (G k H1). lia.
Qed.

(* The two readings determine the nested table: any table with them is this one. *)
Lemma forest_determined : forall n f g p i j,
  list_sum (map size f) <= n ->
  flat_map preorder f = flat_map preorder g -> forest_parents p i f = forest_parents p i g ->
  (forall q, p = Some q -> q < i) -> j = i -> f = g.
Proof.
  (* a forest is read off its two lists: the trees start where the parent is p *)
  assert (B : forall t p i, forall k q, nth_error (parents p i t) (S k) = Some q -> exists x, q = Some x /\ i <= x).
  { induction t as [h es IH] using toc_ind'. intros p i k q. rewrite parents_item. cbn [nth_error].
    assert (G : forall j k q, i < j -> nth_error (forest_parents (Some i) j es) k = Some q -> exists x, q = Some x /\ i <= x).
    { clear k q. induction IH as [|t es Ht _ IHes]; intros j k q Hj H; [destruct k; discriminate|]. cbn [forest_parents] in H.
      destruct (Nat.lt_ge_cases k (length (parents (Some i) j t))) as [Hk|Hk].
      - rewrite nth_error_app1 in H by exact Hk. destruct k as [|k].
        + destruct t. rewrite parents_item in H. injection H as <-. eauto.
        + destruct (Ht _ _ _ _ H) as (x & -> & Hx). exists x. split; [reflexivity|lia].
      - rewrite nth_error_app2 in H by exact Hk. eapply IHes; [|exact H]. lia. }
    apply G. lia. }
  induction n as [|n IH]; intros f g p i j Hn E1 E2 Hp Hj.
  - destruct f as [|[h es] f]; [|cbn in Hn; lia]. destruct g as [|[h es] g]; [reflexivity|discriminate].
  - destruct f as [|[h es] f], g as [|[h' es'] g]; try discriminate; [reflexivity|].
    cbn [flat_map preorder] in E1. injection E1 as Eh E1. subst h'.
    cbn [forest_parents] in E2. rewrite !parents_item in E2. cbn [app] in E2. injection E2 as E2.
    cbn [map list_sum fold_right size] in Hn. fold (list_sum (map size es)) (list_sum (map size f)) in Hn.
    assert (LS : forall es i, length (forest_parents (Some i) (S i) es) = list_sum (map size es)).
    { clear. intros es i. generalize (S i). induction es as [|t es IHes]; intros k; [reflexivity|]. cbn.
      rewrite app_length, parents_length, IHes. reflexivity. }
    (* the children of the two first trees are as many *)
    assert (Hs : list_sum (map size es) = list_sum (map size es')).
    { assert (W : forall es1 es2 f1 f2,
        forest_parents (Some i) (S i) es1 ++ forest_parents p (i + size (TocItem h es1)) f1 =
        forest_parents (Some i) (S i) es2 ++ forest_parents p (i + size (TocItem h es2)) f2 ->
        list_sum (map size es1) < list_sum (map size es2) -> False).
      { intros es1 es2 f1 f2 Ew Hlt.
        assert (N := f_equal (fun l => nth_error l (list_sum (map size es1))) Ew). cbn in N.
        rewrite nth_error_app2 in N by (rewrite LS; lia). rewrite LS, Nat.sub_diag in N.
        rewrite nth_error_app1 in N by (rewrite LS; lia).
        destruct f1 as [|[h1 e1] f1].
        - symmetry in N. apply nth_error_None in N. rewrite LS in N. lia.
        - cbn [forest_parents] in N. rewrite parents_item in N. cbn [app nth_error] in N. symmetry in N.
          destruct (B (TocItem h es2) p i (list_sum (map size es1)) p) as (x & -> & Hx).
          { rewrite parents_item. exact N. }
          specialize (Hp x eq_refl). lia. }
      destruct (Nat.lt_trichotomy (list_sum (map size es)) (list_sum (map size es'))) as [H|[H|H]]; [|exact H|].
      - destruct (W _ _ _ _ E2 H).
      - destruct (W _ _ _ _ (eq_sym E2) H). }
    assert (Hes : length (flat_map preorder es) = length (flat_map preorder es')).
    { assert (Z : forall l, length (flat_map preorder l) = list_sum (map size l)).
      { clear. induction l as [|t l IHl]; [reflexivity|]. cbn. rewrite app_length, IHl, size_preorder. reflexivity. }
      rewrite !Z. exact Hs. }
    assert (AI : forall (A : Type) (a b c d : list A), a ++ b = c ++ d -> length a = length c -> a = c /\ b = d).
    { clear. intros A a; induction a as [|x a IHa]; intros b [|y c] d E L; try discriminate; [auto|].
      cbn in E. injection E as -> E. destruct (IHa _ _ _ E) as [-> ->]; [cbn in L; lia|]. auto. }
    destruct (AI _ _ _ _ _ E1 Hes) as [Ea Eb].
    destruct (AI _ _ _ _ _ E2 ltac:(rewrite !LS; exact Hs)) as [Ec Ed].
    cbn [size] in Ed. rewrite Hs in Ed.
    rewrite (IH es es' (Some i) (S i) (S i) ltac:(lia) Ea Ec); [|intros q [= <-]; lia|reflexivity].
    f_equal. eapply IH; [lia|exact Eb|exact Ed| |reflexivity]. intros q Hq. specialize (Hp q Hq). lia.
Qed.

Theorem C34_only_nesting hs f : Forall (fun h => 0 < h_level h) hs ->
  flat_map preorder f = hs ->
  (forall i p, nth_error (forest_parents None 0 f) i = Some p -> nearest_shallower hs i p) ->
  f = nest_headers hs.
Proof.
  intros H E Hp.
  assert (LS : forall f i, length (forest_parents None i f) = length (flat_map preorder f)).
  { clear. induction f as [|t f IH]; intros i; [reflexivity|]. cbn. rewrite !app_length, parents_length, size_preorder, IH. reflexivity. }
  apply (forest_determined (list_sum (map size f)) f (nest_headers hs) None 0 0); [lia| | |discriminate|reflexivity].
  - rewrite E. symmetry. apply C34_every_header_once, H.
  - assert (L1 : length (forest_parents None 0 f) = length hs) by (rewrite LS, E; reflexivity).
    assert (L2 : length (forest_parents None 0 (nest_headers hs)) = length hs) by (rewrite LS, C34_every_header_once by exact H; reflexivity).
    apply nth_error_ext. intros i. destruct (Nat.lt_ge_cases i (length hs)) as [Hi|Hi].
    + destruct (C34_entry_under_its_parent hs i H Hi) as (p & -> & Hn).
      destruct (nth_error (forest_parents None 0 f) i) as [q|] eqn:Eq; [|apply nth_error_None in Eq; lia].
      f_equal. eapply nearest_unique; [apply Hp, Eq|exact Hn].
    + rewrite (proj2 (nth_error_None _ _)) by lia. symmetry. apply nth_error_None. lia.
Qed.

(* Every toc node is assigned the nested table of all the headers and the plain list,
   where each header has an internal id: its own, or the computed one. *)
Theorem C34_toc_nodes_filled uid m : tm_headers m <> [] ->
  exists m' ids tocs,
    tm_process (fun h => Ok (uid h)) m = Ok (m', ids, tocs) /\
    Forall2 (fun h h' => h' = set_internal h (match h_internal h with Some i => i | None => uid h end)) (tm_headers m) (tm_headers m') /\
    ids = map (fun h => (h_id h, match h_internal h with Some i => i | None => uid h end)) (tm_headers m) /\
    tm_nested m' = nest_headers (tm_headers m') /\
    tocs = map (fun id => (id, (nest_headers (tm_headers m'), tm_headers m'))) (tm_nodes m).
Proof.
  intros Hne. set (g := fun h => set_internal h (match h_internal h with Some i => i | None => uid h end)).
  assert (E : for_each (give_internal (fun h => Ok (uid h))) (tm_headers m) = Ok (map g (tm_headers m))).
  { apply for_each_ok. intros h _. unfold give_internal, g. destruct (h_internal h) as [i|] eqn:Eh; [|reflexivity].
    unfold set_internal. destruct h; cbn in *. rewrite Eh. reflexivity. }
  unfold tm_process. destruct (tm_headers m) as [|h0 hs0] eqn:Ehs; [contradiction|]. rewrite <- Ehs in *.
  rewrite E. cbn [rbind]. do 3 eexists. split; [reflexivity|]. cbn [tm_headers tm_nodes tm_nested].
  split; [|split; [|split; reflexivity]].
  - clear. induction (tm_headers m) as [|h l IH]; cbn; constructor; [reflexivity|exact IH].
  - clear. induction (tm_headers m) as [|h l IH]; cbn; [reflexivity|]. rewrite IH. reflexivity.
Qed.

Example C34_witness :
  let h1 := a_header 1 "A" in let h3 := a_header 3 "B" in let h2 := a_header 2 "C" in let h1' := a_header 1 "D" in
  nest_headers [h3; h1; h3; h2; h3; h1'] =
    [TocItem h3 []; TocItem h1 [TocItem h3 []; TocItem h2 [TocItem h3 []]]; TocItem h1' []].
Proof. vm_compute. reflexivity. Qed.

Print Assumptions C34_every_header_once.
Print Assumptions C34_entry_under_its_parent.
Print Assumptions C34_only_nesting.
Print Assumptions C34_toc_nodes_filled.
Print Assumptions C35_footnotes_linked.
Print Assumptions C35_undefined_mention.
Print Assumptions C35_second_definition.
Print Assumptions C35_update_appends.
Print Assumptions C35_refuted_update_duplicate.
Print Assumptions C36_links_resolved.
Print Assumptions C36_unknown_name.
Print Assumptions C36_duplicate_name.
Print Assumptions C37_groups_collected.
Print Assumptions C37_unknown_group.
Print Assumptions C37_position_taken.
