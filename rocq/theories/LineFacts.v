(* LineFacts.v -- one line of a document *)
From Verif Require Export LexerThms SpecLines.

Definition rule := (list ritem * (captures -> list (option token_type * str)) * (captures -> list (token_type * str) -> list (token_type * str)))%type.
Definition script_tv (s : list (option token_type * str)) : list (token_type * str) :=
  concat (map (fun x => match fst x with Some ty => [(ty, snd x)] | None => [] end) s).
Lemma emit_script_tv script tb : map tv (fst (emit script tb)) = script_tv script.
Proof.
  revert tb; induction script as [|[[ty|] v] s IH]; intros tb; [reflexivity| |].
  - cbn [emit]. unfold create_token. specialize (IH (skip tb (length v))).
    destruct (emit s (skip tb (length v))). cbn [fst map] in *. rewrite IH. reflexivity.
  - cbn [emit]. rewrite IH. reflexivity.
Qed.
Definition keep_if_tv (v : str) (t : token_type * str) : list (token_type * str) := match v with [] => [] | _ => [t] end.
Definition k34 (i j : nat) (cs : captures) (ts : list (token_type * str)) : list (token_type * str) :=
  match ts with
  | [t1; t2; t3; t4] => [t1; t2] ++ keep_if_tv (group cs i) t3 ++ keep_if_tv (group cs j) t4
  | _ => ts
  end.
Definition kall (cs : captures) (ts : list (token_type * str)) := ts.
Lemma k34_tv i j cs ts : map tv (keep_34 i j cs ts) = k34 i j cs (map tv ts).
Proof.
  unfold keep_34, k34. destruct ts as [|t1 [|t2 [|t3 [|t4 [|]]]]]; try reflexivity.
  rewrite !map_app. cbn [map]. unfold keep_if, keep_if_tv. destruct (group cs i), (group cs j); reflexivity.
Qed.

(* the rules after comments and blocks *)
Definition comment_re : list ritem := [RLit (lit "//"); RRep any_chr 0].
Definition hr_re : list ritem := [RLit (lit "---"); REnd].
Definition line_rules (l : str) : list rule :=
  [(control_re, fun cs => [(Some T_CONTROL, group cs 0); (Some T_TEXT, group cs 1); (None, group cs 2); (Some T_TEXT, group cs 3)], kall);
   (include_re, fun cs => [(Some T_INCLUDE, group cs 0); (None, group cs 1);
       (Some T_TEXT, group cs 2); (Some T_LITERAL, group cs 3); (Some T_TEXT, group cs 4)], k34 3 4);
   (variable_re, fun cs => [(Some T_VARIABLE, group cs 0); (Some T_TEXT, group cs 1); (Some T_LITERAL, group cs 2); (Some T_TEXT, group cs 3)], k34 2 3);
   (arguments_re, fun cs => [(Some T_ARGUMENTS, group cs 0); (Some T_TEXT, group cs 1); (Some T_LITERAL, group cs 2)], kall);
   (label_re, fun cs => [(Some T_LABEL, group cs 0 ++ group cs 1); (None, group cs 2); (Some T_TEXT, group cs 3)], kall);
   (list_re, fun cs => [(None, group cs 0); (Some T_LIST, group cs 1); (None, group cs 2); (Some T_TEXT, group cs 3)], kall);
   (header_re, fun cs => [(Some T_HEADER, group cs 0); (None, group cs 1); (Some T_TEXT, group cs 2)], kall);
   ([], fun _ => [(Some T_TEXT, l)], kall)].
Fixpoint first_rule (rs : list rule) (l : str) : list (token_type * str) :=
  match rs with
  | [] => []
  | (re, sc, k) :: r => match rmatch re l with Some cs => k cs (script_tv (sc cs)) | None => first_rule r l end
  end.
Definition classify (l : str) : list (token_type * str) :=
  first_rule ((comment_re, fun _ => [], kall) :: (hr_re, fun _ => [(Some T_HORIZONTAL_RULE, l)], kall) :: line_rules l) l.

Lemma run_rule re sc keep k fs rs (u : tbuf) l : current_line u = l ->
  (forall cs ts, map tv (keep cs ts) = k cs (map tv ts)) ->
  (exists ts, run_functions fs u = Ok (ts, nextline u) /\ map tv ts = first_rule rs l) ->
  exists ts, (let? r := line_rule re sc keep u in match r with None => run_functions fs u | Some x => Ok x end) = Ok (ts, nextline u) /\
    map tv ts = first_rule ((re, sc, k) :: rs) l.
Proof.
  intros Hl Hk (ts & H1 & H2). unfold line_rule. rewrite Hl. cbn [first_rule]. destruct (rmatch re l) as [cs|].
  - cbn [rbind]. eexists. split; [reflexivity|]. rewrite Hk, emit_script_tv. reflexivity.
  - cbn [rbind]. eauto.
Qed.

Lemma step_line l post u : all_sp l = false -> l <> slashes -> is_fence l = false -> bol u -> rest u = l :: post ->
  exists ts v, run_functions (all_functions doc_lexer_fns) u = Ok (ts, v) /\ tb_eof u = false /\ map tv ts = classify l /\ bol v /\ rest v = post.
Proof.
  intros Hsp Hn Hf Hb Hr. destruct (rest_cons _ _ _ Hr) as (H1 & H2 & H3).
  assert (He : tb_eof u = false) by (rewrite (rest_eof _ Hb), Hr; destruct l; [discriminate|destruct post; reflexivity]).
  assert (Hc : col0 u) by apply Hb.
  rewrite (run_base _ _ He), (tail_col0 _ Hc), H1, Hsp. unfold doc_lexer_fns. cbn [app run_functions].
  rewrite (multiline_eq _ Hb He), H1.
  destruct (str_eqb_spec l four_slashes) as [E|E]; [exfalso; apply Hn; exact E|]. cbn [rbind].
  rewrite (block_eq _ Hb He), H1, Hf. cbn [rbind].
  rewrite dl_comment_rule, dl_hr_rule, dl_control_rule, dl_include_rule, dl_variable_rule, dl_arguments_rule, dl_label_rule,
    dl_list_rule, dl_header_rule, (dl_text_rule u Hc), H1.
  assert (K : exists ts, (let? r := line_rule comment_re (fun _ => []) all_kept u in match r with None =>
     (let? r := line_rule hr_re (fun _ => [(Some T_HORIZONTAL_RULE, l)]) all_kept u in match r with None =>
     run_functions [line_rule control_re (fun cs => [(Some T_CONTROL, group cs 0); (Some T_TEXT, group cs 1); (None, group cs 2); (Some T_TEXT, group cs 3)]) all_kept;
       line_rule include_re (fun cs => [(Some T_INCLUDE, group cs 0); (None, group cs 1);
       (Some T_TEXT, group cs 2); (Some T_LITERAL, group cs 3); (Some T_TEXT, group cs 4)]) (keep_34 3 4);
       line_rule variable_re (fun cs => [(Some T_VARIABLE, group cs 0); (Some T_TEXT, group cs 1); (Some T_LITERAL, group cs 2); (Some T_TEXT, group cs 3)]) (keep_34 2 3);
       line_rule arguments_re (fun cs => [(Some T_ARGUMENTS, group cs 0); (Some T_TEXT, group cs 1); (Some T_LITERAL, group cs 2)]) all_kept;
       line_rule label_re (fun cs => [(Some T_LABEL, group cs 0 ++ group cs 1); (None, group cs 2); (Some T_TEXT, group cs 3)]) all_kept;
       line_rule list_re (fun cs => [(None, group cs 0); (Some T_LIST, group cs 1); (None, group cs 2); (Some T_TEXT, group cs 3)]) all_kept;
       line_rule header_re (fun cs => [(Some T_HEADER, group cs 0); (None, group cs 1); (Some T_TEXT, group cs 2)]) all_kept;
       line_rule [] (fun _ => [(Some T_TEXT, l)]) all_kept; process_error] u | Some x => Ok x end) | Some x => Ok x end) = Ok (ts, nextline u) /\ map tv ts = classify l).
  { unfold classify. apply (run_rule comment_re _ all_kept kall [line_rule hr_re (fun _ => [(Some T_HORIZONTAL_RULE, l)]) all_kept; _; _; _; _; _; _; _; _; _] _ u l H1 (fun _ _ => eq_refl)).
    cbn [run_functions].
    unfold line_rules. cbn [run_functions].
    do 8 (match goal with |- exists ts, (let? r := line_rule ?re ?sc ?keep u in match r with None => ?rest | Some x => Ok x end) = _ /\ _ =>
      unfold line_rule at 1; rewrite H1; cbn [first_rule]; destruct (rmatch re l) as [cs|]; cbn [rbind];
      [eexists; split; [reflexivity|]; first [rewrite k34_tv|idtac]; unfold all_kept, kall; rewrite emit_script_tv; reflexivity|] end).
    unfold line_rule. rewrite H1. cbn [rmatch rbind first_rule]. eexists. split; [reflexivity|]. reflexivity. }
  destruct K as (ts & K1 & K2). exists ts, (nextline u). split; [exact K1|].
  split; [exact He|]. split; [exact K2|]. split; [apply bol_nextline; exact H2|exact H3].
Qed.

(* A greedy repetition that reads all of a. *)
Lemma rmatch_rep p min r a rest cs : forallb p a = true -> (forall c v, rest = c :: v -> p c = false) ->
  min <= length a -> rmatch r rest = Some cs -> rmatch (RRep p min :: r) (a ++ rest) = Some (Some a :: cs).
Proof.
  intros Ha Hr Hm H. cbn [rmatch]. rewrite run_length_span, (span_all p a rest Ha Hr). cbn [fst].
  assert (E : skipn (length a) (a ++ rest) = rest) by (rewrite skipn_app, skipn_all, Nat.sub_diag; reflexivity).
  assert (F : firstn (length a) (a ++ rest) = a) by (rewrite firstn_app, Nat.sub_diag, firstn_all; cbn; apply app_nil_r).
  destruct a as [|c a].
  - cbn [length try_rep]. destruct (Nat.ltb_spec 0 min) as [K|K]; [cbn in Hm; lia|]. cbn [app skipn firstn]. rewrite H. reflexivity.
  - cbn [length] in *. cbn [try_rep]. destruct (Nat.ltb_spec (S (length a)) min) as [K|K]; [lia|]. rewrite E, H, F. reflexivity.
Qed.


(* A repetition that can end nowhere. *)
Lemma try_rep_none k s min n : (forall m, min <= m <= n -> k (skipn m s) = None) -> try_rep k s min n = None.
Proof.
  induction n as [|n IH]; intros H; cbn [try_rep].
  - destruct (Nat.ltb_spec 0 min) as [K|K]; [reflexivity|]. rewrite (H 0) by lia. reflexivity.
  - destruct (Nat.ltb_spec (S n) min) as [K|K]; [reflexivity|]. rewrite (H (S n)) by lia. apply IH. intros m Hm. apply H. lia.
Qed.
Lemma rmatch_rep_none p min r a rest : forallb p a = true -> (forall c v, rest = c :: v -> p c = false) ->
  (forall b c, a = b ++ c -> min <= length b -> rmatch r (c ++ rest) = None) -> rmatch (RRep p min :: r) (a ++ rest) = None.
Proof.
  intros Ha Hr H. cbn [rmatch]. rewrite run_length_span, (span_all p a rest Ha Hr). cbn [fst].
  apply try_rep_none. intros m Hm. rewrite skipn_app. replace (m - length a) with 0 by lia. cbn [skipn].
  apply (H (firstn m a)); [symmetry; apply firstn_skipn|]. rewrite firstn_length. lia.
Qed.
(* a greedy repetition that has to give back b *)
Lemma rmatch_rep_back p min r a b rest cs : forallb p (a ++ b) = true -> (forall c v, rest = c :: v -> p c = false) ->
  min <= length a -> (forall b1 b2, b = b1 ++ b2 -> b1 <> [] -> rmatch r (b2 ++ rest) = None) ->
  rmatch r (b ++ rest) = Some cs -> rmatch (RRep p min :: r) (a ++ b ++ rest) = Some (Some a :: cs).
Proof.
  intros Ha Hr Hm Hn H. cbn [rmatch]. rewrite app_assoc, run_length_span, (span_all p _ rest Ha Hr). cbn [fst].
  assert (K : forall n, n <= length b -> try_rep (rmatch r) ((a ++ b) ++ rest) min (length a + n) = Some (Some a :: cs)).
  { induction n as [|n IH]; intros Hl.
    - rewrite Nat.add_0_r. rewrite <- app_assoc.
      assert (E : skipn (length a) (a ++ b ++ rest) = b ++ rest) by (rewrite skipn_app, skipn_all, Nat.sub_diag; reflexivity).
      assert (F : firstn (length a) (a ++ b ++ rest) = a) by (rewrite firstn_app, Nat.sub_diag, firstn_all; cbn; apply app_nil_r).
      destruct (length a) as [|k]; cbn [try_rep]; (match goal with |- context [?x <? min] => destruct (Nat.ltb_spec x min) as [Q|Q]; [lia|] end); rewrite E, H, F; reflexivity.
    - rewrite Nat.add_succ_r. cbn [try_rep]. destruct (Nat.ltb_spec (S (length a + n)) min) as [Q|Q]; [lia|].
      assert (E : skipn (S (length a + n)) ((a ++ b) ++ rest) = skipn (S n) b ++ rest).
      { rewrite <- app_assoc. replace (S (length a + n)) with (length a + S n) by lia.
        rewrite skipn_app. rewrite (skipn_all2 a) by lia. replace (length a + S n - length a) with (S n) by lia.
        cbn [app]. rewrite skipn_app. replace (S n - length b) with 0 by lia. reflexivity. }
      rewrite E, (Hn (firstn (S n) b) (skipn (S n) b)).
      + apply IH. lia.
      + symmetry. apply firstn_skipn.
      + destruct b; [cbn in Hl; lia|discriminate]. }
  rewrite app_length. apply K. lia.
Qed.

(* character classes *)
Lemma range_In a n c : (N.of_nat a <=? c)%N && (c <=? N.of_nat (a + n))%N = true <-> In c (map N.of_nat (seq a (S n))).
Proof.
  rewrite andb_true_iff, !N.leb_le, in_map_iff. split.
  - intros [H1 H2]. exists (N.to_nat c). rewrite N2Nat.id. split; [reflexivity|]. apply in_seq. lia.
  - intros (x & <- & Hx). apply in_seq in Hx. lia.
Qed.
Lemma is_lower_In c : is_lower c = true <-> In c LOWER.
Proof. unfold is_lower. change 97%N with (N.of_nat 97). change 122%N with (N.of_nat (97 + 25)). rewrite range_In. reflexivity. Qed.
Lemma is_upper_In c : is_upper c = true <-> In c UPPER.
Proof. unfold is_upper. change 65%N with (N.of_nat 65). change 90%N with (N.of_nat (65 + 25)). rewrite range_In. reflexivity. Qed.
Lemma is_digit_In c : is_digit c = true <-> In c DIGITS.
Proof. unfold is_digit. change 48%N with (N.of_nat 48). change 57%N with (N.of_nat (48 + 9)). rewrite range_In. reflexivity. Qed.
Lemma name_chr_spec c : is_name_chr c = true <-> name_char c.
Proof. unfold is_name_chr, name_char. rewrite !orb_true_iff, !in_app_iff, is_lower_In, is_upper_In, is_digit_In, mem_chr_In. tauto. Qed.
Lemma include_chr_spec c : is_include_chr c = true <-> include_char c.
Proof. unfold is_include_chr, include_char. rewrite !orb_true_iff, !in_app_iff, is_lower_In, is_digit_In, mem_chr_In. tauto. Qed.
Lemma label_chr_spec c : is_label_chr c = true <-> label_char c.
Proof. unfold is_label_chr, label_char. rewrite !orb_true_iff, !in_app_iff, is_lower_In, is_digit_In, mem_chr_In. tauto. Qed.
Lemma list_chr_spec c : is_list_chr c = true <-> one_of (lit "*#") c.
Proof. apply mem_chr_In. Qed.
Lemma sp_spec c : (SP =? c)%N = true <-> one_of (lit " ") c.
Proof. rewrite N.eqb_eq. unfold one_of. cbn. intuition. Qed.
Lemma eq_spec c : (EQUALS =? c)%N = true <-> one_of (lit "=") c.
Proof. rewrite N.eqb_eq. unfold one_of. cbn. intuition. Qed.
Lemma lower_spec c : is_lower c = true <-> one_of LOWER c.
Proof. apply is_lower_In. Qed.

Lemma all_chars_b p q s : (forall c, p c = true <-> q c) -> all_chars q s -> forallb p s = true.
Proof. intros H K. apply forallb_forall. intros c Hc. apply H, K, Hc. Qed.
Lemma hd_not_b p (q : N -> Prop) s : (forall c, p c = true <-> q c) -> hd_not q s -> forall c v, s = c :: v -> p c = false.
Proof. intros H K c v E. destruct (p c) eqn:F; [|reflexivity]. exfalso. apply (K c v E), H, F. Qed.
Lemma sps_all k : forallb (N.eqb SP) (sps k) = true.
Proof. induction k; [reflexivity|]. exact IHk. Qed.
Lemma any_all s : no_chr NL s -> forallb any_chr s = true.
Proof. intros H. apply forallb_forall. intros c Hc. unfold any_chr. destruct (N.eqb_spec c NL) as [->|]; [contradiction|reflexivity]. Qed.
Lemma rmatch_any s : no_chr NL s -> rmatch [RRep any_chr 0] s = Some [Some s].
Proof. intros H. rewrite <- (app_nil_r s) at 1. apply rmatch_rep; [apply any_all, H|discriminate|lia|reflexivity]. Qed.
Lemma rmatch_any_end s : no_chr NL s -> rmatch [RRep any_chr 0; REnd] s = Some [Some s; Some []].
Proof. intros H. rewrite <- (app_nil_r s) at 1. apply rmatch_rep; [apply any_all, H|discriminate|lia|reflexivity]. Qed.
Lemma rmatch_lit t r s : rmatch (RLit t :: r) (t ++ s) = option_map (cons (Some t)) (rmatch r s).
Proof. cbn [rmatch]. rewrite startswith_app, skipn_app, skipn_all, Nat.sub_diag. reflexivity. Qed.
Lemma rmatch_opt t r s cs : rmatch r s = Some cs -> rmatch (ROpt t :: r) (t ++ s) = Some (Some t :: cs).
Proof. intros H. cbn [rmatch]. rewrite startswith_app, skipn_app, skipn_all, Nat.sub_diag. cbn [app skipn]. rewrite H. reflexivity. Qed.
Lemma rmatch_opt_none t r s cs : startswith t s = false -> rmatch r s = Some cs -> rmatch (ROpt t :: r) s = Some (None :: cs).
Proof. intros H K. cbn [rmatch]. rewrite H, K. reflexivity. Qed.

Lemma no_app (a b : str) : no_chr NL (a ++ b) -> no_chr NL a /\ no_chr NL b.
Proof. unfold no_chr. rewrite in_app_iff. tauto. Qed.

(* not a fence: two different characters *)
Lemma is_fence_fence l : is_fence l = true -> exists c, l = fence c.
Proof.
  destruct l as [|a [|b [|c [|d [|]]]]]; try discriminate. cbn. rewrite !andb_true_iff, !N.eqb_eq.
  intros [[[_ <-] <-] <-]. exists a. reflexivity.
Qed.
Lemma two_chars a b l : In a l -> In b l -> a <> b -> not_fence l.
Proof. intros Ha Hb Hn c ->. cbn in Ha, Hb. intuition congruence. Qed.
Lemma not_fence_b l : not_fence l -> is_fence l = false.
Proof. intros H. destruct (is_fence l) eqn:E; [|reflexivity]. destruct (is_fence_fence _ E) as [c ->]. exfalso. exact (H c eq_refl). Qed.
Lemma not_blank a l : In a l -> a <> SP -> all_sp l = false.
Proof.
  intros Hi Hn. induction l as [|c l IH]; [destruct Hi|]. cbn [all_sp]. destruct (N.eqb_spec c SP) as [->|K]; [|reflexivity].
  destruct Hi as [<-|Hi]; [congruence|]. cbn. exact (IH Hi).
Qed.
Lemma not_fence_slashes l : not_fence l -> l <> slashes.
Proof. intros H. exact (H 47%N). Qed.

(* the rules, one by one *)
Lemma lit_none d t r c s : d <> c -> rmatch (RLit (d :: t) :: r) (c :: s) = None.
Proof. intros H. cbn [rmatch startswith]. destruct (N.eqb_spec d c) as [E|E]; [congruence|reflexivity]. Qed.
Lemma lits_none l c : hd_error l = Some c -> ~ In c (lit "/-@<:[.") ->
  rmatch comment_re l = None /\ rmatch hr_re l = None /\ rmatch control_re l = None /\ rmatch include_re l = None /\
  rmatch variable_re l = None /\ rmatch arguments_re l = None /\ rmatch label_re l = None.
Proof.
  destruct l as [|a l]; [discriminate|]. cbn [hd_error]. intros E; injection E as ->. intros H.
  repeat split; apply lit_none; intros <-; apply H; vm_compute; tauto.
Qed.
Lemma list_none i m s : all_chars (one_of (lit "*#")) m -> hd_not (one_of (lit "*# ")) s -> rmatch list_re (sps i ++ m ++ s) = None.
Proof.
  intros Hm Hs. unfold list_re. apply rmatch_rep_none; [apply sps_all| |].
  - intros c v E. destruct m as [|d m]; [|injection E as <- _].
    + cbn in E. destruct (N.eqb_spec SP c) as [<-|]; [|reflexivity]. exfalso. apply (Hs SP v E). vm_compute; tauto.
    + specialize (Hm d (or_introl eq_refl)). destruct (N.eqb_spec SP d) as [<-|]; [|reflexivity]. vm_compute in Hm. intuition discriminate.
  - intros b c E _. destruct c as [|c0 c].
    + cbn [app]. apply rmatch_rep_none; [exact (all_chars_b _ _ _ list_chr_spec Hm)| |].
      * intros c v ->. destruct (is_list_chr c) eqn:F; [|reflexivity]. exfalso. apply (Hs c v eq_refl). apply list_chr_spec in F. vm_compute in F |- *. tauto.
      * intros b1 b2 -> _. destruct b2 as [|x b2]; [destruct s as [|x s]|].
        -- reflexivity.
        -- cbn [app rmatch run_length]. destruct (N.eqb_spec SP x) as [<-|]; [|reflexivity]. exfalso. apply (Hs SP s eq_refl). vm_compute; tauto.
        -- cbn [app rmatch run_length]. destruct (N.eqb_spec SP x) as [<-|]; [|reflexivity].
           specialize (Hm SP ltac:(apply in_or_app; right; left; reflexivity)). vm_compute in Hm. intuition discriminate.
    + assert (Hc : In c0 (sps i)) by (rewrite E; apply in_or_app; right; left; reflexivity). apply repeat_spec in Hc. subst c0. reflexivity.
Qed.
Lemma header_none c s : c <> EQUALS -> rmatch header_re (c :: s) = None.
Proof. intros H. unfold header_re. cbn [rmatch run_length]. destruct (N.eqb_spec EQUALS c) as [<-|]; [congruence|reflexivity]. Qed.

Ltac cls := unfold classify, line_rules; cbn [first_rule];
  repeat match goal with H : rmatch _ _ = _ |- _ => rewrite H end;
  unfold kall, k34, keep_if_tv, group, script_tv; cbn [map concat app nth cap_str fst snd opt_tok]; try reflexivity.
Definition plain_line (l : str) (ts : list (token_type * str)) : Prop :=
  all_sp l = false /\ not_fence l /\ classify l = ts.
Lemma plain a l ts : In a l -> a <> SP -> not_fence l -> classify l = ts -> plain_line l ts.
Proof. intros H1 H2 H3 H4. split; [exact (not_blank a l H1 H2)|auto]. Qed.
Lemma list_lit_none c s : ~ In c (lit "*# ") -> rmatch list_re (c :: s) = None.
Proof.
  intros H. change (c :: s) with (sps 0 ++ [] ++ c :: s). apply list_none; [intros x []|].
  intros x r E. injection E as <- _. exact H.
Qed.

Lemma read_header n k s : no_chr NL s -> s <> [] -> hd_not (one_of (lit " ")) s -> (k = 0 -> hd_not (one_of (lit "=")) s) ->
  rmatch header_re (EQ1 n ++ sps k ++ s) = Some [Some (EQ1 n); Some (sps k); Some s].
Proof.
  intros Hn Hs Hh Hk. unfold header_re. apply rmatch_rep; [| |cbn; lia|].
  - apply forallb_forall. intros c Hc. apply repeat_spec in Hc. subst c. reflexivity.
  - intros c v E. destruct k as [|k]; [|injection E as <- _; reflexivity]. cbn in E.
    destruct (N.eqb_spec EQUALS c) as [<-|]; [|reflexivity]. exfalso. apply (Hk eq_refl _ v E). vm_compute; tauto.
  - apply rmatch_rep; [apply sps_all| |lia|].
    + intros c v ->. destruct (N.eqb_spec SP c) as [<-|]; [|reflexivity]. exfalso. apply (Hh _ v eq_refl). vm_compute; tauto.
    + rewrite <- (app_nil_r s) at 1. apply rmatch_rep; [apply any_all, Hn|discriminate|destruct s; [congruence|cbn; lia]|reflexivity].
Qed.

Lemma rmatch_rep' p (q : N -> Prop) min r a rest cs : (forall c, p c = true <-> q c) -> all_chars q a -> hd_not q rest ->
  min <= length a -> rmatch r rest = Some cs -> rmatch (RRep p min :: r) (a ++ rest) = Some (Some a :: cs).
Proof. intros H H1 H2. apply rmatch_rep; [exact (all_chars_b _ _ _ H H1)|exact (hd_not_b _ _ _ H H2)]. Qed.
Lemma len1 (s : str) : s <> [] -> 1 <= length s.
Proof. destruct s; [congruence|cbn; lia]. Qed.
Lemma sps_chars k : all_chars (one_of (lit " ")) (sps k).
Proof. intros c Hc. apply repeat_spec in Hc. subst. left. reflexivity. Qed.
Lemma hd_not_sps (p : N -> Prop) k s : ~ p SP -> (k = 0 -> hd_not p s) -> hd_not p (sps k ++ s).
Proof. intros H1 H2. destruct k as [|k]; [exact (H2 eq_refl)|]. intros c r E. injection E as <- _. exact H1. Qed.
Lemma hd_not_app (p : N -> Prop) c s : ~ p c -> hd_not p (c :: s).
Proof. intros H x r E. injection E as <- _. exact H. Qed.
Lemma hd_not_weak (p q : N -> Prop) s : (forall c, p c -> q c) -> hd_not q s -> hd_not p s.
Proof. intros H K c r E X. exact (K c r E (H c X)). Qed.
Lemma colon_no_name : ~ name_char 58%N.
Proof. vm_compute. intuition discriminate. Qed.
Lemma colon_no_include : ~ include_char 58%N.
Proof. vm_compute. intuition discriminate. Qed.
Lemma sp_no_label : ~ label_char SP.
Proof. vm_compute. intuition discriminate. Qed.
Lemma sp_no_lower : ~ one_of LOWER SP.
Proof. vm_compute. intuition discriminate. Qed.
Lemma sp_no_include : ~ include_char SP.
Proof. vm_compute. intuition discriminate. Qed.

Lemma in_two (a b : N) l : In a l -> In b l -> a <> b -> not_fence l.
Proof. apply two_chars. Qed.
Lemma first_in (s : str) : s <> [] -> exists c, In c s.
Proof. destruct s as [|c s]; [congruence|]. exists c. left; reflexivity. Qed.
Lemma not_fence_lit (c : N) s : s <> [c; c; c] -> not_fence (c :: s).
Proof. intros H d E. injection E as -> E. exact (H E). Qed.
Lemma opt_tok_keep t s : opt_tok t s = keep_if_tv s (t, s).
Proof. destruct s; reflexivity. Qed.

Ltac lit_nones := repeat match goal with |- context [rmatch ?re (?l ++ ?s)] =>
   change (rmatch re (l ++ s)) with (@None captures) end; cbv iota beta.

Lemma read_line l ts : reads l ts -> no_chr NL l -> (exists n, l = sps n /\ ts = [(T_EOL, l)]) \/ plain_line l ts.
Proof.
  intros H Hn. destruct H.
  - left. eauto.
  - (* comment *) right. apply (plain 47%N); [left; reflexivity|discriminate| |].
    + intros c E. injection E as <- _ E. apply H. exact E.
    + unfold classify. cbn [first_rule]. unfold comment_re. rewrite rmatch_lit.
      rewrite rmatch_any by apply (no_app _ _ Hn). reflexivity.
  - right. split; [reflexivity|]. split; [intros c; discriminate|reflexivity].
  - (* header *) right. destruct (no_app _ _ Hn) as [_ Hn1]. destruct (no_app _ _ Hn1) as [_ Hn2].
    destruct (lits_none (EQ1 n ++ sps k ++ s) EQUALS eq_refl) as (N1 & N2 & N3 & N4 & N5 & N6 & N7).
    { vm_compute. intuition discriminate. }
    assert (NL' : rmatch list_re (EQ1 n ++ sps k ++ s) = None) by (apply list_lit_none; vm_compute; intuition discriminate).
    pose proof (read_header n k s Hn2 H H0 H1) as HH.
    apply (plain EQUALS); [left; reflexivity|discriminate| |cls].
    destruct k as [|k].
    + destruct s as [|c s]; [congruence|]. apply (in_two EQUALS c); [left; reflexivity|rewrite !in_app_iff; right; right; left; reflexivity|].
      intros <-. apply (H1 eq_refl _ _ eq_refl). vm_compute; tauto.
    + apply (in_two EQUALS SP); [left; reflexivity|rewrite !in_app_iff; right; left; left; reflexivity|discriminate].
  - (* list *) right. destruct (no_app _ _ Hn) as [_ Hn1]. destruct (no_app _ _ Hn1) as [_ Hn2]. destruct (no_app _ _ Hn2) as [_ Hn3].
    destruct (first_in m H) as [c0 Hc0]. pose proof (H0 _ Hc0) as Hc1.
    assert (Hm : rmatch list_re (sps i ++ m ++ sps (S k) ++ s) = Some [Some (sps i); Some m; Some (sps (S k)); Some s]).
    { unfold list_re. apply (rmatch_rep' _ _ _ _ _ _ _ sp_spec); [apply sps_chars| |lia|].
      - destruct m as [|d m]; [congruence|]. apply hd_not_app. specialize (H0 d (or_introl eq_refl)). vm_compute in H0 |- *. intuition congruence.
      - apply (rmatch_rep' _ _ _ _ _ _ _ list_chr_spec); [exact H0| |apply len1, H|].
        + apply hd_not_app. vm_compute. intuition discriminate.
        + apply (rmatch_rep' _ _ _ _ _ _ _ sp_spec); [apply sps_chars|exact H1|cbn; lia|]. apply rmatch_any, Hn3. }
    assert (HF : exists c, hd_error (sps i ++ m ++ sps (S k) ++ s) = Some c /\ ~ In c (lit "/-@<:[.")).
    { destruct i as [|i]; [|exists SP; split; [reflexivity|vm_compute; intuition discriminate]].
      destruct m as [|d m]; [congruence|]. exists d. split; [reflexivity|]. specialize (H0 d (or_introl eq_refl)). vm_compute in H0 |- *. intuition congruence. }
    destruct HF as (c & HF1 & HF2). destruct (lits_none _ c HF1 HF2) as (N1 & N2 & N3 & N4 & N5 & N6 & N7).
    apply (plain c0); [rewrite !in_app_iff; tauto|vm_compute in Hc1 |- *; intuition congruence| |cls].
    apply (in_two c0 SP); [rewrite !in_app_iff; tauto|rewrite !in_app_iff; right; right; left; left; reflexivity|vm_compute in Hc1 |- *; intuition congruence].
  - (* variable *) right. destruct (no_app _ _ Hn) as [_ Hn1]. destruct (no_app _ _ Hn1) as [_ Hn2]. destruct (no_app _ _ Hn2) as [_ Hn3].
    destruct (first_in name H) as [c0 Hc0]. pose proof (H0 _ Hc0) as Hc1.
    apply (plain 58%N); [left; reflexivity|discriminate| |].
    + apply (in_two 58%N c0); [left; reflexivity|rewrite !in_app_iff; tauto|intros <-; exact (colon_no_name Hc1)].
    + assert (Hm : rmatch variable_re (lit ":" ++ name ++ lit ":" ++ s) = Some [Some (lit ":"); Some name; Some (lit ":"); Some s]).
      { unfold variable_re. rewrite rmatch_lit. rewrite (rmatch_rep' _ _ _ _ _ _ [Some (lit ":"); Some s] name_chr_spec H0); [reflexivity| |apply len1, H|].
        - apply hd_not_app, colon_no_name.
        - apply rmatch_opt, rmatch_any, Hn3. }
      unfold classify, line_rules. cbn [first_rule]. rewrite Hm. lit_nones. destruct s; reflexivity.
  - (* variable without a separator *) right. destruct (no_app _ _ Hn) as [_ Hn1]. destruct (no_app _ _ Hn1) as [_ Hn2].
    destruct (first_in name H) as [c0 Hc0]. pose proof (H0 _ Hc0) as Hc1.
    apply (plain 58%N); [left; reflexivity|discriminate| |].
    + apply (in_two 58%N c0); [left; reflexivity|rewrite !in_app_iff; tauto|intros <-; exact (colon_no_name Hc1)].
    + assert (Hm : rmatch variable_re (lit ":" ++ name ++ s) = Some [Some (lit ":"); Some name; None; Some s]).
      { unfold variable_re. rewrite rmatch_lit. rewrite (rmatch_rep' _ _ _ _ _ _ [None; Some s] name_chr_spec H0); [reflexivity| |apply len1, H|].
        - apply (hd_not_weak _ (fun c => name_char c \/ c = 58%N)); auto.
        - apply rmatch_opt_none; [|apply rmatch_any, Hn2]. destruct s as [|x s]; [reflexivity|]. change (lit ":") with [58%N]. cbn [startswith]. destruct (N.eqb_spec 58 x) as [<-|]; [|reflexivity].
          exfalso. apply (H1 _ _ eq_refl). right; reflexivity. }
      unfold classify, line_rules. cbn [first_rule]. rewrite Hm. lit_nones. destruct s; reflexivity.
  - (* arguments *) right. destruct (no_app _ _ Hn) as [_ Hn1].
    apply (plain 91%N); [left; reflexivity|discriminate| |].
    + apply (in_two 91%N 93%N); [left; reflexivity|rewrite !in_app_iff; right; right; left; reflexivity|discriminate].
    + assert (Hm : rmatch arguments_re (lit "[" ++ s ++ lit "]") = Some [Some (lit "["); Some s; Some (lit "]"); Some []]).
      { unfold arguments_re. rewrite rmatch_lit. rewrite <- (app_nil_r (s ++ lit "]")), <- app_assoc.
        rewrite (rmatch_rep_back any_chr 0 [RLit (lit "]"); REnd] s (lit "]") [] [Some (lit "]"); Some []]); [reflexivity|apply any_all, Hn1|discriminate|lia| |reflexivity].
        intros b1 b2 E Hb. destruct b1 as [|x [|y b1]]; [congruence| |destruct b1; discriminate]. injection E as _ <-. reflexivity. }
      unfold classify, line_rules. cbn [first_rule]. rewrite Hm. lit_nones. reflexivity.
  - (* label *) right. destruct (no_app _ _ Hn) as [_ Hn1]. destruct (no_app _ _ Hn1) as [_ Hn2]. destruct (no_app _ _ Hn2) as [_ Hn3].
    apply (plain 46%N); [left; reflexivity|discriminate|exact H2|].
    assert (Hm : rmatch label_re (lit "." ++ role ++ sps k ++ s) = Some [Some (lit "."); Some role; Some (sps k); Some s]).
    { unfold label_re. rewrite rmatch_lit. rewrite (rmatch_rep' _ _ _ _ _ _ [Some (sps k); Some s] label_chr_spec H); [reflexivity| |lia|].
      - apply hd_not_sps; [exact sp_no_label|exact H1].
      - apply (rmatch_rep' _ _ _ _ _ _ _ sp_spec); [apply sps_chars|exact H0|lia|]. apply rmatch_any, Hn3. }
    unfold classify, line_rules. cbn [first_rule]. rewrite Hm. lit_nones. reflexivity.
  - (* control *) right. destruct (no_app _ _ Hn) as [_ Hn1]. destruct (no_app _ _ Hn1) as [_ Hn2]. destruct (no_app _ _ Hn2) as [_ Hn3].
    destruct (first_in op H) as [c0 Hc0]. pose proof (H0 _ Hc0) as Hc1.
    apply (plain 64%N); [left; reflexivity|discriminate| |].
    + apply (in_two 64%N c0); [left; reflexivity|rewrite !in_app_iff; tauto|intros <-; vm_compute in Hc1; intuition discriminate].
    + assert (Hm : rmatch control_re (lit "@" ++ op ++ sps k ++ s) = Some [Some (lit "@"); Some op; Some (sps k); Some s; Some []]).
      { unfold control_re. rewrite rmatch_lit. rewrite (rmatch_rep' _ _ _ _ _ _ [Some (sps k); Some s; Some []] lower_spec H0); [reflexivity| |apply len1, H|].
        - apply hd_not_sps; [exact sp_no_lower|exact H2].
        - apply (rmatch_rep' _ _ _ _ _ _ _ sp_spec); [apply sps_chars|exact H1|lia|]. apply rmatch_any_end, Hn3. }
      unfold classify, line_rules. cbn [first_rule]. rewrite Hm. lit_nones. reflexivity.
  - (* include *) right. destruct (no_app _ _ Hn) as [_ Hn1]. destruct (no_app _ _ Hn1) as [_ Hn2]. destruct (no_app _ _ Hn2) as [_ Hn3]. destruct (no_app _ _ Hn3) as [_ Hn4].
    apply (plain 60%N); [left; reflexivity|discriminate| |].
    + apply (in_two 60%N 58%N); [left; reflexivity|rewrite !in_app_iff; right; right; right; left; left; reflexivity|discriminate].
    + assert (Hm : rmatch include_re (lit "<<" ++ sps k ++ ty ++ lit ":" ++ s) = Some [Some (lit "<<"); Some (sps k); Some ty; Some (lit ":"); Some s]).
      { unfold include_re. rewrite rmatch_lit. rewrite (rmatch_rep' _ _ _ _ _ _ [Some ty; Some (lit ":"); Some s] sp_spec (sps_chars k)); [reflexivity| |lia|].
        - destruct ty as [|d ty]; [congruence|]. apply hd_not_app. specialize (H0 d (or_introl eq_refl)). intros [<-|[]]. exact (sp_no_include H0).
        - apply (rmatch_rep' _ _ _ _ _ _ _ include_chr_spec); [exact H0|apply hd_not_app, colon_no_include|apply len1, H|]. apply rmatch_opt, rmatch_any, Hn4. }
      unfold classify, line_rules. cbn [first_rule]. rewrite Hm. lit_nones. destruct s; reflexivity.
  - (* include without a separator *) right. destruct (no_app _ _ Hn) as [_ Hn1]. destruct (no_app _ _ Hn1) as [_ Hn2]. destruct (no_app _ _ Hn2) as [_ Hn3].
    destruct (first_in ty H) as [c0 Hc0]. pose proof (H0 _ Hc0) as Hc1.
    apply (plain 60%N); [left; reflexivity|discriminate| |].
    + apply (in_two 60%N c0); [left; reflexivity|rewrite !in_app_iff; tauto|intros <-; vm_compute in Hc1; intuition discriminate].
    + assert (Hm : rmatch include_re (lit "<<" ++ sps k ++ ty ++ s) = Some [Some (lit "<<"); Some (sps k); Some ty; None; Some s]).
      { unfold include_re. rewrite rmatch_lit. rewrite (rmatch_rep' _ _ _ _ _ _ [Some ty; None; Some s] sp_spec (sps_chars k)); [reflexivity| |lia|].
        - destruct ty as [|d ty]; [congruence|]. apply hd_not_app. specialize (H0 d (or_introl eq_refl)). intros [<-|[]]. exact (sp_no_include H0).
        - apply (rmatch_rep' _ _ _ _ _ _ _ include_chr_spec); [exact H0|apply (hd_not_weak _ (fun c => include_char c \/ c = 58%N)); auto|apply len1, H|].
          apply rmatch_opt_none; [|apply rmatch_any, Hn3]. destruct s as [|x s]; [reflexivity|]. change (lit ":") with [58%N]. cbn [startswith]. destruct (N.eqb_spec 58 x) as [<-|]; [|reflexivity].
          exfalso. apply (H1 _ _ eq_refl). right; reflexivity. }
      unfold classify, line_rules. cbn [first_rule]. rewrite Hm. lit_nones. destruct s; reflexivity.
  - (* === *) right.
    destruct (lits_none (EQ1 (S n)) EQUALS eq_refl) as (N1 & N2 & N3 & N4 & N5 & N6 & N7).
    { vm_compute. intuition discriminate. }
    assert (NL' : rmatch list_re (EQ1 (S n)) = None) by (apply list_lit_none; vm_compute; intuition discriminate).
    assert (HE : EQ1 (S n) = EQ1 n ++ lit "=") by (unfold EQ1; apply (repeat_cons (S n) EQUALS)).
    assert (HH : rmatch header_re (EQ1 (S n)) = Some [Some (EQ1 n); Some []; Some (lit "=")]).
    { rewrite HE. rewrite <- (app_nil_r (EQ1 n ++ lit "=")), <- app_assoc. unfold header_re. apply rmatch_rep_back; [|discriminate|cbn; lia| |reflexivity].
      - rewrite <- HE. apply forallb_forall. intros c Hc. apply repeat_spec in Hc. subst c. reflexivity.
      - intros b1 b2 E Hb. destruct b1 as [|x [|y b1]]; [congruence| |destruct b1; discriminate]. injection E as _ <-. reflexivity. }
    apply (plain EQUALS); [left; reflexivity|discriminate|exact H|cls].
  - (* = and spaces *) right.
    destruct (lits_none (EQ1 n ++ sps (S k)) EQUALS eq_refl) as (N1 & N2 & N3 & N4 & N5 & N6 & N7).
    { vm_compute. intuition discriminate. }
    assert (NL' : rmatch list_re (EQ1 n ++ sps (S k)) = None) by (apply list_lit_none; vm_compute; intuition discriminate).
    assert (HE : sps (S k) = sps k ++ lit " ") by (unfold sps; apply (repeat_cons k SP)).
    assert (HH : rmatch header_re (EQ1 n ++ sps (S k)) = Some [Some (EQ1 n); Some (sps k); Some (lit " ")]).
    { unfold header_re. apply (rmatch_rep' _ _ _ _ _ _ _ eq_spec); [|apply hd_not_app; vm_compute; intuition discriminate|cbn; lia|].
      - intros c Hc. apply repeat_spec in Hc. subst c. left; reflexivity.
      - rewrite HE. rewrite <- (app_nil_r (sps k ++ lit " ")), <- app_assoc. apply rmatch_rep_back; [|discriminate|lia| |reflexivity].
        + rewrite <- HE. apply sps_all.
        + intros b1 b2 E Hb. destruct b1 as [|x [|y b1]]; [congruence| |destruct b1; discriminate]. injection E as _ <-. reflexivity. }
    apply (plain EQUALS); [left; reflexivity|discriminate| |cls].
    apply (in_two EQUALS SP); [left; reflexivity|rewrite in_app_iff; right; left; reflexivity|discriminate].
  - right. split; [reflexivity|]. split; [intros c; discriminate|reflexivity].
  - (* plain text *) right.
    destruct (lits_none (c :: s) c eq_refl) as (N1 & N2 & N3 & N4 & N5 & N6 & N7).
    { intros K. apply H. vm_compute in K |- *. tauto. }
    assert (NL' : rmatch list_re (c :: s) = None) by (apply list_lit_none; intros K; apply H; vm_compute in K |- *; tauto).
    assert (NH : rmatch header_re (c :: s) = None) by (apply header_none; intros ->; apply H; vm_compute; tauto).
    apply (plain c); [left; reflexivity|intros ->; apply H; vm_compute; tauto|exact H0|cls].
  - (* marks *) right.
    destruct (first_in m H) as [c0 Hc0]. pose proof (H0 _ Hc0) as Hc1.
    assert (NL' : rmatch list_re (sps i ++ m ++ s) = None) by (apply list_none; assumption).
    assert (HF : exists c r, sps i ++ m ++ s = c :: r /\ c <> EQUALS /\ ~ In c (lit "/-@<:[.")).
    { destruct i as [|i]; [|exists SP; eexists; split; [reflexivity|split; [discriminate|vm_compute; intuition discriminate]]].
      destruct m as [|d m]; [congruence|]. exists d; eexists. split; [reflexivity|]. specialize (H0 d (or_introl eq_refl)).
      vm_compute in H0. split; [intros ->; intuition discriminate|vm_compute; intuition congruence]. }
    destruct HF as (c & r & HF1 & HF3 & HF2).
    destruct (lits_none (sps i ++ m ++ s) c) as (N1 & N2 & N3 & N4 & N5 & N6 & N7); [rewrite HF1; reflexivity|exact HF2|].
    assert (NH : rmatch header_re (sps i ++ m ++ s) = None) by (rewrite HF1; apply header_none; exact HF3).
    apply (plain c0); [rewrite !in_app_iff; tauto|vm_compute in Hc1 |- *; intuition congruence|exact H2|cls].
  - (* indented *) right.
    assert (NL' : rmatch list_re (sps (S i) ++ s) = None) by (apply (list_none (S i) []); [intros x []|assumption]).
    destruct (lits_none (sps (S i) ++ s) SP eq_refl) as (N1 & N2 & N3 & N4 & N5 & N6 & N7).
    { vm_compute. intuition discriminate. }
    assert (NH : rmatch header_re (sps (S i) ++ s) = None) by (apply header_none; discriminate).
    destruct s as [|c s]; [congruence|].
    assert (Hc : c <> SP) by (intros ->; apply (H0 _ _ eq_refl); vm_compute; tauto).
    apply (plain c); [rewrite in_app_iff; right; left; reflexivity|exact Hc| |cls].
    apply (in_two SP c); [left; reflexivity|rewrite in_app_iff; right; left; reflexivity|congruence].
  - (* bracket *) right. destruct (no_app _ _ Hn) as [_ Hn1].
    assert (Hm : rmatch arguments_re (lit "[" ++ s) = None).
    { unfold arguments_re. rewrite rmatch_lit. rewrite <- (app_nil_r s). rewrite rmatch_rep_none; [reflexivity|apply any_all, Hn1|discriminate|].
      intros b c -> _. rewrite app_nil_r. destruct c as [|x c]; [reflexivity|]. cbn [rmatch]. change (lit "]") with [93%N]. cbn [startswith].
      destruct (N.eqb_spec 93 x) as [<-|]; [|reflexivity]. cbn [length skipn andb]. destruct c as [|y c]; [|reflexivity].
      exfalso. exact (H b eq_refl). }
    apply (plain 91%N); [left; reflexivity|discriminate|exact H0|].
    unfold classify, line_rules. cbn [first_rule]. rewrite Hm. lit_nones. reflexivity.
  - (* dash *) right. destruct (no_app _ _ Hn) as [_ Hn1].
    assert (Hm : rmatch hr_re (lit "-" ++ s) = None).
    { unfold hr_re. change (lit "-" ++ s) with (45%N :: s). cbn [rmatch]. change (lit "---") with [45%N; 45%N; 45%N]. cbn [startswith].
      destruct s as [|a s]; [reflexivity|]. destruct (N.eqb_spec 45 a) as [<-|]; [|reflexivity].
      destruct s as [|b s]; [reflexivity|]. destruct (N.eqb_spec 45 b) as [<-|]; [|reflexivity].
      cbn [andb length skipn]. change ((45 =? 45)%N) with true. cbv iota beta. cbn [andb]. destruct s; [exfalso; exact (H eq_refl)|reflexivity]. }
    apply (plain 45%N); [left; reflexivity|discriminate|exact H0|].
    unfold classify, line_rules. cbn [first_rule]. rewrite Hm. lit_nones. reflexivity.
  - (* slash *) right.
    assert (Hm : rmatch comment_re (lit "/" ++ s) = None).
    { unfold comment_re. change (lit "/" ++ s) with (47%N :: s). cbn [rmatch]. change (lit "//") with [47%N; 47%N]. cbn [startswith].
      destruct s as [|a s]; [reflexivity|]. destruct (N.eqb_spec 47 a) as [<-|]; [|reflexivity]. exfalso. apply (H _ _ eq_refl). left; reflexivity. }
    apply (plain 47%N); [left; reflexivity|discriminate| |].
    + intros c E. injection E as <- ->. apply (H _ _ eq_refl). left; reflexivity.
    + unfold classify, line_rules. cbn [first_rule]. rewrite Hm. lit_nones. reflexivity.
  - (* colon *) right.
    assert (Hm : rmatch variable_re (lit ":" ++ s) = None).
    { unfold variable_re. rewrite rmatch_lit. cbn [rmatch]. destruct s as [|a s]; [reflexivity|]. cbn [run_length].
      rewrite (hd_not_b _ _ _ name_chr_spec H a s eq_refl). reflexivity. }
    apply (plain 58%N); [left; reflexivity|discriminate|exact H0|].
    unfold classify, line_rules. cbn [first_rule]. rewrite Hm. lit_nones. reflexivity.
  - (* at *) right.
    assert (Hm : rmatch control_re (lit "@" ++ s) = None).
    { unfold control_re. rewrite rmatch_lit. cbn [rmatch]. destruct s as [|a s]; [reflexivity|]. cbn [run_length].
      rewrite (hd_not_b _ _ _ lower_spec H a s eq_refl). reflexivity. }
    apply (plain 64%N); [left; reflexivity|discriminate|exact H0|].
    unfold classify, line_rules. cbn [first_rule]. rewrite Hm. lit_nones. reflexivity.
  - (* angle *) right.
    assert (Hm : rmatch include_re (lit "<" ++ s) = None).
    { unfold include_re. change (lit "<" ++ s) with (60%N :: s). cbn [rmatch]. change (lit "<<") with [60%N; 60%N]. cbn [startswith].
      destruct s as [|a s]; [reflexivity|]. destruct (N.eqb_spec 60 a) as [<-|]; [|reflexivity]. exfalso. apply (H _ _ eq_refl). left; reflexivity. }
    apply (plain 60%N); [left; reflexivity|discriminate| |].
    + intros c E. injection E as <- ->. apply (H _ _ eq_refl). left; reflexivity.
    + unfold classify, line_rules. cbn [first_rule]. rewrite Hm. lit_nones. reflexivity.
  - (* angles *) right.
    assert (Hm : rmatch include_re (lit "<<" ++ sps k ++ s) = None).
    { unfold include_re. rewrite rmatch_lit. rewrite rmatch_rep_none; [reflexivity|apply sps_all| |].
      - apply (hd_not_b _ _ _ sp_spec). apply (hd_not_weak _ (fun c => include_char c \/ c = SP)); [|exact H]. intros c [<-|[]]. right; reflexivity.
      - intros b c E _. destruct c as [|x c].
        + cbn [app rmatch]. destruct s as [|a s]; [reflexivity|]. cbn [run_length].
          rewrite (hd_not_b _ _ _ include_chr_spec (hd_not_weak _ _ _ (fun c H => or_introl H) H) a s eq_refl). reflexivity.
        + assert (Hx : In x (sps k)) by (rewrite E; apply in_or_app; right; left; reflexivity). apply repeat_spec in Hx. subst x. reflexivity. }
    apply (plain 60%N); [left; reflexivity|discriminate|exact H0|].
    unfold classify, line_rules. cbn [first_rule]. rewrite Hm. lit_nones. reflexivity.
Qed.
