(* PropertiesMessages.v -- what the user is told when a run fails *)
From Verif Require Import SpecManagers SpecPlaces LexerThms PropertiesManagers PropertiesDoc PropertiesInclude PropertiesPlaces Messages PropertiesCli.
#[local] Notation length := List.length.

(* A line that shows a place: the name of the source, then the first line and column
   and the last ones, in decimal digits. *)
Definition shows_place (s : str) (src : str) (line1 column1 line2 column2 : nat) : Prop :=
  exists a b c d, s = src ++ lit ":" ++ a ++ lit "," ++ b ++ lit "-" ++ c ++ lit "," ++ d /\
    SpecManagers.writes a line1 /\ SpecManagers.writes b column1 /\ SpecManagers.writes c line2 /\ SpecManagers.writes d column2.
(* A line that shows a position. *)
Definition shows_position (s : str) (line column : nat) : Prop :=
  exists a b, s = lit "(" ++ a ++ lit ", " ++ b ++ lit ")" /\ SpecManagers.writes a line /\ SpecManagers.writes b column.

(* The lines of a log tell that there is an error with this text, in the lines from lo
   to hi of the source, counting from 1. *)
Definition tells (log : list str) (text : string) (src : str) (lo hi : nat) : Prop :=
  (exists place line1 column1 line2 column2,
     log = [lit "Parser error: " ++ lit text; lit "Context: " ++ place] /\
     shows_place place src line1 column1 line2 column2 /\ lo <= line1 <= hi /\ lo <= line2 <= S hi) \/
  (exists place line column,
     log = [lit "Lexer error: " ++ lit text; lit "Source: " ++ src; lit "Position: " ++ place] /\
     shows_position place line column /\ lo <= line <= hi).

Definition message_text (m : message) : string := match m with MsgLexer t _ _ | MsgParser t _ | MsgVisitor t _ _ => t end.

(* ---- the numbers can be read back *)
Lemma decimal_digits s : forall acc n, decimal acc s = Some n -> Forall (fun c => is_digit c = true) s.
Proof. induction s as [|c s IH]; intros acc n H; constructor; cbn [decimal] in H; destruct (is_digit c) eqn:E; try discriminate H; [reflexivity|eauto]. Qed.
Lemma writes_no c s n : is_digit c = false -> SpecManagers.writes s n -> ~ In c s.
Proof. intros Hc [_ H] Hin. apply decimal_digits in H. rewrite Forall_forall in H. apply H in Hin. congruence. Qed.
Lemma writes_fun s n m : SpecManagers.writes s n -> SpecManagers.writes s m -> n = m.
Proof. intros [_ H] [_ K]. congruence. Qed.
Lemma cut_first (c : N) (a a' b b' : str) : ~ In c a -> ~ In c a' -> a ++ c :: b = a' ++ c :: b' -> a = a' /\ b = b'.
Proof.
  revert a'. induction a as [|x a IH]; intros [|y a'] H H' E; cbn [app] in E.
  - split; [reflexivity|congruence].
  - destruct H'. left. congruence.
  - destruct H. left. congruence.
  - assert (E2 : a ++ c :: b = a' ++ c :: b') by congruence. assert (x = y) as -> by congruence. destruct (IH a') as [-> ->]; [intros K; apply H; right; exact K|intros K; apply H'; right; exact K|exact E2|]. split; congruence.
Qed.
Lemma cut_last (c : N) (a a' b b' : str) : ~ In c b -> ~ In c b' -> a ++ c :: b = a' ++ c :: b' -> a = a' /\ b = b'.
Proof.
  intros H H' E. assert (E1 : rev b ++ c :: rev a = rev b' ++ c :: rev a').
  { apply (f_equal (@rev N)) in E. rewrite !rev_app_distr in E. cbn [rev] in E. rewrite <- !app_assoc in E. exact E. }
  apply cut_first in E1 as [E1 E2]; [|rewrite <- in_rev; assumption|rewrite <- in_rev; assumption].
  apply (f_equal (@rev N)) in E1, E2. rewrite !rev_involutive in *. auto.
Qed.

(* C77: a place is read from the log in one way only, whatever the name of the source is. *)
Theorem C77_place_read s src l1 c1 l2 c2 src' l1' c1' l2' c2' :
  shows_place s src l1 c1 l2 c2 -> shows_place s src' l1' c1' l2' c2' ->
  src = src' /\ l1 = l1' /\ c1 = c1' /\ l2 = l2' /\ c2 = c2'.
Proof.
  intros (a & b & c & d & -> & Ha & Hb & Hc & Hd) (a' & b' & c' & d' & E & Ha' & Hb' & Hc' & Hd').
  assert (N : forall x, is_digit x = false -> ~ In x a /\ ~ In x b /\ ~ In x c /\ ~ In x d /\ ~ In x a' /\ ~ In x b' /\ ~ In x c' /\ ~ In x d') by (intros x Hx; repeat split; eapply writes_no; eassumption).
  change (lit ":") with [58%N] in *. change (lit ",") with [44%N] in *. change (lit "-") with [45%N] in *. cbn [app] in E.
  apply cut_last in E as [-> E].
  2,3: destruct (N 58%N eq_refl) as (?&?&?&?&?&?&?&?); rewrite ?in_app_iff; cbn [In]; rewrite ?in_app_iff; cbn [In]; rewrite ?in_app_iff; cbn [In];
       intros K; repeat (destruct K as [K|K]; [first [discriminate K|contradiction|idtac]|]); first [contradiction|idtac].
  destruct (N 44%N eq_refl) as (?&?&?&?&?&?&?&?). apply cut_first in E as [<- E]; [|assumption..].
  destruct (N 45%N eq_refl) as (?&?&?&?&?&?&?&?). apply cut_first in E as [<- E]; [|assumption..].
  apply cut_first in E as [<- <-]; [|assumption..].
  repeat split; eapply writes_fun; eassumption.
Qed.
Theorem C77_position_read s l c l' c' : shows_position s l c -> shows_position s l' c' -> l = l' /\ c = c'.
Proof.
  intros (a & b & -> & Ha & Hb) (a' & b' & E & Ha' & Hb'). change (lit "(") with [40%N] in *. change (lit ", ") with [44%N; 32%N] in *. change (lit ")") with [41%N] in *. cbn [app] in E.
  injection E as E. apply cut_first in E as [<- E]; [|eapply writes_no; [|eassumption]; reflexivity..]. injection E as E.
  apply app_inj_tail in E as [<- _]. split; eapply writes_fun; eassumption.
Qed.

(* C77: without a source (or if its name is empty), only the lines and columns are shown. *)
Theorem C77_no_source c : c_source c = None \/ c_source c = Some [] ->
  exists k l m n, write_context c = k ++ lit "," ++ l ++ lit "-" ++ m ++ lit "," ++ n /\
    SpecManagers.writes k (c_start_line c) /\ SpecManagers.writes l (c_start_column c) /\ SpecManagers.writes m (c_end_line c) /\ SpecManagers.writes n (c_end_column c).
Proof.
  intros E. exists (str_of_nat (c_start_line c)), (str_of_nat (c_start_column c)), (str_of_nat (c_end_line c)), (str_of_nat (c_end_column c)).
  split; [unfold write_context; destruct E as [-> | ->]; reflexivity|]. repeat split; apply str_of_nat_writes.
Qed.

(* ---- what is logged for a message *)
Lemma context_shown c src : c_source c = Some src -> src <> [] -> shows_place (write_context c) src (c_start_line c) (c_start_column c) (c_end_line c) (c_end_column c).
Proof.
  intros E H. unfold write_context. rewrite E. destruct src as [|ch src]; [congruence|].
  exists (str_of_nat (c_start_line c)), (str_of_nat (c_start_column c)), (str_of_nat (c_end_line c)), (str_of_nat (c_end_column c)).
  split; [rewrite <- app_assoc; reflexivity|]. repeat split; apply str_of_nat_writes.
Qed.
(* The place of an error is logged with the lines counted from 1. *)
Theorem C77_logged m src lo hi : src <> [] -> placed (Some src) lo hi m -> tells (log_message m) (message_text m) src (S lo) (S hi).
Proof.
  intros Hs H. destruct m as [t s p|t [c|]|t ? ?]; cbn [placed] in H; try contradiction.
  - destruct H as [-> H]. right. exists (write_position (adjust_position p)), (fst p + 1), (snd p). split; [reflexivity|]. split; [|lia].
    exists (str_of_nat (fst p + 1)), (str_of_nat (snd p)). split; [reflexivity|]. split; apply str_of_nat_writes.
  - destruct H as (E & H1 & H2). left. exists (write_context (adjust_context c)), (c_start_line c + 1), (c_start_column c + 0), (c_end_line c + 1), (c_end_column c + 0).
    split; [reflexivity|]. split; [apply (context_shown (adjust_context c) src E Hs)|]. lia.
Qed.

Lemma log_fail (b : bool) m en : logged ((if b then [PrintTokens] else []) ++ [PrintMessage m], en) = log_message m.
Proof. destruct b; unfold logged; cbn [fst app flat_map]; apply app_nil_r. Qed.

(* The number of lines of a text (there is one even if it is empty). *)
Definition count_lines (text : str) : nat := Nat.max 1 (length (text_lines text)).
Lemma count_last text : S (last_line text 0) = count_lines text.
Proof. unfold last_line, count_lines. lia. Qed.

(* C77: when the document cannot be read the run ends with 1, writes no file, and what
   it logs is the error with a place in the input, or in a file that is included (or
   the error of C76 about footnotes). *)
Theorem C77_run w a e text m :
  main_environment w a = Ok e -> wd_text w (op_input a) = Ok text -> op_input a <> [] -> op_lexer_only a = false -> calm_env e ->
  (forall uri t, cf_files (wd_config w) uri = File t -> uri <> []) ->
  let o := mkOrigin 0 0 (Some (op_input a)) in
  parse_document (wd_depth w) (wd_config w) e text o = Exc (ExMau m) ->
  nameless (wd_config w) (wd_depth w) e 0 [] [] text o \/
  (snd (main w a) = Exit 1 /\ (forall f, ~ writes (main w a) f) /\
   (tells (logged (main w a)) (message_text m) (op_input a) 1 (count_lines text) \/
    (exists uri t, cf_files (wd_config w) uri = File t /\ tells (logged (main w a)) (message_text m) uri 1 (count_lines t)) \/
    m = twice)).
Proof.
  intros E1 E2 Hi Hl He Hf o Hp. destruct (C76_document _ _ _ _ _ _ He Hp) as [K|K]; [left; exact K|right].
  assert (Hm : (lex_document (buffer text o) = Exc (ExMau m)) \/ exists toks, lex_document (buffer text o) = Ok toks).
  { destruct (lex_document (buffer text o)) as [toks|x] eqn:El; [right; eauto|left]. unfold parse_document in Hp. destruct (wd_depth w) as [|d]; cbn [dp_run] in Hp; [discriminate Hp|]. rewrite El in Hp. cbn [rbind] in Hp. congruence. }
  destruct (C62_error_reported w a e text m E1 E2) as (R1 & _ & R3).
  { destruct Hm as [Hm|Hm]; [left; exact Hm|right]. split; [exact Hl|]. split; [exact Hm|]. left. exact Hp. }
  split; [exact R1|]. split; [exact R3|].
  assert (L : logged (main w a) = log_message m).
  { unfold main. rewrite E1. cbn [rbind]. rewrite E2. cbn [rbind]. fold o. destruct Hm as [Hm|[toks Hm]]; rewrite Hm.
    - apply (log_fail false).
    - rewrite Hl, Hp. apply log_fail. }
  rewrite L. cbn [o_source o_line o] in K. destruct K as [K|[(uri & t & Ef & K)|K]].
  - left. rewrite <- count_last. apply C77_logged; assumption.
  - right; left. exists uri, t. split; [exact Ef|]. rewrite <- count_last. apply C77_logged; [eapply Hf; exact Ef|exact K].
  - right; right. exact K.
Qed.

(* With the lexer only, its errors are logged in the same way. *)
Theorem C77_lexer w a e text m :
  main_environment w a = Ok e -> wd_text w (op_input a) = Ok text -> op_input a <> [] ->
  lex_document (buffer text (mkOrigin 0 0 (Some (op_input a)))) = Exc (ExMau m) ->
  snd (main w a) = Exit 1 /\ (forall f, ~ writes (main w a) f) /\ tells (logged (main w a)) (message_text m) (op_input a) 1 (count_lines text).
Proof.
  intros E1 E2 Hi El. destruct (C62_error_reported w a e text m E1 E2 (or_introl El)) as (R1 & _ & R3). split; [exact R1|]. split; [exact R3|].
  assert (L : logged (main w a) = log_message m).
  { unfold main. rewrite E1. cbn [rbind]. rewrite E2. cbn [rbind]. rewrite El. apply (log_fail false). }
  rewrite L, <- count_last. apply C77_logged; [exact Hi|].
  unfold buffer in El. cbn [o_line o_column o_source] in El. apply doc_errors in El as (i & Hlt & _ & K).
  assert (P : forall msg, placed (Some (op_input a)) 0 (last_line text 0) (MsgLexer msg (Some (op_input a)) (shifted 0 0 (i, 0)))) by (intros msg; split; [reflexivity|]; unfold last_line, shifted; cbn [fst]; lia).
  destruct K as [[_ K]|(c & _ & _ & K)]; injection K as ->; apply P.
Qed.

(* The log of runs that fail. *)
Example C77_ex : map (fun t => logged (main (world1 "a.mau" (mau t)) (options1 "a.mau"))) ["one {x}"; "a||b|{none}|c"; "a||////|b"; "= A||ok"]%string = [[lit "Parser error: Variable has not been defined."; lit "Context: a.mau:1,4-1,7"]; [lit "Parser error: Variable has not been defined."; lit "Context: a.mau:4,0-4,6"]; [lit "Lexer error: Unclosed multiline comment."; lit "Source: a.mau"; lit "Position: (3, 0)"]; []].
Proof. vm_compute. reflexivity. Qed.
