(* PropertiesPages.v -- C86: a document written with the grammar of SpecPages gives what was written *)
From Coq Require Import Permutation.
From Verif Require Export PagesFacts.
From Verif Require Import PropertiesDoc PropertiesCases PropertiesText PropertiesArgs SpecArgs SpecText SpecPre SpecPages.

(* Every document written with the grammar is read without an error, gives one node for each
   page that is shown, in order, with the text, the arguments and the labels that were written
   -- those of the files it includes in the nodes of the includes -- and the environment has
   the variables that were defined. *)
Theorem C86_pages n cf e ps us ls V' o : lays (cf_files cf) (o_source o) n (given e) None None [] ps us ls V' -> linked us -> Forall (no_chr NL) ls ->
  2 <= cf_depth cf -> NoDup (keys e) -> well_configured e ->
  exists x, parse_document (S n) cf e (join [NL] ls) o = Ok x /\ Forall2 is_page (dx_nodes x) ps /\ forall k, dget k (dx_env x) = V' k.
Proof.
  intros H L Hn Hc N W. destruct (cf_depth cf) as [|[|d]] eqn:Ed; [lia..|].
  pose proof (file_readable cf (o_source o) n _ _ _ _ _ H (lays_readable cf d Ed _ _ _ _ _ _ _ _ _ _ H Hn) Hn) as K.
  destruct (run_readable cf n _ ps us _ e _ 0 [] [] o _ K eq_refl (like_given e N W) L) as (y & E & F & G & _); [intros f _ []|]. exists y. split; [exact E|]. split; [exact F|exact (el_get _ _ G)].
Qed.

(* ------------------------------------------------ an example *)
Definition simple (s : str) : bool :=
  forallb (fun c => negb (mem_chr c (MARKUP ++ lit "\`{}" ++ [NL]))) s &&
  match rev s with [] => false | c :: _ => negb (N.eqb c SP) end.
Lemma simple_chars s : simple s = true -> forall c, In c s -> ~ In c (MARKUP ++ lit "\`{}" ++ [NL]).
Proof.
  intros H c Hc K. apply andb_prop in H as [H _]. rewrite forallb_forall in H. specialize (H c Hc). apply negb_true_iff in H.
  apply mem_chr_In in K. congruence.
Qed.
Lemma simple_means V s : simple s = true -> means V [IText s] s.
Proof.
  intros H. pose proof (simple_chars s H) as C. exists s, 0. cbn [repeat]. rewrite app_nil_r. split; [|split; [|split; [|discriminate]]].
  - exists [], s. split; [reflexivity|]. split; [split; [constructor|]|reflexivity]. intros c Hc. specialize (C c Hc). rewrite !in_app_iff in C. split; [tauto|]. intros ->. apply C. cbn; tauto.
  - apply cn_text. rewrite <- (app_nil_r s) at 2. constructor; [intros ->; discriminate H| |intros (u & r & E); discriminate E|constructor].
    clear H. induction s as [|c s IH]; constructor.
    + specialize (C c (or_introl eq_refl)). rewrite in_app_iff in C. tauto.
    + specialize (C c (or_introl eq_refl)). rewrite !in_app_iff in C. intros ->. apply C. cbn; tauto.
    + apply IH. intros c' Hc'. apply C. right. exact Hc'.
  - apply andb_prop in H as [_ H]. unfold no_space_end. destruct (rev s) as [|c r]; [discriminate H|]. cbn. intros [= ->]. discriminate H.
Qed.
Ltac in_cases := try unfold all_chars; match goal with |- forall c, In c _ -> _ => let c := fresh in let H := fresh in intros c H; vm_compute in H; repeat (destruct H as [<-|H]; [vm_compute; intuition discriminate|]); destruct H end.

Lemma usual_arguments V l s : (exists w, becomes V s w /\ writes_args l w /\ ~ misplaced l /\ Forall single_mark (unnamed_of l) /\
    marked_with AT (unnamed_of l) = [] /\ length (marked_with STAR (unnamed_of l)) <= 1) -> SpecPages.arguments V l s.
Proof. intros (w & H1 & H2 & H3 & H4 & H5 & H6). exists l, w. repeat (split; [assumption|]). left. split; [exact H5|reflexivity]. Qed.
Definition example_lines : list str := map lit
 ["// a comment"; "= Title"; ""; "[one, #tag, *sub, k=v]"; ".Some label"; "A *bold* text"; "on two lines."; "---"; "* one"; "## two"; "* three"; "";
  "[engine=raw]"; "++++"; "raw *text*"; ""; "++++"; "----"; "Inside."; "----"]%string.
Definition txt (s : string) : line := [IText (lit s)].
Definition example_pages : list page :=
  [PHeading None [] 1 (txt "Title");
   PParagraph (Some [Pos (lit "one"); Pos (lit "#tag"); Pos (lit "*sub"); Key (lit "k") (lit "v")]) [(lit "title", txt "Some label")]
     [[IText (lit "A "); IStyle Star (txt "bold"); IText (lit " text")]; txt "on two lines."];
   PRule None [];
   PList None [] false [Item (txt "one"); Sub true [Item (txt "two")]; Item (txt "three")];
   PRaw (Some [Key (lit "engine") (lit "raw")]) [] [lit "raw *text*"; []];
   PBlock None [] [PParagraph None [] [txt "Inside."]]].
Lemma lays_eq F src n V c a l ps us ls V' ps2 us2 W : lays F src n V c a l ps us ls V' -> ps = ps2 -> us = us2 -> V' = W -> lays F src n V c a l ps2 us2 ls W.
Proof. intros H -> -> ->. exact H. Qed.
Example C86_ex : lays (cf_files cf0) None 1 (given env_empty) None None [] example_pages [] example_lines (given env_empty) /\ Forall (no_chr NL) example_lines /\
  2 <= cf_depth cf0 /\ well_configured env_empty /\
  match parse_document 2 cf0 env_empty (join [NL] example_lines) (mkOrigin 0 0 None) with Ok x => length (dx_nodes x) = 6 | Exc _ => False end.
Proof.
  split; [|split; [|split; [|split]]].
  - unfold example_lines. cbn [map]. eapply lays_eq.
    eapply (lay_comment 1 (given env_empty) None None [] (lit " a comment")); [discriminate|].
    eapply (lay_heading 1 (given env_empty) None None [] true _ 0 (lit "Title")).
    { apply (r_header 0 1 (lit "Title")); [discriminate| |discriminate]. intros c r E. injection E as <- _. cbn. intuition discriminate. }
    { apply simple_means. reflexivity. } { reflexivity. }
    eapply (lay_blank 1 (given env_empty) None None [] 0).
    eapply (lay_arguments 1 (given env_empty) None None [] [Pos (lit "one"); Pos (lit "#tag"); Pos (lit "*sub"); Key (lit "k") (lit "v")] (lit "one, #tag, *sub, k=v")).
    { apply usual_arguments. exists (lit "one, #tag, *sub, k=v"). split; [|split; [|split; [|split; [|split; [reflexivity|apply le_n]]]]].
      - exists [], (lit "one, #tag, *sub, k=v"). split; [reflexivity|]. split; [split; [constructor|]|reflexivity]. unfold no_meaning. in_cases.
      - assert (B : forall s, forallb (fun c => negb (mem_chr c (lit "\=, " ++ [QUOTE; NL]))) s = true -> s <> [] -> SpecArgs.writes s s).
        { intros s H Hs. apply w_bare. rewrite forallb_forall in H.
          assert (C : forall c, In c s -> ~ In c (lit "\=, " ++ [QUOTE; NL])) by (intros c Hc K; specialize (H c Hc); apply negb_true_iff in H; apply mem_chr_In in K; congruence).
          split; [|split; [exact Hs|split]].
          - intros c Hc. specialize (C c Hc). split; [intros K; apply C; cbn in K |- *; tauto|intros ->; apply C; cbn; tauto].
          - intros K. destruct s as [|c s]; [discriminate|]. cbn in K. injection K as ->. apply (C SP (or_introl eq_refl)). cbn. tauto.
          - intros K. destruct (rev s) as [|c r] eqn:E; [discriminate|]. cbn in K. injection K as ->. apply (C SP); [apply in_rev; rewrite E; left; reflexivity|cbn; tauto]. }
        apply (ws_cons (Pos (lit "one")) (lit "one") 1 _ (lit "#tag, *sub, k=v")); [constructor; apply B; [reflexivity|discriminate]|].
        apply (ws_cons (Pos (lit "#tag")) (lit "#tag") 1 _ (lit "*sub, k=v")); [constructor; apply B; [reflexivity|discriminate]|].
        apply (ws_cons (Pos (lit "*sub")) (lit "*sub") 1 _ (lit "k=v")); [constructor; apply B; [reflexivity|discriminate]|].
        apply ws_one. apply (wa_key (lit "k") (lit "v") (lit "v")); [|apply B; [reflexivity|discriminate]]. split; [discriminate|]. in_cases.
      - intros (a & k & v & b & w & c & E). destruct a as [|? [|? [|? [|? a]]]]; cbn [app] in E; inversion E; match goal with H : [] = ?b ++ _ :: _ |- _ => destruct b; discriminate H end.
      - repeat constructor; cbn; intros; try reflexivity; intuition discriminate. }
    eapply (lay_label 1 (given env_empty) None _ [] _ [] (lit "Some label") (txt "Some label")).
    { apply (r_label [] 0 (lit "Some label")); [intros c []| | |].
      - intros c r E. injection E as <- _. cbn. intuition discriminate.
      - intros _ c r E. injection E as <- _. vm_compute. intuition discriminate.
      - intros c E. discriminate E. }
    { apply simple_means. reflexivity. }
    eapply (lay_paragraph 1 (given env_empty) None _ _ true [[IText (lit "A "); IStyle Star (txt "bold"); IText (lit " text")]; txt "on two lines."] (map lit ["A *bold* text"; "on two lines."]%string)); [discriminate| | | |].
    { constructor; [split|constructor; [split; [apply simple_means; reflexivity|]|constructor]].
      - exists (lit "A *bold* text"), 0. split; [|split; [|split; [discriminate|discriminate]]].
        + exists [], (lit "A *bold* text"). split; [reflexivity|]. split; [split; [constructor|]|reflexivity]. unfold no_meaning. in_cases.
        + assert (T : forall s, forallb (fun c => negb (mem_chr c (MARKUP ++ [NL]))) s = true -> text_written s s).
          { intros s H. induction s as [|c s IH]; [constructor|]. cbn [forallb] in H. apply andb_prop in H as [H1 H2]. apply negb_true_iff in H1.
            assert (C : ~ In c (MARKUP ++ [NL])) by (intros K; apply mem_chr_In in K; congruence). rewrite in_app_iff in C. constructor; [tauto|intros ->; apply C; cbn; tauto|auto]. }
          apply cn_text, (wr_text None (lit "A ") (lit "A ") _ (lit "*bold* text")); [discriminate|apply T; reflexivity|intros (u & r & E); discriminate E|].
          apply (wr_style None Star (txt "bold") (lit "bold") _ (lit " text")); [discriminate| |].
          * apply (wr_text _ (lit "bold") (lit "bold") [] []); [discriminate|apply T; reflexivity|intros (u & r & E); discriminate E|constructor].
          * apply (wr_text None (lit " text") (lit " text") [] []); [discriminate|apply T; reflexivity|intros (u & r & E); discriminate E|constructor].
      - apply (r_text (chr "A") (lit " *bold* text")); [vm_compute; intuition discriminate|intros c E; discriminate E].
      - apply (r_text (chr "o") (lit "n two lines.")); [vm_compute; intuition discriminate|intros c E; discriminate E]. }
    { apply (cut_line _ T_HORIZONTAL_RULE (lit "---") []); [constructor|discriminate]. }
    { reflexivity. }
    eapply (lay_rule 1 (given env_empty) None None [] true); [reflexivity|].
    eapply (lay_list 1 (given env_empty) None None [] true 1 false 1%Z (txt "one") [Sub true [Item (txt "two")]; Item (txt "three")] (lit "*") (lit "one") [(lit "##", lit "two"); (lit "*", lit "three")] (map lit ["* one"; "## two"; "* three"]%string)).
    { constructor; [split; [reflexivity|discriminate]|apply simple_means; reflexivity|].
      apply (en_sub _ 1 2 true (txt "two") [] (lit "##") (lit "two") [] [Item (txt "three")] [(lit "*", lit "three")]); [auto| | | |].
      - constructor; [split; [reflexivity|discriminate]|apply simple_means; reflexivity|constructor].
      - split; [intros _; exists (lit "#"); reflexivity|reflexivity].
      - intros (o & l & r & E). discriminate E.
      - constructor; [split; [reflexivity|discriminate]|apply simple_means; reflexivity|constructor]. }
    { split; [discriminate|]. intros (r & E). discriminate E. }
    { reflexivity. }
    { constructor; [|constructor; [|constructor; [|constructor]]].
      - apply (r_list 0 (lit "*") 0 (lit "one")); [discriminate| |]; [in_cases|intros c r E; injection E as <- _; cbn; intuition discriminate].
      - apply (r_list 0 (lit "##") 0 (lit "two")); [discriminate| |]; [in_cases|intros c r E; injection E as <- _; cbn; intuition discriminate].
      - apply (r_list 0 (lit "*") 0 (lit "three")); [discriminate| |]; [in_cases|intros c r E; injection E as <- _; cbn; intuition discriminate]. }
    { constructor. }
    { reflexivity. }
    eapply (lay_blank 1 (given env_empty) None None [] 0).
    eapply (lay_arguments 1 (given env_empty) None None [] [Key (lit "engine") (lit "raw")] (lit "engine=raw")).
    { apply usual_arguments. exists (lit "engine=raw"). split; [|split; [|split; [|split; [|split; [reflexivity|apply Nat.le_0_l]]]]].
      - exists [], (lit "engine=raw"). split; [reflexivity|]. split; [split; [constructor|]|reflexivity]. unfold no_meaning. in_cases.
      - apply ws_one. apply (wa_key (lit "engine") (lit "raw") (lit "raw")); [split; [discriminate|in_cases]|]. apply w_bare. split; [in_cases|]. split; [discriminate|]. split; discriminate.
      - intros (a & k & v & b & w & c & E). destruct a as [|? a]; [injection E as _ _ E; destruct b; discriminate E|]. destruct a; discriminate E.
      - constructor. }
    eapply (lay_raw 1 (given env_empty) None _ [] true (chr "+") [lit "raw *text*"; []]); [repeat split; discriminate|intros [E|[E|[]]]; discriminate E|reflexivity|left; reflexivity|split; [left; left; reflexivity|discriminate]|discriminate|reflexivity|].
    eapply (lay_block 0 (given env_empty) None None [] true (chr "-") [PParagraph None [] [txt "Inside."]] [] [lit "Inside."] (given env_empty) [] [] []);
      [repeat split; discriminate|intros [E|[]]; discriminate E|left; reflexivity|left; reflexivity|split; [left; left; reflexivity|discriminate]| |repeat split; try constructor; intros ? []|reflexivity|constructor].
    eapply (lay_paragraph 0 (given env_empty) None None [] true [txt "Inside."] [lit "Inside."]); [discriminate| |constructor|reflexivity|constructor].
    constructor; [split; [apply simple_means; reflexivity|]|constructor]. apply (r_text (chr "I") (lit "nside.")); [vm_compute; intuition discriminate|intros c E; discriminate E].
    all: reflexivity.
  - repeat (constructor; [vm_compute; intuition discriminate|]). constructor.
  - cbn. lia.
  - constructor.
  - vm_compute. reflexivity.
Qed.
Print Assumptions C86_pages.

(* Variables, a condition that fails, a named heading, a footnote, links and includes. *)
Definition env2 : env := [(lit "who", EStr (lit "you"))].
Definition lines2 : list str := map lit
 [":lang:Coq"; ":+draft:"; "[name=top]"; "= On {lang}"; "@if lang==Perl"; "---"; "See [footnote](n1) in [header](top)."; "[footnote=n1]"; "----"; "The note."; "----";
  "@if draft!=false"; "Thanks, {who}."; "<< toc"; "<< widget:x=1"]%string.
Definition pages2 : list page :=
  [PHeading (Some [Key (lit "name") (lit "top")]) [] 1 (txt "On Coq");
   PParagraph None [] [[IText (lit "See "); IFoot (lit "n1"); IText (lit " in "); IHead (lit "top"); IText (lit ".")]];
   PParagraph None [] [txt "Thanks, you."];
   PInclude None [] (lit "toc"); PInclude (Some [Key (lit "x") (lit "1")]) [] (lit "widget")].
Definition uses2 : list use := [UName (lit "top"); UFoot (lit "n1"); UHead (lit "top"); UBody (lit "n1")].
Definition world2' : world := now (now (given env2) (lit "lang") (lit "Coq")) (lit "draft") (lit "true").
Lemma becomes_itself V s : forallb (fun c => negb (mem_chr c (lit "\`{}" ++ [NL]))) s = true -> becomes V s s.
Proof.
  intros H. exists [], s. split; [reflexivity|]. split; [split; [constructor|]|reflexivity]. rewrite forallb_forall in H. intros c Hc. specialize (H c Hc). apply negb_true_iff in H. split; [intros K|intros ->].
  - assert (mem_chr c (lit "\`{}" ++ [NL]) = true) as X by (apply mem_chr_In, in_app_iff; left; exact K). congruence.
  - discriminate H.
Qed.
Lemma plain_written s : forallb (fun c => negb (mem_chr c (MARKUP ++ [NL]))) s = true -> text_written s s.
Proof.
  intros H. induction s as [|c s IH]; [constructor|]. cbn [forallb] in H. apply andb_prop in H as [H1 H2]. apply negb_true_iff in H1.
  assert (C : ~ In c (MARKUP ++ [NL])) by (intros K; apply mem_chr_In in K; congruence). rewrite in_app_iff in C. constructor; [tauto|intros ->; apply C; cbn; tauto|auto].
Qed.
Lemma simple_arguments V (k v : string) : forallb (fun c => negb (mem_chr c (lit "\`{}" ++ [NL]))) (lit k ++ lit "=" ++ lit v) = true -> SpecArgs.key_ok (lit k) -> SpecArgs.writes (lit v) (lit v) ->
  SpecPages.arguments V [Key (lit k) (lit v)] (lit k ++ lit "=" ++ lit v).
Proof.
  intros H Hk Hw. apply usual_arguments. exists (lit k ++ lit "=" ++ lit v). split; [apply becomes_itself, H|]. split; [apply ws_one; apply (wa_key (lit k) (lit v) (lit v)); assumption|].
  split; [|split; [constructor|split; [reflexivity|apply Nat.le_0_l]]].
  intros (a & k' & v' & b & w & c & E). destruct a as [|? a]; [injection E as _ _ E; destruct b; discriminate E|]. destruct a; discriminate E.
Qed.
Lemma ordinary_name k : forallb (fun f => negb (str_eqb k f) && negb (startswith (f ++ [DOT]) k)) FUNCTIONS = true -> ordinary k.
Proof.
  intros H f Hf. rewrite forallb_forall in H. apply H, andb_prop in Hf as [H1 H2]. apply negb_true_iff in H1, H2. split; [intros ->; rewrite str_eqb_refl in H1; discriminate|].
  intros r ->. rewrite (proj2 (startswith_spec _ _)) in H2; [discriminate|]. exists r. rewrite <- app_assoc. reflexivity.
Qed.
Ltac bare_value := apply w_bare; split; [in_cases|split; [discriminate|split; discriminate]].
Example C86_ex2 : lays (cf_files cf0) None 1 (given env2) None None [] pages2 uses2 lines2 world2' /\ linked uses2 /\ Forall (no_chr NL) lines2 /\
  2 <= cf_depth cf0 /\ NoDup (keys env2) /\ well_configured env2 /\
  match parse_document 2 cf0 env2 (join [NL] lines2) (mkOrigin 0 0 None) with Ok x => length (dx_nodes x) = 5 /\ dget (lit "lang") (dx_env x) = Some (EStr (lit "Coq")) | Exc _ => False end.
Proof.
  split; [|split; [|split; [|split; [|split; [|split]]]]].
  - unfold lines2. cbn [map]. eapply lays_eq.
    eapply (lay_define 1 (given env2) None None [] _ (lit "lang") (lit "Coq") (lit "Coq")).
    { apply (r_variable (lit "lang") (lit "Coq")); [discriminate|in_cases]. } { cbn. intuition discriminate. } { discriminate. } { apply becomes_itself. reflexivity. } { discriminate. } { apply ordinary_name. reflexivity. }
    eapply (lay_flag 1 _ None None [] _ true (lit "draft")).
    { apply (r_variable (lit "+draft") []); [discriminate|in_cases]. } { apply (cut_line _ T_ARGUMENTS (lit "[") [(T_TEXT, lit "name=top"); (T_LITERAL, lit "]")]); [apply (r_arguments (lit "name=top"))|discriminate]. } { apply ordinary_name. reflexivity. }
    eapply (lay_arguments 1 _ None None [] [Key (lit "name") (lit "top")] (lit "name=top")).
    { apply (simple_arguments _ "name" "top"); [reflexivity|split; [discriminate|in_cases]|bare_value]. }
    eapply (lay_heading 1 _ None _ [] true _ 0 (lit "On {lang}") (txt "On Coq")).
    { apply (r_header 0 1 (lit "On {lang}")); [discriminate| |discriminate]. intros c r E. injection E as <- _. cbn. intuition discriminate. }
    { exists (lit "On Coq"), 0. split; [|split; [|split; [discriminate|discriminate]]].
      - exists [(lit "On ", Ref (lit "lang"))], []. split; [reflexivity|]. split; [split; [constructor; [split; [|cbn]|constructor]|]|reflexivity]; unfold no_meaning; [in_cases|in_cases|intros c []].
      - apply cn_text, (wr_text None (lit "On Coq") (lit "On Coq") [] []); [discriminate|apply plain_written; reflexivity|intros (u & r & E); discriminate E|constructor]. }
    { reflexivity. }
    eapply (lay_condition 1 _ None None [] _ (lit "lang==Perl") (lit "lang", true, lit "Perl")).
    { apply (r_control (lit "if") 1 (lit "lang==Perl")); [discriminate|in_cases| |discriminate]. intros c r E. injection E as <- _. cbn. intuition discriminate. }
    { exists [], []. split; [apply becomes_itself; reflexivity|]. split; [split; [discriminate|in_cases]|]. split; [intros ? []|]. split; [intros ? []|]. split; [vm_compute; intuition discriminate|discriminate]. }
    eapply (lay_rule 1 _ _ None [] false).
    { exists (EStr (lit "Coq")). split; [reflexivity|]. split; [discriminate|intros E; discriminate E]. }
    eapply (lay_paragraph 1 _ None None [] true [[IText (lit "See "); IFoot (lit "n1"); IText (lit " in "); IHead (lit "top"); IText (lit ".")]] [lit "See [footnote](n1) in [header](top)."]).
    { discriminate. }
    { constructor; [split|constructor].
      - exists (lit "See [footnote](n1) in [header](top)."), 0. split; [apply becomes_itself; reflexivity|]. split; [|split; discriminate].
        apply cn_text, (wr_text None (lit "See ") (lit "See ") _ (lit "[footnote](n1) in [header](top).")); [discriminate|apply plain_written; reflexivity|intros (u & r & E); discriminate E|].
        apply (wr_foot None (lit "n1") _ (lit " in [header](top).")); [split; [discriminate|split; [in_cases|intros c r E; injection E as <- _; cbn; intuition discriminate]]|].
        apply (wr_text None (lit " in ") (lit " in ") _ (lit "[header](top).")); [discriminate|apply plain_written; reflexivity|intros (u & r & E); discriminate E|].
        apply (wr_head None (lit "top") _ (lit ".")); [split; [discriminate|split; [in_cases|intros c r E; injection E as <- _; cbn; intuition discriminate]]|].
        apply (wr_text None (lit ".") (lit ".") [] []); [discriminate|apply plain_written; reflexivity|intros (u & r & E); discriminate E|constructor].
      - apply (r_text (chr "S") (lit "ee [footnote](n1) in [header](top).")); [vm_compute; intuition discriminate|intros c E; discriminate E]. }
    { apply (cut_line _ T_ARGUMENTS (lit "[") [(T_TEXT, lit "footnote=n1"); (T_LITERAL, lit "]")]); [apply (r_arguments (lit "footnote=n1"))|discriminate]. }
    { reflexivity. }
    eapply (lay_arguments 1 _ None None [] [Key (lit "footnote") (lit "n1")] (lit "footnote=n1")).
    { apply (simple_arguments _ "footnote" "n1"); [reflexivity|split; [discriminate|in_cases]|bare_value]. }
    eapply (lay_footnote 0 _ _ [] (lit "n1") (chr "-") [PParagraph None [] [txt "The note."]] [] [lit "The note."] _ _ _ _ _);
      [repeat split; discriminate|intros [E|[]]; discriminate E|left; reflexivity|reflexivity|discriminate|discriminate| |repeat split; try constructor; intros ? []|].
    { apply (lay_paragraph 0 _ None None [] true [txt "The note."] [lit "The note."] [] []); [discriminate| |constructor|reflexivity|constructor].
      constructor; [split; [apply simple_means; reflexivity|]|constructor]. apply (r_text (chr "T") (lit "he note.")); [vm_compute; intuition discriminate|intros c E; discriminate E]. }
    eapply (lay_condition 1 _ None None [] _ (lit "draft!=false") (lit "draft", false, lit "false")).
    { apply (r_control (lit "if") 1 (lit "draft!=false")); [discriminate|in_cases| |discriminate]. intros c r E. injection E as <- _. cbn. intuition discriminate. }
    { exists [], []. split; [apply becomes_itself; reflexivity|]. split; [split; [discriminate|in_cases]|]. split; [intros ? []|]. split; [intros ? []|]. split; [vm_compute; intuition discriminate|discriminate]. }
    eapply (lay_paragraph 1 _ _ None [] true [txt "Thanks, you."] [lit "Thanks, {who}."]).
    { discriminate. }
    { constructor; [split|constructor].
      - exists (lit "Thanks, you."), 0. split; [|split; [|split; [discriminate|discriminate]]].
        + exists [(lit "Thanks, ", Ref (lit "who"))], (lit "."). split; [reflexivity|]. split; [split; [constructor; [split; [|cbn]|constructor]|]|reflexivity]; unfold no_meaning; in_cases.
        + apply cn_text, (wr_text None (lit "Thanks, you.") (lit "Thanks, you.") [] []); [discriminate|apply plain_written; reflexivity|intros (u & r & E); discriminate E|constructor].
      - apply (r_text (chr "T") (lit "hanks, {who}.")); [vm_compute; intuition discriminate|intros c E; discriminate E]. }
    { apply (cut_line _ T_INCLUDE (lit "<<") [(T_TEXT, lit "toc")]); [|discriminate]. apply (r_include_bare 1 (lit "toc") []); [discriminate|in_cases|intros c r E; discriminate E]. }
    { exists (EStr (lit "true")). split; [reflexivity|]. split; [intros _ E; discriminate E|reflexivity]. }
    eapply (lay_include 1 _ None None [] true _ (lit "toc") None).
    { apply inc_bare, (r_include_bare 1 (lit "toc") []); [discriminate|in_cases|intros c r E; discriminate E]. } { cbn. intuition discriminate. } { reflexivity. }
    eapply (lay_include 1 _ None None [] true _ (lit "widget") (Some [Key (lit "x") (lit "1")])).
    { apply (inc_with _ _ _ _ (lit "x=1")); [apply (r_include 1 (lit "widget") (lit "x=1")); [discriminate|in_cases]|]. apply (simple_arguments _ "x" "1"); [reflexivity|split; [discriminate|in_cases]|bare_value]. } { cbn. intuition discriminate. } { reflexivity. }
    apply lay_end.
    all: reflexivity.
  - split; [|split; split; try constructor; intros ? []].
    split; [cbn; repeat constructor; intros []|]. split; [cbn; repeat constructor; intros []|]. split; intros z [<-|[]]; left; reflexivity.
  - repeat (constructor; [vm_compute; intuition discriminate|]). constructor.
  - cbn. lia.
  - repeat constructor; cbn; intuition discriminate.
  - constructor; [|constructor]. cbn [fst snd]. intros k Hk. cbn in Hk. repeat (destruct Hk as [<-|Hk]; [split; [discriminate|intros r E; discriminate E]|]). destruct Hk.
  - vm_compute. split; reflexivity.
Qed.

(* Source code with a callout and a highlighted line, and an image. *)
Definition lines3 : list str := map lit
 ["[python, engine=source]"; "----"; "def f():"; "  return 1:1:"; "  pass:@+:"; "----"; "<< image:logo.png, Logo"]%string.
Definition args3 : list arg := [Pos (lit "python"); Key (lit "engine") (lit "source")].
Definition image3 : list arg := [Pos (lit "logo.png"); Pos (lit "Logo")].
Definition pages3 : list page :=
  [PSource (Some args3) [] [mkCode (lit "def f():") None None; mkCode (lit "  return 1") None (Some (lit "1")); mkCode (lit "  pass") (Some (lit "add")) None];
   PImage (Some image3) []].
Lemma given_styles : plain_styles (given []).
Proof.
  split; [reflexivity|]. intros r v H. unfold given in H. cbn [dget] in H. apply dget_in in H.
  assert (X : forallb (fun kv : str * env_val => if startswith (STYLES ++ [DOT]) (fst kv) then negb (mem_chr DOT (skipn (length (STYLES ++ [DOT])) (fst kv))) && match snd kv with EStr _ => true | _ => false end else true) base_env = true) by (vm_compute; reflexivity).
  rewrite forallb_forall in X. specialize (X _ H). cbn [fst snd] in X. change (STYLES ++ DOT :: r) with (STYLES ++ [DOT] ++ r) in X. rewrite app_assoc, startswith_app, skipn_app, skipn_all, Nat.sub_diag in X.
  cbn [app skipn] in X. apply andb_prop in X as [X1 X2]. split.
  - intros K. apply mem_chr_In in K. rewrite K in X1. discriminate.
  - destruct v; try discriminate. eauto.
Qed.
Lemma no_mark s : match rev s with c :: r => negb (N.eqb c (chr ":")) || negb (mem_chr (chr ":") r) | [] => true end = true ->
  forall t m, s <> t ++ [chr ":"] ++ m ++ [chr ":"].
Proof.
  intros H t m ->. rewrite !app_assoc, rev_app_distr in H. cbn [rev app] in H. rewrite !rev_app_distr in H. cbn [rev app] in H.
  rewrite N.eqb_refl in H. cbn [negb orb] in H. apply negb_true_iff in H. assert (K : mem_chr (chr ":") (rev m ++ chr ":" :: rev t) = true); [|congruence].
  apply mem_chr_In, in_or_app. right. left. reflexivity.
Qed.
Example C86_ex3 : lays (cf_files cf0) None 0 (given []) None None [] pages3 [] lines3 (given []) /\ Forall (no_chr NL) lines3 /\
  match parse_document 1 cf0 [] (join [NL] lines3) (mkOrigin 0 0 None) with
  | Ok x => match dx_nodes x with
            | [DSource _ lang [_; l2; l3] _; DImage uri alt _ _] =>
                lang = Some (lit "python") /\ option_map fst (sl_marker l2) = Some (lit "1") /\ sl_style l3 = Some (lit "add") /\ uri = lit "logo.png" /\ alt = Some (lit "Logo")
            | _ => False
            end
  | Exc _ => False
  end.
Proof.
  split; [|split].
  - unfold lines3. cbn [map]. eapply lays_eq.
    eapply (lay_arguments 0 (given []) None None [] args3 (lit "python, engine=source")).
    { apply usual_arguments. exists (lit "python, engine=source"). split; [apply becomes_itself; reflexivity|].
      split; [|split; [|split; [repeat constructor|split; [reflexivity|apply Nat.le_0_l]]]].
      - apply (ws_cons (Pos (lit "python")) (lit "python") 1 [Key (lit "engine") (lit "source")] (lit "engine=source")); [constructor; bare_value|].
        apply ws_one. apply (wa_key (lit "engine") (lit "source") (lit "source")); [split; [discriminate|in_cases]|bare_value].
      - intros (a & k' & v' & b & w & c & E). destruct a as [|? a]; [discriminate E|]. destruct a as [|? a]; [injection E as _ _ _ E; destruct b; discriminate E|]. destruct a; discriminate E. }
    eapply (lay_source 0 _ None _ [] true (chr "-") (chr ":") _ [lit "def f():"; lit "  return 1:1:"; lit "  pass:@+:"]).
    { repeat split; discriminate. } { cbn. intuition discriminate. } { reflexivity. } { left; reflexivity. } { split; [left; left; reflexivity|discriminate]. } { reflexivity. } { apply given_styles. }
    { constructor; [|constructor; [|constructor; [|constructor]]].
      - apply cs_plain. apply no_mark. reflexivity.
      - apply (cs_callout _ _ _ (lit "  return 1") (lit "1")); [intros [E|[]]; discriminate E|discriminate|intros r E; discriminate E].
      - apply (cs_highlight _ _ _ (lit "  pass") (lit "@+") (lit "+")); [reflexivity|intros [E|[E|[]]]; discriminate E]. }
    { discriminate. } { discriminate. } { reflexivity. }
    eapply (lay_image 0 _ None None [] true _ (Some image3)).
    { apply (inc_with _ _ _ _ (lit "logo.png, Logo")); [apply (r_include 1 (lit "image") (lit "logo.png, Logo")); [discriminate|in_cases]|]. apply usual_arguments. exists (lit "logo.png, Logo"). split; [apply becomes_itself; reflexivity|].
      split; [|split; [|split; [repeat constructor|split; [reflexivity|apply Nat.le_0_l]]]].
      - apply (ws_cons (Pos (lit "logo.png")) (lit "logo.png") 1 [Pos (lit "Logo")] (lit "Logo")); [constructor; bare_value|]. apply ws_one. constructor. bare_value.
      - intros (a & k' & v' & b & w & c & E). destruct a as [|? a]; [discriminate E|]. destruct a as [|? a]; [discriminate E|]. destruct a; discriminate E. }
    { eexists _, _. reflexivity. } { reflexivity. }
    apply lay_end.
    all: reflexivity.
  - repeat (constructor; [vm_compute; intuition discriminate|]). constructor.
  - vm_compute. repeat split.
Qed.

(* The text of the pages may have links, images, classes and macros of the user. *)
Example C86_ex4 : (forall V, means V linked_tree linked_text) /\
  match parse_document 1 cf0 [] (join [NL] [linked_text; []; lit "[#x,name=top]"; lit "= Title"]) (mkOrigin 0 0 None) with
  | Ok x => match dx_nodes x with
            | [DParagraph ls _; DHeader h] => map (fun l => map (fun n => match n with NLink u _ _ => u | NHeaderLink _ u _ _ => u | _ => [] end) (fst l)) ls =
                [[[]; lit "http://x.org/a b"; []; []; []; []; lit "top"]] /\ h_name h = Some (lit "top")
            | _ => False
            end
  | Exc _ => False
  end.
Proof.
  split.
  - intros V. destruct C30_witness_macros as (H1 & H2 & _). exists linked_text, 0. cbn [repeat]. rewrite app_nil_r. split; [apply becomes_itself; reflexivity|]. split; [exact (cn_text _ _ _ _ H1)|]. split; [exact H2|discriminate].
  - vm_compute. repeat split.
Qed.

(* A document with a file, the lines of another, and a group of blocks. *)
Definition cf5 : config := mkConfig (fun f => if str_eqb f (lit "part.mau") then File (join [NL] [lit "Hello, {who}."; lit "---"])
  else if str_eqb f (lit "code.txt") then File (join [NL] [lit "x *= 1"; lit "y"]) else Missing) (fun _ => lit "id") (fun _ => lit "fid") 100.
Definition lines5 : list str := map lit
 ["[group=side, position=one]"; "----"; "Aside."; "----"; "<< blockgroup:side"; "<< raw:code.txt"; "<< mau:part.mau, call:who=you, k=v"]%string.
Definition args5 : list arg := [Key (lit "group") (lit "side"); Key (lit "position") (lit "one")].
Definition call5 : list arg := [Pos (lit "part.mau"); Key (lit "call:who") (lit "you"); Key (lit "k") (lit "v")].
Definition pages5 : list page :=
  [PGroup (Some [Pos (lit "side")]) [] (lit "side"); PLines (Some [Pos (lit "code.txt")]) [] (lit "code.txt") [lit "x *= 1"; lit "y"];
   PFile (Some call5) [] (lit "part.mau") [PParagraph None [] [txt "Hello, you."]; PRule None []]].
Definition uses5 : list use := [UItem (lit "side") (lit "one"); UGroup (lit "side"); UFile (Some (lit "main.mau")) (lit "part.mau")].
Lemma given_copyable : copyable (given []).
Proof.
  intros k v H. unfold given in *. cbn [dget] in *.
  assert (X : forallb (fun kv : str * env_val => match snd kv with EDict (_ :: _) => false | _ => true end && negb (startswith [DOT] (fst kv)) &&
    forallb (fun j => negb (startswith (fst kv ++ [DOT]) j)) (keys base_env)) base_env = true) by (vm_compute; reflexivity).
  apply dget_in in H. rewrite forallb_forall in X. specialize (X _ H). cbn [fst snd] in X. apply andb_prop in X as [X X3]. apply andb_prop in X as [X1 X2]. split; [|split].
  - destruct v as [| | |[|]]; try exact I. discriminate X1.
  - intros r. apply dget_none. intros K. rewrite forallb_forall in X3. specialize (X3 _ K). apply negb_true_iff in X3. change (k ++ DOT :: r) with (k ++ [DOT] ++ r) in X3. rewrite app_assoc, startswith_app in X3. discriminate.
  - intros r ->. cbn in X2. discriminate.
Qed.
Lemma bare_args V (l : list arg) (s : string) : forallb (fun c => negb (mem_chr c (lit "\`{}" ++ [NL]))) (lit s) = true -> writes_args l (lit s) -> ~ misplaced l -> Forall single_mark (unnamed_of l) ->
  marked_with AT (unnamed_of l) = [] -> length (marked_with STAR (unnamed_of l)) <= 1 -> SpecPages.arguments V l (lit s).
Proof. intros H W M S A B. apply usual_arguments. exists (lit s). split; [apply becomes_itself, H|]. auto. Qed.
Example C86_ex5 : lays (cf_files cf5) (Some (lit "main.mau")) 1 (given []) None None [] pages5 uses5 lines5 (given []) /\ linked uses5 /\ Forall (no_chr NL) lines5 /\
  match parse_document 2 cf5 [] (join [NL] lines5) (mkOrigin 0 0 (Some (lit "main.mau"))) with
  | Ok x => match dx_nodes x with
            | [DGroup _ g _; DIncludeRaw _ [(l1, _); _] _; DMau _ [DParagraph _ _; DRule _] r] => g = lit "side" /\ l1 = lit "x *= 1" /\ na_named (at_args r) = [(lit "k", lit "v")]
            | _ => False
            end
  | Exc _ => False
  end.
Proof.
  assert (One : forall v, ~ misplaced [Pos v]).
  { intros v (a & k' & v' & b & w & c & E). destruct a as [|? a]; [discriminate E|]. destruct a; discriminate E. }
  split; [|split; [|split]].
  - unfold lines5. cbn [map]. eapply lays_eq.
    eapply (lay_arguments 1 (given []) None None [] args5 (lit "group=side, position=one")).
    { apply (bare_args _ _ "group=side, position=one"); [reflexivity| | |constructor|reflexivity|apply Nat.le_0_l].
      - apply (ws_cons (Key (lit "group") (lit "side")) (lit "group=side") 1 _ (lit "position=one")); [apply (wa_key (lit "group") (lit "side") (lit "side")); [split; [discriminate|in_cases]|bare_value]|].
        apply ws_one. apply (wa_key (lit "position") (lit "one") (lit "one")); [split; [discriminate|in_cases]|bare_value].
      - intros (a & k' & v' & b & w & c & E). destruct a as [|? a]; [injection E as _ _ E; destruct b as [|? b]; [discriminate E|]; injection E as _ E; destruct b; discriminate E|]. destruct a as [|? a]; [injection E as _ _ _ E; destruct b; discriminate E|]. destruct a; discriminate E. }
    eapply (lay_item 0 _ _ [] (chr "-") [PParagraph None [] [txt "Aside."]] [] [lit "Aside."] _ (lit "side") (lit "one") _ _ _);
      [repeat split; discriminate|intros [E|[]]; discriminate E|left; reflexivity|left; reflexivity|reflexivity|discriminate|reflexivity|discriminate|discriminate| |repeat split; try constructor; intros ? []|].
    { apply (lay_paragraph 0 _ None None [] true [txt "Aside."] [lit "Aside."] [] []); [discriminate| |constructor|reflexivity|constructor].
      constructor; [split; [apply simple_means; reflexivity|]|constructor]. apply (r_text (chr "A") (lit "side.")); [vm_compute; intuition discriminate|intros c E; discriminate E]. }
    eapply (lay_group 1 _ None None [] true _ (Some [Pos (lit "side")]) (lit "side")).
    { apply (inc_with _ _ _ _ (lit "side")); [apply (r_include 1 (lit "blockgroup") (lit "side")); [discriminate|in_cases]|].
      apply (bare_args _ _ "side"); [reflexivity|apply ws_one; constructor; bare_value|apply One|repeat constructor|reflexivity|apply Nat.le_0_l]. }
    { reflexivity. } { reflexivity. }
    eapply (lay_lines 1 _ None None [] true _ (Some [Pos (lit "code.txt")]) (lit "code.txt") [lit "x *= 1"; lit "y"]).
    { apply (inc_with _ _ _ _ (lit "code.txt")); [apply (r_include 1 (lit "raw") (lit "code.txt")); [discriminate|in_cases]|].
      apply (bare_args _ _ "code.txt"); [reflexivity|apply ws_one; constructor; bare_value|apply One|repeat constructor|reflexivity|apply Nat.le_0_l]. }
    { reflexivity. } { discriminate. } { reflexivity. } { discriminate. } { repeat (constructor; [vm_compute; intuition discriminate|]). constructor. } { reflexivity. }
    eapply (lay_file 0 (given []) None None [] true _ (Some call5) (lit "part.mau") [lit "Hello, {who}."; lit "---"] (fun k => match called (Some call5) k with Some v => Some (EStr v) | None => given [] k end)
      [PParagraph None [] [txt "Hello, you."]; PRule None []] []).
    { apply (inc_with _ _ _ _ (lit "part.mau, call:who=you, k=v")); [apply (r_include 1 (lit "mau") (lit "part.mau, call:who=you, k=v")); [discriminate|in_cases]|].
      apply (bare_args _ _ "part.mau, call:who=you, k=v"); [reflexivity| | |repeat constructor|reflexivity|apply Nat.le_0_l].
      - apply (ws_cons (Pos (lit "part.mau")) (lit "part.mau") 1 _ (lit "call:who=you, k=v")); [constructor; bare_value|].
        apply (ws_cons (Key (lit "call:who") (lit "you")) (lit "call:who=you") 1 _ (lit "k=v")); [apply (wa_key (lit "call:who") (lit "you") (lit "you")); [split; [discriminate|in_cases]|bare_value]|].
        apply ws_one. apply (wa_key (lit "k") (lit "v") (lit "v")); [split; [discriminate|in_cases]|bare_value].
      - intros (a & k' & v' & b & w & c & E). destruct a as [|? [|? [|? [|? a]]]]; cbn [app] in E; inversion E; subst; repeat match goal with H : _ = ?b ++ _ :: _ |- _ => destruct b; cbn [app] in H; inversion H; subst; clear H end. }
    { reflexivity. } { discriminate. } { reflexivity. } { repeat (constructor; [vm_compute; intuition discriminate|]). constructor. }
    { split.
      - intros k H. destruct (str_eqb_spec (lit "who") k) as [<-|Nk]; [apply ordinary_name; reflexivity|]. destruct H.
        change (called (Some call5) k) with (if str_eqb (lit "who") k then Some (lit "you") else None).
        destruct (str_eqb_spec (lit "who") k) as [E|_]; [contradiction|reflexivity].
      - exists (given []). split; [left; split; [reflexivity|split; [apply given_copyable|reflexivity]]|reflexivity]. }
    { eapply (lay_paragraph 0 _ None None [] true [txt "Hello, you."] [lit "Hello, {who}."] [PRule None []] []); [discriminate| | |reflexivity|].
      - constructor; [split|constructor].
        + exists (lit "Hello, you."), 0. split; [|split; [|split; [discriminate|discriminate]]].
          * exists [(lit "Hello, ", Ref (lit "who"))], (lit "."). split; [reflexivity|]. split; [split; [constructor; [split; [|cbn]|constructor]|]|reflexivity]; unfold no_meaning; in_cases.
          * apply cn_text, (wr_text None (lit "Hello, you.") (lit "Hello, you.") [] []); [discriminate|apply plain_written; reflexivity|intros (u & r & E); discriminate E|constructor].
        + apply (r_text (chr "H") (lit "ello, {who}.")); [vm_compute; intuition discriminate|intros c E; discriminate E].
      - apply (cut_line _ T_HORIZONTAL_RULE (lit "---") []); [constructor|discriminate].
      - apply (lay_rule 0 _ None None [] true [] []); [reflexivity|]. apply lay_end. }
    { repeat split; try constructor; intros ? []. } { reflexivity. }
    apply lay_end.
    all: reflexivity.
  - split; [|split].
    + repeat split; try constructor; intros ? [].
    + split; [repeat constructor; intros []|]. intros z [<-|[]]. left. reflexivity.
    + split; [repeat constructor; intros []|]. intros f [<-|[]] [E|[]]. discriminate E.
  - repeat (constructor; [vm_compute; intuition discriminate|]). constructor.
  - vm_compute. repeat split.
Qed.

(* The text of the pages may have conditions on the variables of the document. *)
Definition lines6 : list str := [lit ":lang:en"; lit ":hello:*Hi*"; case_text; lit "---"].
Definition pages6 : list page := [PParagraph None [] [case_tree]; PRule None []].
Definition vars6 : world := now (now (given []) (lit "lang") (lit "en")) (lit "hello") (lit "*Hi*").
Example C86_ex6 : lays (cf_files cf0) None 0 (given []) None None [] pages6 [] lines6 vars6 /\ linked [] /\ Forall (no_chr NL) lines6 /\
  match parse_document 1 cf0 [] (join [NL] lines6) (mkOrigin 0 0 None) with
  | Ok x => match dx_nodes x with
            | [DParagraph [([NText a _; NText b _; NStyle _ [NText c _] _; NText d _; NStyle _ [NText f _] _; NText g _], _)] _; DRule _] =>
                [a; b; c; d; f; g] = map lit ["Say "; "Well "; "met"; " or "; "Hi"; " end"]%string
            | _ => False
            end
  | Exc _ => False
  end.
Proof.
  split; [|split; [|split]].
  - unfold lines6, pages6. eapply lays_eq.
    eapply (lay_define 0 (given []) None None [] _ (lit "lang") (lit "en") (lit "en")).
    { apply (r_variable (lit "lang") (lit "en")); [discriminate|in_cases]. } { cbn. intuition discriminate. } { discriminate. } { apply becomes_itself. reflexivity. } { discriminate. } { apply ordinary_name. reflexivity. }
    eapply (lay_define 0 _ None None [] _ (lit "hello") (lit "*Hi*") (lit "*Hi*")).
    { apply (r_variable (lit "hello") (lit "*Hi*")); [discriminate|in_cases]. } { cbn. intuition discriminate. } { discriminate. } { apply becomes_itself. reflexivity. } { discriminate. } { apply ordinary_name. reflexivity. }
    eapply (lay_paragraph 0 _ None None [] true [case_tree] [case_text]); [discriminate| | |reflexivity|].
    { constructor; [split|constructor].
      - exists case_text, 0. split; [apply becomes_itself; reflexivity|]. split; [apply case_example; reflexivity|]. split; discriminate.
      - apply (r_text (chr "S") (skipn 1 case_text)); [vm_compute; intuition discriminate|intros c E; discriminate E]. }
    { apply (cut_line _ T_HORIZONTAL_RULE (lit "---") []); [constructor|discriminate]. }
    apply (lay_rule 0 _ None None [] true); [reflexivity|]. apply lay_end.
    all: reflexivity.
  - repeat split; try constructor; intros ? [].
  - repeat (constructor; [vm_compute; intuition discriminate|]). constructor.
  - vm_compute. repeat split.
Qed.

(* Source code with the alias of every document. *)
Definition lines7 : list str := map lit ["[@source, python]"; "----"; "x = 1"; "----"]%string.
Definition args7 : list arg := [Key (lit "engine") (lit "source"); Key (lit "language") (lit "python")].
Definition pages7 : list page := [PSource (Some args7) [] [mkCode (lit "x = 1") None None]].
Example C86_ex7 : lays (cf_files cf0) None 0 (given []) None None [] pages7 [] lines7 (given []) /\ linked [] /\ Forall (no_chr NL) lines7 /\
  match parse_document 1 cf0 [] (join [NL] lines7) (mkOrigin 0 0 None) with
  | Ok x => match dx_nodes x with [DSource _ lang [_] r] => lang = Some (lit "python") /\ at_args r = empty_args | _ => False end
  | Exc _ => False
  end.
Proof.
  split; [|split; [|split]].
  - unfold lines7. cbn [map]. eapply lays_eq.
    eapply (lay_arguments 0 (given []) None None [] args7 (lit "@source, python")).
    { exists [Pos (lit "@source"); Pos (lit "python")], (lit "@source, python"). split; [apply becomes_itself; reflexivity|].
      split; [|split; [|split; [repeat constructor|split; [apply Nat.le_0_l|]]]].
      - apply (ws_cons (Pos (lit "@source")) (lit "@source") 1 [Pos (lit "python")] (lit "python")); [constructor; bare_value|]. apply ws_one. constructor. bare_value.
      - intros (a & k' & v' & b & w & c & E). destruct a as [|? a]; [discriminate E|]. destruct a as [|? a]; [discriminate E|]. destruct a; discriminate E.
      - right. left. split; [reflexivity|]. split; [split; [reflexivity|intros r; reflexivity]|]. repeat (split; [reflexivity|]). intros k.
        change (open_names ["language"]%string [Pos (lit "@source"); Pos (lit "python")]) with [lit "language"].
        change (plain_of (unnamed_of [Pos (lit "@source"); Pos (lit "python")])) with [lit "python"]. unfold args7. cbn [named_of combine dget].
        destruct (str_eqb_spec (lit "language") k) as [<-|K1]; [reflexivity|].
        destruct (str_eqb_spec k (lit "language")) as [->|_]; [congruence|].
        destruct (str_eqb_spec (lit "engine") k) as [<-|K2]; [reflexivity|]. destruct (str_eqb_spec k (lit "engine")) as [->|_]; [congruence|reflexivity]. }
    eapply (lay_source 0 _ None _ [] true (chr "-") (chr ":") _ [lit "x = 1"]).
    { repeat split; discriminate. } { cbn. intuition discriminate. } { reflexivity. } { left; reflexivity. } { split; [left; left; reflexivity|discriminate]. } { reflexivity. } { apply given_styles. }
    { constructor; [|constructor]. apply cs_plain. apply no_mark. reflexivity. }
    { discriminate. } { discriminate. } { reflexivity. }
    apply lay_end.
    all: reflexivity.
  - repeat split; try constructor; intros ? [].
  - repeat (constructor; [vm_compute; intuition discriminate|]). constructor.
  - vm_compute. repeat split.
Qed.

(* A list that starts with another number. *)
Definition lines8 : list str := map lit ["[start=1_0]"; "# ten"; "# eleven"]%string.
Definition pages8 : list page := [PList (Some [Key (lit "start") (lit "1_0")]) [] true [Item (txt "ten"); Item (txt "eleven")]].
Example C86_ex8 : lays (cf_files cf0) None 0 (given []) None None [] pages8 [] lines8 (given []) /\ linked [] /\ Forall (no_chr NL) lines8 /\
  match parse_document 1 cf0 [] (join [NL] lines8) (mkOrigin 0 0 None) with
  | Ok x => match dx_nodes x with [DList o main z [_; _] _] => (o, main, z) = (true, true, 10%Z) | _ => False end
  | Exc _ => False
  end.
Proof.
  split; [|split; [|split]].
  - unfold lines8. cbn [map]. eapply lays_eq.
    eapply (lay_arguments 0 (given []) None None [] [Key (lit "start") (lit "1_0")] (lit "start=1_0")).
    { apply (bare_args _ _ "start=1_0"); [reflexivity| | |constructor|reflexivity|apply Nat.le_0_l].
      - apply ws_one. apply (wa_key (lit "start") (lit "1_0") (lit "1_0")); [split; [discriminate|in_cases]|bare_value].
      - intros (a & k' & v' & b & w & c & E). destruct a as [|? a]; [injection E as _ _ E; destruct b; discriminate E|]. destruct a; discriminate E. }
    eapply (lay_list 0 (given []) None _ [] true 1 true 10%Z (txt "ten") [Item (txt "eleven")] (lit "#") (lit "ten") [(lit "#", lit "eleven")] (map lit ["# ten"; "# eleven"]%string)).
    { constructor; [split; [reflexivity|discriminate]|apply simple_means; reflexivity|].
      constructor; [split; [reflexivity|discriminate]|apply simple_means; reflexivity|constructor]. }
    { split; [intros _; exists []; reflexivity|reflexivity]. }
    { exists [], (lit "1_0"), []. repeat (split; [reflexivity|]). apply (SpecTree.nb_plain (lit "1_0") 10). apply (SpecTree.dg_sep (lit "1") 1 (chr "0")); [apply (SpecTree.dg_one (chr "1")); reflexivity|reflexivity]. }
    { constructor; [|constructor; [|constructor]].
      - apply (r_list 0 (lit "#") 0 (lit "ten")); [discriminate| |]; [in_cases|intros c r E; injection E as <- _; cbn; intuition discriminate].
      - apply (r_list 0 (lit "#") 0 (lit "eleven")); [discriminate| |]; [in_cases|intros c r E; injection E as <- _; cbn; intuition discriminate]. }
    { constructor. } { reflexivity. }
    apply lay_end.
    all: reflexivity.
  - repeat split; try constructor; intros ? [].
  - repeat (constructor; [vm_compute; intuition discriminate|]). constructor.
  - vm_compute. repeat split.
Qed.

(* An alias of the user. *)
Lemma same_filter (f : str * env_val -> bool) (d1 d2 : env) : NoDup (keys d1) -> NoDup (keys d2) -> (forall k, dget k d1 = dget k d2) -> Permutation (filter f d1) (filter f d2).
Proof.
  intros N1 N2 H. apply NoDup_Permutation; [apply NoDup_filter; exact (NoDup_map_inv _ _ N1)|apply NoDup_filter; exact (NoDup_map_inv _ _ N2)|].
  intros [k v]. rewrite !filter_In. split; intros [K1 K2]; (split; [|exact K2]); apply dget_in.
  - rewrite <- H. apply (in_dget _ _ _ N1 K1).
  - rewrite H. apply (in_dget _ _ _ N2 K1).
Qed.
Lemma three {A} (a b c : A) l : Permutation l [a; b; c] -> In l [[a; b; c]; [a; c; b]; [b; a; c]; [c; a; b]; [b; c; a]; [c; b; a]].
Proof.
  intros P. assert (Hin : In a l) by (apply (Permutation_in _ (Permutation_sym P)); left; reflexivity).
  apply in_split in Hin as (l1 & l2 & ->). apply Permutation_sym, (Permutation_app_inv [] [b; c] l1 l2 a) in P. cbn [app] in P.
  apply Permutation_length_2_inv in P. destruct l1 as [|x [|y [|z l1]]]; cbn [app] in P |- *.
  - destruct P as [-> | ->]; cbn; tauto.
  - destruct P as [P|P]; injection P as -> ->; cbn; tauto.
  - destruct P as [P|P]; injection P as -> -> ->; cbn; tauto.
  - destruct P as [P|P]; discriminate P.
Qed.
Definition env9 : env := [(ALIASES ++ lit ".note.args.kind", EStr (lit "note"))].
Lemma alias9 : alias_of (given env9) (lit "note") [(lit "kind", EStr (lit "note"))] [] None.
Proof.
  intros e N G. set (f := fun kv : str * env_val => startswith (ALIASES ++ [DOT]) (fst kv)).
  assert (P : Permutation (filter f e) (filter f (env9 ++ base_env))).
  { apply same_filter; [exact N|vm_compute; repeat (constructor; [cbn; intuition discriminate|]); constructor|]. intros k. rewrite G. unfold given, env9. cbn [dget app]. destruct (str_eqb k _); reflexivity. }
  change (filter f (env9 ++ base_env)) with [(ALIASES ++ lit ".note.args.kind", EStr (lit "note")); AL1; AL2] in P. apply three in P.
  exists [(lit "args", EDict [(lit "kind", EStr (lit "note"))])], [(lit "kind", EStr (lit "note"))].
  split; [|split; [reflexivity|split; [repeat constructor; intros []|repeat split]]].
  assert (E0 : dget ALIASES e = None) by (rewrite G; reflexivity).
  unfold PropertiesArgs.alias_definition, env_get. fold ALIASES. rewrite E0. cbv zeta. fold f.
  cbn [In] in P. repeat destruct P as [P|P]; try contradiction; rewrite <- P; (eexists _, _; split; [reflexivity|]; split; vm_compute; reflexivity).
Qed.
Definition lines9 : list str := map lit ["[@note, one]"; "---"]%string.
Definition args9 : list arg := [Pos (lit "one"); Key (lit "kind") (lit "note")].
Definition pages9 : list page := [PRule (Some args9) []].
Example C86_ex9 : lays (cf_files cf0) None 0 (given env9) None None [] pages9 [] lines9 (given env9) /\ linked [] /\ Forall (no_chr NL) lines9 /\
  match parse_document 1 cf0 env9 (join [NL] lines9) (mkOrigin 0 0 None) with
  | Ok x => match dx_nodes x with [DRule r] => at_args r = mkArgs [lit "one"] [(lit "kind", lit "note")] [] [] None | _ => False end
  | Exc _ => False
  end.
Proof.
  split; [|split; [|split]].
  - unfold lines9. cbn [map]. eapply lays_eq.
    eapply (lay_arguments 0 (given env9) None None [] args9 (lit "@note, one")).
    { exists [Pos (lit "@note"); Pos (lit "one")], (lit "@note, one"). split; [apply becomes_itself; reflexivity|].
      split; [|split; [|split; [repeat constructor|split; [apply Nat.le_0_l|]]]].
      - apply (ws_cons (Pos (lit "@note")) (lit "@note") 1 [Pos (lit "one")] (lit "one")); [constructor; bare_value|]. apply ws_one. constructor. bare_value.
      - intros (a & k' & v' & b & w & c & E). destruct a as [|? a]; [discriminate E|]. destruct a as [|? a]; [discriminate E|]. destruct a; discriminate E.
      - right. right. exists (lit "note"), [(lit "kind", EStr (lit "note"))], [], None. split; [reflexivity|]. split; [exact alias9|]. split; [constructor|]. repeat (split; [reflexivity|]). intros k.
        unfold args9. cbn [named_of dget combine PropertiesAlias.free_names filter].
        destruct (str_eqb_spec (lit "kind") k) as [<-|K1]; [reflexivity|]. destruct (str_eqb_spec k (lit "kind")) as [->|_]; [congruence|reflexivity]. }
    apply (lay_rule 0 _ None _ [] true); [reflexivity|]. apply lay_end.
    all: reflexivity.
  - repeat split; try constructor; intros ? [].
  - repeat (constructor; [vm_compute; intuition discriminate|]). constructor.
  - vm_compute. reflexivity.
Qed.
