(* PropertiesAnchors.v -- C80, C81: the ids of headers and footnotes *)
From Verif Require Import AnchorFacts WholeFacts Anchors Build SpecObjects LineFacts PropertiesWhole PropertiesObjects PropertiesRender PropertiesDoc.
#[local] Notation length := List.length.

(* --------------------------------------------------------------------- C80 *)
Lemma document_told n cf e text o x : parse_document n cf e text o = Ok x ->
  exists H, same_ids H /\ incl (document_headers x) H /\ Forall (hits cf H) (dx_done x).
Proof.
  intros R. apply run_told in R as (H & (_ & _ & S) & I & _ & new & E & F). cbn [app] in E. rewrite <- E in F. exists H. split; [exact S|]. split; [|exact F].
  unfold document_headers. rewrite flat_map_app. intros h Hh. apply in_app_or in Hh as [Hh|Hh].
  - apply I. rewrite flat_map_app. apply in_or_app. auto.
  - apply in_flat_map in Hh as (b & Hb & Hh). apply in_flat_map in Hb as (ac & Ha & Hb). rewrite Forall_forall in F. apply (proj1 (F _ Ha)). apply in_flat_map. eauto.
Qed.
Lemma last_one_app {A} (sel : assign -> option A) l : forall acc, fold_left (fun acc a => match sel a with Some x => Some x | None => acc end) l acc =
  match last_one sel l with Some x => Some x | None => acc end.
Proof.
  unfold last_one. induction l as [|a l IH]; intros acc; [reflexivity|]. cbn [fold_left]. rewrite IH. destruct (sel a) as [v|]; [|reflexivity]. rewrite (IH (Some v)).
  destruct (fold_left _ l None); reflexivity.
Qed.
Lemma last_one_all {A} (sel : assign -> option A) (v : A) l : (forall a w, In a l -> sel a = Some w -> w = v) -> (exists a, In a l /\ sel a = Some v) -> last_one sel l = Some v.
Proof.
  induction l as [|a l IH]; intros Hall (b & Hb & Eb); [destruct Hb|]. unfold last_one. cbn [fold_left]. rewrite last_one_app.
  destruct Hb as [->|Hb].
  - rewrite Eb. destruct (last_one sel l) as [w|] eqn:El; [|reflexivity]. f_equal.
    assert (Hex : forall l acc w, fold_left (fun acc a => match sel a with Some x => Some x | None => acc end) l acc = Some w -> acc = Some w \/ exists a, In a l /\ sel a = Some w).
    { clear. induction l as [|a l IH]; intros acc w E; [auto|]. cbn [fold_left] in E. apply IH in E as [E|(b & Hb & E)].
      - destruct (sel a) eqn:Es; [|auto]. right. exists a. split; [left; reflexivity|congruence].
      - right. exists b. split; [right; exact Hb|exact E]. }
    destruct (Hex _ _ _ El) as [K|(c & Hc & K)]; [discriminate|]. exact (Hall c w (or_intror Hc) K).
  - rewrite (IH (fun c w Hc => Hall c w (or_intror Hc)) (ex_intro _ b (conj Hb Eb))). reflexivity.
Qed.

(* The id of every header of a document, wherever the header is: the one that is written,
   or else the one that the function makes of the header. *)
Theorem C80_header_ids n cf e text o x h : parse_document n cf e text o = Ok x -> In h (document_headers x) ->
  last_one (id_to (h_id h)) (dx_done x) = Some (anchor cf h).
Proof.
  intros R Hh. destruct (document_told _ _ _ _ _ _ R) as (H & S & I & F). apply last_one_all.
  - intros a w Ha E. rewrite Forall_forall in F. destruct (F _ Ha) as [_ K]. destruct a as [| |i s| | |]; try discriminate. cbn [id_to] in E. unfold if_same in E.
    destruct (Nat.eqb_spec (h_id h) i) as [Ei|]; [|discriminate]. destruct K as (g & Hg & Eg & ->). rewrite (S h g (I _ Hh) Hg (eq_trans Ei (eq_sym Eg))). congruence.
  - apply C70_nothing_unfilled in R as [R1 R2]. unfold document_headers in Hh. rewrite flat_map_app in Hh.
    assert (K : filled (dx_done x) (h_id h, LHeader (bare h))).
    { apply in_app_or in Hh as [Hh|Hh]; apply in_flat_map in Hh as (b & Hb & Hh); apply heads_marks in Hh; [|exact (R2 _ Hb _ Hh)]. apply R1, in_flat_map. eauto. }
    destruct K as (s & K). cbn [fst] in K. exists (AInternal (h_id h) s). split; [exact K|]. rewrite Forall_forall in F. destruct (F _ K) as [_ (g & Hg & Eg & ->)].
    assert (Hi : In h (document_headers x)) by (unfold document_headers; rewrite flat_map_app; exact Hh).
    rewrite <- (S h g (I _ Hi) Hg (eq_sym Eg)). cbn [id_to]. unfold if_same. rewrite Nat.eqb_refl. reflexivity.
Qed.
(* The headers in the tables of contents have the same ids, in the nested entries and in
   the plain ones. *)
Theorem C80_contents_ids n cf e text o x h i nested plain g : parse_document n cf e text o = Ok x -> In h (document_headers x) ->
  In (AToc i nested plain) (dx_done x) -> In g (flat_map preorder nested ++ plain) -> h_id g = h_id h -> g = with_anchor cf h.
Proof.
  intros R Hh Ha Hg E. destruct (document_told _ _ _ _ _ _ R) as (H & S & I & F). rewrite Forall_forall in F. destruct (F _ Ha) as [_ [K1 K2]].
  assert (Hp : In g plain) by (apply in_app_or in Hg as [Hg|Hg]; auto). rewrite Forall_forall in K1. destruct (K1 _ Hp) as (w & Hw & ->). rewrite (S h w (I _ Hh) Hw (eq_sym E)). reflexivity.
Qed.
(* The header of a link is the one of the document. *)
Theorem C80_links n cf e text o x h i g content : parse_document n cf e text o = Ok x -> In h (document_headers x) ->
  In (AHeader i g content) (dx_done x) -> h_id g = h_id h -> g = h.
Proof.
  intros R Hh Ha E. destruct (document_told _ _ _ _ _ _ R) as (H & S & I & F). rewrite Forall_forall in F. destruct (F _ Ha) as [_ K]. exact (S g h K (I _ Hh) E).
Qed.
(* What a visitor sees: the object of a header has this id. *)
Theorem C80_objects n cf e text o x d m hp : parse_document n cf e text o = Ok x -> document_of x = Some d -> heap_of m d (dx_done x) = Ok hp ->
  exists at_ : Visitor.kind -> nat -> nat -> Prop, is_tree at_ hp (document_tree d) 0 /\
    forall h l, In h (document_headers x) -> at_ KHeader (h_id h) l -> has hp l "internal_id" (Plain (VStr (anchor cf h))).
Proof.
  intros R Hd Hp. destruct (C74_objects _ _ _ _ _ _ _ _ _ R Hd Hp) as (at_ & _ & _ & T & C). exists at_. split; [exact T|].
  intros h l Hh Hl. exact (C _ _ _ Hl _ (C80_header_ids _ _ _ _ _ _ _ R Hh)).
Qed.

(* ------------------------------------------------- the ids that Mau makes *)
Lemma extract_is : forall n, extract_text n = text_in n.
Proof.
  fix IH 1. intros n. assert (L : forall l, flat_map extract_text l = flat_map text_in l).
  { fix IHl 1. intros [|a l]; [reflexivity|]. cbn [flat_map]. rewrite (IH a), (IHl l). reflexivity. }
  destruct n; cbn [extract_text text_in]; auto.
Qed.
Definition header_text (h : header) : str := flat_map text_in (h_content h).
Lemma header_text_is h : flat_map extract_text (h_content h) = header_text h.
Proof. unfold header_text. induction (h_content h) as [|a l IH]; [reflexivity|]. cbn [flat_map]. rewrite extract_is, IH. reflexivity. Qed.

Lemma kept_cases c : kept_chr c = true -> id_char c \/ c = SP.
Proof.
  unfold kept_chr, id_char. rewrite !orb_true_iff, is_lower_In, is_digit_In, mem_chr_In, !in_app_iff. intros [[H|H]|H]; auto. cbn in H |- *. intuition.
Qed.
Lemma dashes_dashed s : Forall (fun c => c <> 95%N) s -> dashed s (dashes false s).
Proof.
  assert (G : forall n s, length s <= n -> Forall (fun c => c <> 95%N) s -> dashed s (dashes false s)).
  { clear s. induction n as [|n IH]; intros [|c s] L F; cbn [length] in L; try lia; try constructor. inversion F as [|? ? F1 F2]; subst. cbn [dashes].
    destruct (blank_chr c) eqn:Eb.
    - unfold blank_chr in Eb. apply mem_chr_In in Eb. cbn in Eb. assert (c = SP) as -> by (destruct Eb as [Eb|[Eb|[]]]; [symmetry; exact Eb|exfalso; apply F1; symmetry; exact Eb]).
      assert (K : exists k r, s = repeat SP k ++ r /\ (forall q, r <> SP :: q) /\ dashes true s = dashes false r /\ length r <= length s /\ Forall (fun c => c <> 95%N) r).
      { clear - F2. induction s as [|c s IH]; [exists 0, []; cbn; split; [reflexivity|]; split; [discriminate|]; auto|]. inversion F2 as [|? ? G1 G2]; subst. destruct (N.eq_dec c SP) as [->|Nc].
        - destruct (IH G2) as (k & r & -> & Hr & E & Lr & Fr). exists (S k), r. cbn [repeat app]. split; [reflexivity|]. split; [exact Hr|]. split; [exact E|]. split; [cbn; lia|exact Fr].
        - exists 0, (c :: s). cbn [repeat app]. split; [reflexivity|]. split; [congruence|]. split; [|split; [lia|exact F2]]. cbn [dashes].
          assert (blank_chr c = false) as ->; [|reflexivity]. destruct (blank_chr c) eqn:E; [|reflexivity]. unfold blank_chr in E. apply mem_chr_In in E. cbn in E. destruct E as [E|[E|[]]]; [exfalso; apply Nc; symmetry; exact E|exfalso; apply G1; symmetry; exact E]. }
      destruct K as (k & r & -> & Hr & E & Lr & Fr). rewrite E. change (SP :: repeat SP k ++ r) with (repeat SP (S k) ++ r). apply dashed_run; [exact Hr|]. apply IH; [lia|exact Fr].
    - constructor; [|apply IH; [lia|exact F2]]. intros ->. discriminate Eb. }
  apply (G (length s)). lia.
Qed.
Lemma dashed_chars s t : dashed s t -> Forall (fun c => id_char c \/ c = SP) s -> Forall id_char t.
Proof.
  induction 1 as [|c s t Hc H IH|n s t Hs H IH]; intros F; [constructor| |].
  - inversion F as [|? ? F1 F2]; subst. constructor; [|exact (IH F2)]. destruct F1; [assumption|contradiction].
  - apply Forall_app in F as [_ F]. constructor; [|exact (IH F)]. unfold id_char. cbn. tauto.
Qed.
Definition hex_char (c : N) : Prop := In c (lit "0123456789abcdef").

Lemma kept_In c : kept_chr c = true <-> In c (LOWER ++ DIGITS ++ lit "-. ").
Proof. unfold kept_chr. rewrite !orb_true_iff, is_lower_In, is_digit_In, mem_chr_In, !in_app_iff. tauto. Qed.
Lemma upper_small : Forall (fun c => exists k, nth_error UPPER k = Some c /\ nth_error LOWER k = Some (c + 32)%N) UPPER.
Proof.
  assert (E : forall k c, nth_error UPPER k = Some c -> nth_error LOWER k = Some (c + 32)%N).
  { intros k c H. assert (k < 26) by (apply (proj1 (nth_error_Some UPPER k)); congruence).
    do 26 (destruct k as [|k]; [cbn in H; assert (Hc := f_equal (fun o => match o with Some x => x | None => 0%N end) H); cbn in Hc; rewrite <- Hc; reflexivity|]). lia. }
  apply Forall_forall. intros c Hc. apply In_nth_error in Hc as (k & Hk). eauto.
Qed.
Lemma left_is c : left_of c (filter kept_chr (lower_chars c)).
Proof.
  unfold lower_chars. destruct (is_upper c) eqn:Eu.
  - apply is_upper_In in Eu. pose proof upper_small as F. rewrite Forall_forall in F. destruct (F c Eu) as (k & H1 & H2). cbn [filter].
    assert (kept_chr (c + 32) = true) as -> by (apply kept_In, in_or_app; left; exact (nth_error_In _ _ H2)). exact (left_small k c _ H1 H2).
  - destruct (N.eqb_spec c 304) as [->|N1]; [exact left_dotted|]. destruct (N.eqb_spec c 8490) as [->|N2]; [exact left_kelvin|]. cbn [filter].
    destruct (kept_chr c) eqn:Ek; [apply left_same, kept_In, Ek|]. apply left_none; [| |exact N1|exact N2].
    + intros K. apply kept_In in K. congruence.
    + intros K. apply is_upper_In in K. congruence.
Qed.
Lemma kept_left text : exists parts, Forall2 left_of text parts /\ kept_text text = concat parts.
Proof.
  unfold kept_text. induction text as [|c text (parts & F & E)]; [exists []; split; [constructor|reflexivity]|].
  exists (filter kept_chr (lower_chars c) :: parts). split; [constructor; [apply left_is|exact F]|]. cbn [flat_map concat]. rewrite filter_app, E. reflexivity.
Qed.
Lemma left_chars c s : left_of c s -> Forall (fun d => id_char d \/ d = SP) s.
Proof.
  assert (K : forall d, In d (LOWER ++ DIGITS ++ lit "-. ") -> id_char d \/ d = SP) by (intros d H; apply kept_cases, kept_In, H).
  intros H. destruct H as [c H|k c d _ H| | |]; [constructor; [|constructor]..|constructor].
  - exact (K _ H).
  - apply K, in_or_app. left. exact (nth_error_In _ _ H).
  - left. unfold id_char. vm_compute. tauto.
  - left. unfold id_char. vm_compute. tauto.
Qed.

(* The id of a header: what is left of its text (small letters, digits, dashes, dots), a
   dash for each run of spaces, and four characters of the hash. *)
Theorem C80_default_shape md5 h : exists s, slug (header_text h) s /\
  default_header_id md5 h = s ++ lit "-" ++ firstn 4 (md5 (str_of_nat (h_level h) ++ lit " " ++ header_text h)).
Proof.
  unfold default_header_id. rewrite header_text_is. eexists. split; [|reflexivity]. destruct (kept_left (header_text h)) as (parts & F & E). exists parts. split; [exact F|].
  rewrite <- E. apply dashes_dashed. unfold kept_text. apply Forall_forall. intros c Hc. apply filter_In in Hc as [_ Hc].
  intros ->. discriminate Hc.
Qed.
Theorem C80_default_characters md5 h : (forall s, Forall hex_char (md5 s)) -> Forall id_char (default_header_id md5 h).
Proof.
  intros Hm. destruct (C80_default_shape md5 h) as (slg & (parts & F & Hd) & ->). apply Forall_app. split; [|apply Forall_app; split].
  - apply (dashed_chars _ _ Hd). apply Forall_concat. clear - F. induction F as [|c s text parts Hl F IH]; constructor; [exact (left_chars _ _ Hl)|exact IH].
  - constructor; [|constructor]. unfold id_char. cbn. tauto.
  - apply Forall_forall. intros c Hc. specialize (Hm (str_of_nat (h_level h) ++ lit " " ++ header_text h)). rewrite Forall_forall in Hm.
    assert (Hc' : hex_char c). { apply Hm. rewrite <- (firstn_skipn 4). apply in_or_app. left. exact Hc. }
    unfold hex_char, id_char in *. cbn in *. tauto.
Qed.
(* it depends on the level and the text only: it is the same in every run *)
Theorem C80_default_same md5 h g : h_level h = h_level g -> header_text h = header_text g -> default_header_id md5 h = default_header_id md5 g.
Proof. intros E1 E2. unfold default_header_id. rewrite !header_text_is, E1, E2. reflexivity. Qed.

(* ----------------------------------------------------------- ids that clash *)
Lemma twice {A} (dec : forall a b : A, {a = b} + {a <> b}) (f : nat -> A) n : ~ NoDup (map f (seq 0 n)) -> exists i j, i < j /\ f i = f j.
Proof.
  assert (G : forall n k, (exists i j, i < j /\ f i = f j) \/ NoDup (map f (seq k n))).
  { clear n. induction n as [|n IH]; intros k; [right; constructor|]. cbn [seq map]. destruct (IH (S k)) as [K|K]; [auto|].
    destruct (in_dec dec (f k) (map f (seq (S k) n))) as [Hi|Hi]; [|right; constructor; assumption].
    left. apply in_map_iff in Hi as (j & E & Hj). apply in_seq in Hj. exists k, j. split; [lia|auto]. }
  intros H. destruct (G n 0); [assumption|contradiction].
Qed.
Fixpoint words (alphabet : str) (k : nat) : list str :=
  match k with 0 => [[]] | S k => flat_map (fun w => map (fun c => c :: w) alphabet) (words alphabet k) end.
Lemma in_words alphabet : forall s, Forall (fun c => In c alphabet) s -> In s (words alphabet (length s)).
Proof.
  induction s as [|c s IH]; intros F; [left; reflexivity|]. inversion F; subst. cbn [length words]. apply in_flat_map. exists s. split; [auto|]. apply (in_map (fun d => d :: s)). assumption.
Qed.
(* a header with a text of n exclamation marks *)
Definition marks_header (n : nat) : header := mkHeader 0 1 None None [NText (repeat 33%N n) empty_context] empty_args [] empty_context.
Lemma marks_text n : header_text (marks_header n) = repeat 33%N n.
Proof. unfold header_text. cbn. apply app_nil_r. Qed.
(* The comment in the code says that two ids clash only if the headers have the same
   level and the same content.  Whatever the hash, there are headers of the same level,
   with different texts, that have the same id. *)
Theorem C80_refuted_clash md5 : (forall s, length (md5 s) = 32 /\ Forall hex_char (md5 s)) ->
  exists h g, h_level h = h_level g /\ header_text h <> header_text g /\ default_header_id md5 h = default_header_id md5 g.
Proof.
  intros Hm. set (f := fun n => default_header_id md5 (marks_header n)). set (W := map (fun w => lit "-" ++ w) (words (lit "0123456789abcdef") 4)).
  assert (K : forall n, In (f n) W).
  { intros n. unfold f. destruct (C80_default_shape md5 (marks_header n)) as (slg & (parts & F & Hd) & ->). rewrite marks_text in *.
    assert (E : concat parts = []).
    { clear - F. revert parts F. induction n as [|n IH]; intros parts F; inversion F as [|? s ? parts' Hl F']; subst; [reflexivity|]. cbn [concat]. rewrite (IH _ F'), app_nil_r.
      inversion Hl as [c Hc|k c d Hc _| | |]; subst; try reflexivity; exfalso; [vm_compute in Hc; repeat (destruct Hc as [Hc|Hc]; [discriminate Hc|]); exact Hc|].
      apply nth_error_In in Hc. vm_compute in Hc; repeat (destruct Hc as [Hc|Hc]; [discriminate Hc|]); exact Hc. }
    rewrite E in Hd. inversion Hd; subst. clear F. cbn [app]. set (s := md5 _). unfold W. apply in_map_iff. exists (firstn 4 s). split; [reflexivity|].
    assert (LF : length s = 32 /\ Forall hex_char s) by apply Hm. clearbody s. destruct LF as [L F]. assert (E4 : length (firstn 4 s) = 4) by (rewrite firstn_length, L; reflexivity).
    rewrite <- E4 at 2. apply in_words. rewrite <- (firstn_skipn 4 s) in F. apply Forall_app in F as [F _]. exact F. }
  destruct (twice (list_eq_dec N.eq_dec) f (S (length W))) as (i & j & Hij & E).
  - intros N. apply (NoDup_incl_length (l' := W)) in N; [rewrite map_length, seq_length in N; lia|]. intros s Hs. apply in_map_iff in Hs as (k & <- & _). apply K.
  - exists (marks_header i), (marks_header j). split; [reflexivity|]. split; [|exact E]. rewrite !marks_text. intros Er. apply (f_equal (@length _)) in Er. rewrite !repeat_length in Er. lia.
Qed.
(* two headers of a document with the same level and text have the same id *)
Definition ids_of (md5 : str -> str) (s : string) : res (list (nat * str)) :=
  rmap (fun x => map (fun h => (h_id h, or_else (last_one (id_to (h_id h)) (dx_done x)) [])) (document_headers x))
    (parse_document 8 (default_config md5 cf0) env_empty (mau s) (mkOrigin 0 0 None)).
Theorem C80_refuted_unique md5 : exists i, ids_of md5 "= A Title||text||= A Title||" = Ok [(0, i); (1, i)].
Proof. eexists. vm_compute. reflexivity. Qed.
(* written ids, made ids, headers in blocks and in the bodies of footnotes *)
Definition zeros (s : str) : str := repeat 48%N 32.
Example C80_ex : ids_of zeros "= A *Bold* Title||[internal_id=""mine""]|= Two||[isolate=false]|----|== In_a_Block|----||[footnote=x]|----|= In a Note!|----||a[footnote](x)||[group=g,position=p]|++++|= G|++++||<< blockgroup:g||" =
  Ok [(0, lit "a-bold-title-0000"); (1, lit "mine"); (2, lit "inablock-0000"); (3, lit "in-a-note-0000"); (5, lit "g-0000")].
Proof. vm_compute. reflexivity. Qed.
Example C80_default_ex : (forall s, length (zeros s) = 32 /\ Forall hex_char (zeros s)) /\ default_header_id zeros (marks_header 3) = lit "-0000" /\
  default_header_id zeros (mkHeader 0 1 None None [NText (lit "A.b   C! ") empty_context; NStyle (lit "star") [NText (lit "-d9") empty_context] empty_context] empty_args [] empty_context) = lit "a.b-c--d9-0000".
Proof.
  split; [|split; vm_compute; reflexivity]. intros s. split; [reflexivity|]. apply Forall_forall. intros c Hc. apply repeat_spec in Hc as ->. left. reflexivity.
Qed.

(* --------------------------------------------------------------------- C81 *)
(* The footnotes in a list are numbered from 1, in order, have distinct names, and ids
   that are made by the function. *)
Theorem C81_footnotes_numbered n cf e text o x i l : parse_document n cf e text o = Ok x -> In (AFootnotes i l) (dx_done x) ->
  (forall k f, nth_error l k = Some f -> fn_public_id f = str_of_nat (S k)) /\ NoDup (map fn_name l) /\
  forall f, In f l -> fn_internal_id f = cf_footnote_id cf (mkFootnote (fn_name f) (fn_public_id f) [] (fn_content f)).
Proof.
  intros R Ha. destruct (document_told _ _ _ _ _ _ R) as (H & S & I & F). rewrite Forall_forall in F. destruct (F _ Ha) as [_ [K1 [K2 K3]]].
  split; [exact K2|]. split; [exact K3|]. rewrite Forall_forall in K1. exact K1.
Qed.
Theorem C81_mention_id n cf e text o x i f : parse_document n cf e text o = Ok x -> In (AFootnote i f) (dx_done x) ->
  fn_internal_id f = cf_footnote_id cf (mkFootnote (fn_name f) (fn_public_id f) [] (fn_content f)).
Proof.
  intros R Ha. destruct (document_told _ _ _ _ _ _ R) as (H & S & I & F). rewrite Forall_forall in F. exact (proj2 (F _ Ha)).
Qed.
(* With the function of Mau the ids in a list are the names: they are distinct. *)
Theorem C81_default_ids n cf md5 e text o x i l : parse_document n (default_config md5 cf) e text o = Ok x -> In (AFootnotes i l) (dx_done x) ->
  map fn_internal_id l = map fn_name l /\ NoDup (map fn_internal_id l).
Proof.
  intros R Ha. destruct (C81_footnotes_numbered _ _ _ _ _ _ _ _ R Ha) as (_ & N & K). assert (E : map fn_internal_id l = map fn_name l).
  { apply map_ext_in. intros f Hf. rewrite (K _ Hf). reflexivity. }
  rewrite E. auto.
Qed.
(* But not in a document: a block has footnotes of its own, with the same names, numbers
   and ids as those outside. *)
Definition notes (s : string) : res (list (list (str * str * str))) :=
  rmap (fun x => flat_map (fun a => match a with AFootnotes _ l => [map (fun f => (fn_name f, fn_public_id f, fn_internal_id f)) l] | _ => [] end) (dx_done x))
    (parse_document 8 (default_config zeros cf0) env_empty (mau s) (mkOrigin 0 0 None)).
Theorem C81_refuted_document : notes "----|[footnote=x]|++++|one|++++||<< footnotes|----||[footnote=x]|++++|two|++++||<< footnotes||" =
  Ok [[(lit "x", lit "1", lit "x")]; [(lit "x", lit "1", lit "x")]].
Proof. vm_compute. reflexivity. Qed.
Example C81_ex : notes "[footnote=b]|++++|one|++++||[footnote=a]|++++|two|++++||<< footnotes||" =
  Ok [[(lit "b", lit "1", lit "b"); (lit "a", lit "2", lit "a")]].
Proof. vm_compute. reflexivity. Qed.
