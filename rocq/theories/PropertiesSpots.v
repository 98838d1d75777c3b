(* PropertiesSpots.v -- the nodes are in the text *)
From Verif Require Import SpecSpots Visitors Messages PropertiesCli PropertiesDrawn PropertiesBlame BlameFacts PropertiesDoc PropertiesInclude PropertiesPlaces SimFacts RunFacts PlaceRun.
From Verif Require Import SpecObjects SpecSpots.
#[local] Notation length := List.length.

Section Spots.
  Context (W : context -> Prop).
  Definition fair (t : tree) : Prop :=
    (W (tree_ctx t) \/ tree_kind t = KLabel \/ exists c, t = inode_tree (NText [] c)) /\ forall c, spans t c -> W c.
  Definition all_fair (t : tree) : Prop := forall u, subnode u t -> fair u.

  (* what is in a node *)
  Definition parts (fs : list (string * attr)) : list tree :=
    flat_map (fun nf : string * attr => match snd nf with TNodes l => l | TNamed l => map snd l | TOne (Some t) => [t] | _ => [] end) fs.
  Lemma fair_tree k a c num fs : fair (Tree k a c num fs) -> Forall all_fair (parts fs) -> all_fair (Tree k a c num fs).
  Proof.
    intros H Hp u Hu. rewrite Forall_forall in Hp. inversion Hu as [|? ? ? ? ? nm l t Hin Ht Hs|? ? ? ? ? nm l key t Hin Ht Hs|? ? ? ? ? nm t Hin Hs]; subst; [exact H| | |].
    - apply (Hp t); [|exact Hs]. apply in_flat_map. exists (nm, TNodes l). auto.
    - apply (Hp t); [|exact Hs]. apply in_flat_map. exists (nm, TNamed l). split; [exact Hin|]. apply in_map_iff. exists (key, t). auto.
    - apply (Hp t); [|exact Hs]. apply in_flat_map. exists (nm, TOne (Some t)). split; [exact Hin|left; reflexivity].
  Qed.
  Lemma fair_at t : W (tree_ctx t) -> tree_kind t <> KIncludeMau -> fair t.
  Proof. intros H Hk. split; [left; exact H|]. intros c [E _]. contradiction. Qed.

  Lemma inode_fair : forall i, (W (inode_ctx i) \/ no_text i) -> deep W i -> all_fair (inode_tree i).
  Proof.
    fix IH 1. assert (IHl : forall l, (fix all (l : list inode) : Prop := match l with [] => True | x :: r => ((W (inode_ctx x) \/ no_text x) /\ deep W x) /\ all r end) l -> Forall all_fair (map inode_tree l)).
    { fix IHl 1. intros [|x r] H; [constructor|]. destruct H as [[H1 H2] H3]. constructor; [exact (IH x H1 H2)|exact (IHl r H3)]. }
    intros [v c|v c|v c|s l c|name a c|cl l c|t l c|u alt w hh c|id t l c|id name c|v c|v c] Hc Hd;
      (apply fair_tree; [destruct Hc as [Hc|[c1 Hc]]; [apply fair_at; [exact Hc|discriminate]|]; try discriminate Hc|]); try (constructor; fail); try (cbn [parts flat_map snd app]; rewrite app_nil_r; exact (IHl l Hd)).
    - assert (v = []) as -> by congruence. split; [right; right; exists c; reflexivity|]. intros c2 [E _]. discriminate E.
    - destruct l as [|x r]; [constructor|]. cbn [parts flat_map snd app]. rewrite app_nil_r. exact (IHl (x :: r) Hd).
  Qed.
  Lemma inodes_fair l : loose_in W l -> Forall all_fair (map inode_tree l).
  Proof. intros H. induction H as [|n l [H1 H2] _ IH]; constructor; [apply inode_fair; assumption|exact IH]. Qed.
  Lemma labels_fair l : labels_ok W l -> Forall all_fair (map snd (map (fun kv : str * list inode => (fst kv, Tree KLabel empty_args empty_context None [("role"%string, text (fst kv)); content_attr (snd kv)])) l)).
  Proof.
    intros H. induction H as [|kv l Hkv _ IH]; [constructor|]. cbn [map snd]. constructor; [|exact IH]. apply fair_tree.
    - split; [right; left; reflexivity|]. intros c [E _]. discriminate E.
    - cbn [parts flat_map snd text content_attr app]. rewrite app_nil_r. apply inodes_fair, Hkv.
  Qed.
  Lemma header_fair h : header_ok W h -> all_fair (header_tree h).
  Proof.
    intros (H1 & H2 & H3). apply fair_tree; [apply fair_at; [exact H1|discriminate]|]. cbn [parts flat_map snd number maybe content_attr labels_attr app]. rewrite app_nil_r. apply Forall_app. split; [apply inodes_fair, H2|apply labels_fair, H3].
  Qed.
  Lemma raws_fair l : raws_ok W l -> Forall all_fair (map raw_line_tree l).
  Proof. intros H. induction H as [|x l Hx _ IH]; constructor; [|exact IH]. apply fair_tree; [apply fair_at; [exact Hx|discriminate]|constructor]. Qed.
  Lemma lines_fair l : Forall (line_ok W) l -> Forall all_fair (map line_tree l).
  Proof.
    intros H. induction H as [|x l [H1 H2] _ IH]; constructor; [|exact IH]. apply fair_tree; [apply fair_at; [exact H1|discriminate]|]. cbn [parts flat_map snd content_attr labels_attr map app]. rewrite app_nil_r. apply inodes_fair, H2.
  Qed.
  Lemma sources_fair l : Forall (source_ok W) l -> Forall all_fair (map source_line_tree l).
  Proof.
    intros H. induction H as [|x l [H1 H2] _ IH]; constructor; [|exact IH]. apply fair_tree; [apply fair_at; [exact H1|discriminate]|]. cbn [parts flat_map snd text maybe app]. destruct (sl_marker x) as [m|]; cbn [option_map]; [|constructor].
    constructor; [|constructor]. apply fair_tree; [apply fair_at; [exact H2|discriminate]|constructor].
  Qed.
  (* a node, but for its own place *)
  Lemma inner_fair : forall n, inner W n -> forall u, subnode u (node_tree n) -> (u = node_tree n /\ forall c, spans u c -> W c) \/ fair u.
  Proof.
    assert (Step : forall k a c num fs, (forall c0, spans (Tree k a c num fs) c0 -> W c0) -> Forall all_fair (parts fs) -> forall u, subnode u (Tree k a c num fs) -> (u = Tree k a c num fs /\ forall c0, spans u c0 -> W c0) \/ fair u).
    { intros k a c num fs Hs Hp u Hu. rewrite Forall_forall in Hp. inversion Hu as [|? ? ? ? ? nm l t Hin Ht Hs'|? ? ? ? ? nm l key t Hin Ht Hs'|? ? ? ? ? nm t Hin Hs']; subst; [left; split; [reflexivity|exact Hs]| | |]; right.
      - apply (Hp t); [|exact Hs']. apply in_flat_map. exists (nm, TNodes l). auto.
      - apply (Hp t); [|exact Hs']. apply in_flat_map. exists (nm, TNamed l). split; [exact Hin|]. apply in_map_iff. exists (key, t). auto.
      - apply (Hp t); [|exact Hs']. apply in_flat_map. exists (nm, TOne (Some t)). split; [exact Hin|left; reflexivity]. }
    fix IH 1.
    assert (IHl : forall l, (fix all (l : list dnode) : Prop := match l with [] => True | x :: r => (W (dnode_ctx x) /\ inner W x) /\ all r end) l -> Forall all_fair (map node_tree l)).
    { fix IHl 1. intros [|x r] H; [constructor|]. destruct H as [[H1 H2] H3]. constructor; [|exact (IHl r H3)]. intros u Hu. destruct (IH x H2 u Hu) as [[-> K]|K]; [|exact K].
      split; [left|exact K]. clear - H1. destruct x; exact H1. }
    assert (Other : forall k a c num fs, k <> KIncludeMau -> forall c0, spans (Tree k a c num fs) c0 -> W c0) by (intros k a c num fs Hk c0 [E _]; contradiction).
    intros [a|h|lines a|cl l a|cl lines a|cl lg lines a|o m st l a|lv l c|u0 alt cl a|u0 l a|u0 lines a|i a|i a|i nm a|ct a] H; cbn [inner] in H; cbn [node_tree app].
    2:{ intros u Hu. right. exact (header_fair h H u Hu). }
    all: apply Step; [first [apply Other; discriminate|idtac]|cbn [parts flat_map snd text maybe texts number content_attr labels_attr app]; rewrite ?app_nil_r].
    all: try exact (labels_fair _ H).
    all: try (destruct H as [H1 H2]; apply Forall_app; split; [|exact (labels_fair _ H2)]).
    - exact (lines_fair _ H1).
    - exact (IHl l H1).
    - exact (raws_fair _ H1).
    - exact (sources_fair _ H1).
    - exact (IHl l H1).
    - exact (inodes_fair _ H).
    - destruct H as [[_ H] _]. intros c (_ & first & final & before & E1 & E2 & ->). cbn [contents find fst String.eqb] in E1, E2.
      clear - H E1 E2. cbn in E1, E2. destruct l as [|f r]; [discriminate E1|]. assert (first = node_tree f) as -> by (cbn in E1; congruence).
      assert (Ef : final = node_tree (last (f :: r) f)).
      { assert (K : last (map node_tree (f :: r)) (node_tree f) = last (before ++ [final]) (node_tree f)) by (rewrite E2; reflexivity). rewrite last_last in K. rewrite <- K. clear. generalize f at 2 4. revert f. induction r as [|g r IHr]; intros f d; [reflexivity|]. cbn [map last]. exact (IHr g d). }
      subst final. assert (Ec : forall n, tree_ctx (node_tree n) = dnode_ctx n) by (intros []; reflexivity). rewrite !Ec. exact (H f r eq_refl).
    - destruct H1 as [H1 _]. exact (IHl l H1).
    - exact (raws_fair _ H1).
  Qed.
End Spots.

Section Page.
  Context (cf : config) (text : str) (o : origin).
  #[local] Notation W := (in_text cf text o).

  Lemma page_in_text : (forall c, within (o_source o) (o_line o) (last_line text (o_line o)) c -> W c) /\ with_files W cf.
  Proof. split; [intros c H; left; exact H|]. intros uri t c Hf Hc. right. exists uri, t. auto. Qed.
  Lemma stored_page n e x : calm_env e -> parse_document n cf e text o = Ok x ->
    nameless cf n e 0 [] [] text o \/ stored W (within (o_source o) (o_line o) (last_line text (o_line o))) x.
  Proof.
    intros He H. destruct page_in_text as [H1 H2]. destruct (run_places W cf n H2 e 0 [] [] text o He H1 (Forall_nil _)) as [K|K]; [left; exact K|right]. unfold parse_document in H. rewrite H in K. apply K.
  Qed.
  Lemma fair_here done r u : fair W u -> in_text cf text o (tree_ctx u) \/ placeless done r u.
  Proof.
    intros [[H|[H|[c ->]]] _]; [left; exact H|right; apply pl_label; exact H|right]. eapply pl_empty; [reflexivity|]. cbn. auto.
  Qed.
  Lemma node_ctx n : tree_ctx (node_tree n) = dnode_ctx n.
  Proof. destruct n; reflexivity. Qed.
  Lemma node_fair n : node_ok W n -> all_fair W (node_tree n).
  Proof.
    intros [H1 H2] u Hu. destruct (inner_fair W n H2 u Hu) as [[-> K]|K]; [|exact K]. split; [left; rewrite node_ctx; exact H1|exact K].
  Qed.
  (* the nodes that are parsed, and the documents that are included *)
  Lemma root_fair x d : stored W (within (o_source o) (o_line o) (last_line text (o_line o))) x -> document_of x = Some d ->
    forall r t, root d (dx_done x) r -> subnode t r -> (in_text cf text o (tree_ctx t) \/ placeless (dx_done x) r t) /\ forall c, spans t c -> in_text cf text o c.
  Proof.
    intros (A & _ & _ & _ & _ & _ & _ & B) Ed r t Hr Ht.
    assert (Fair : fair W t -> (in_text cf text o (tree_ctx t) \/ placeless (dx_done x) r t) /\ forall c, spans t c -> in_text cf text o c) by (intros K; split; [apply fair_here, K|apply K]).
    rewrite Forall_forall in B. destruct Hr as [|a b Ha Hb|i nested plain h Ha Hh|i h content Ha].
    - apply Fair. revert t Ht Fair. assert (K : all_fair W (document_tree d)); [|intros t Ht _; exact (K t Ht)].
      unfold document_of in Ed. destruct (dx_nodes x) as [|n l] eqn:En; [discriminate Ed|]. assert (d = (n :: l, merge_contexts (dnode_ctx n) (dnode_ctx (last (n :: l) n)))) as -> by congruence.
      apply fair_tree.
      + apply fair_at; [|discriminate]. inversion A as [|? ? [A1 _] A2]; subst. left. cbn [tree_ctx snd]. apply merge_l; [exact A1|]. apply within_near.
        exact (proj1 (last_in (fun n => within (o_source o) (o_line o) (last_line text (o_line o)) (dnode_ctx n) /\ node_ok W n) n l (conj A1 (proj2 (Forall_inv A))) A2)).
      + cbn [parts flat_map snd fst app]. rewrite app_nil_r. apply Forall_forall. intros u Hu. apply in_map_iff in Hu as (n0 & <- & Hn0). apply node_fair. exact (proj2 (proj1 (Forall_forall _ _) A n0 Hn0)).
    - specialize (B a Ha).
      assert (Body : forall f, In f (notes_of a) -> body_ok W (snd (fn_content f)) -> b = snd (fn_content f) -> (in_text cf text o (tree_ctx t) \/ placeless (dx_done x) (node_tree b) t) /\ forall c, spans t c -> in_text cf text o c).
      { intros f Hf [K1 K2] E. subst b. destruct (inner_fair W _ K2 t Ht) as [[-> K]|K]; [|exact (Fair K)]. split; [|exact K]. rewrite node_ctx. destruct K1 as [K1|K1]; [left; exact K1|right]. eapply pl_body; [exact Ha|exact Hf|reflexivity|reflexivity|rewrite node_ctx; exact K1]. }
      destruct a as [i f|i l|i id|i nested plain|i h content|i nm items]; cbn [set_apart assign_ok] in Hb, B; try contradiction.
      + destruct Hb as [<-|[]]. exact (Body f (or_introl eq_refl) B eq_refl).
      + apply in_map_iff in Hb as (f & E & Hf). exact (Body f Hf (proj1 (Forall_forall _ _) B f Hf) (eq_sym E)).
      + apply Fair. apply in_map_iff in Hb as (kv & <- & Hkv). exact (node_fair _ (proj1 (Forall_forall _ _) B kv Hkv) t Ht).
    - apply Fair. specialize (B _ Ha). cbn [assign_ok] in B. exact (header_fair W h (proj1 (Forall_forall _ _) B h Hh) t Ht).
    - apply Fair. specialize (B _ Ha). cbn [assign_ok] in B. exact (header_fair W h (proj1 B) t Ht).
  Qed.

  (* C83: every node of a parsed document has a place in the text, or in a file that can be
     included; but for labels, texts that are empty, and bodies of footnotes. *)
  Theorem C83_node n e x d : calm_env e -> parse_document n cf e text o = Ok x -> document_of x = Some d ->
    nameless cf n e 0 [] [] text o \/
    forall r t, root d (dx_done x) r -> subnode t r -> in_text cf text o (tree_ctx t) \/ placeless (dx_done x) r t.
  Proof. intros He H Ed. destruct (stored_page n e x He H) as [K|K]; [left; exact K|right]. intros r t Hr Ht. apply (root_fair x d K Ed r t Hr Ht). Qed.
  (* and the document that is included goes from its first node to its last one *)
  Theorem C83_included n e x d : calm_env e -> parse_document n cf e text o = Ok x -> document_of x = Some d ->
    nameless cf n e 0 [] [] text o \/
    forall r t c, root d (dx_done x) r -> subnode t r -> spans t c -> in_text cf text o c.
  Proof. intros He H Ed. destruct (stored_page n e x He H) as [K|K]; [left; exact K|right]. intros r t c Hr Ht Hs. apply (root_fair x d K Ed r t Hr Ht), Hs. Qed.
  (* The nodes of the document itself are in the text, with the whole document. *)
  Theorem C83_top n e x d : calm_env e -> parse_document n cf e text o = Ok x -> document_of x = Some d ->
    nameless cf n e 0 [] [] text o \/
    (within (o_source o) (o_line o) (last_line text (o_line o)) (tree_ctx (document_tree d)) /\
     forall t, In t (contents (document_tree d)) -> within (o_source o) (o_line o) (last_line text (o_line o)) (tree_ctx t)).
  Proof.
    intros He H Ed. destruct (stored_page n e x He H) as [K|(A & _)]; [left; exact K|right].
    unfold document_of in Ed. destruct (dx_nodes x) as [|n0 l] eqn:En; [discriminate Ed|]. assert (d = (n0 :: l, merge_contexts (dnode_ctx n0) (dnode_ctx (last (n0 :: l) n0)))) as -> by congruence. clear Ed.
    split.
    - inversion A as [|? ? [A1 _] A2]; subst. cbn [document_tree tree_ctx snd]. apply merge_l; [exact A1|]. apply within_near.
      exact (proj1 (last_in (fun n => within (o_source o) (o_line o) (last_line text (o_line o)) (dnode_ctx n) /\ node_ok W n) n0 l (conj A1 (proj2 (Forall_inv A))) A2)).
    - intros t Ht. change (In t (map node_tree (n0 :: l))) in Ht. apply in_map_iff in Ht as (m & <- & Hm). rewrite node_ctx. exact (proj1 (proj1 (Forall_forall _ _) A m Hm)).
  Qed.
End Page.

Lemma appears_somewhere n cf e text o x d k a c : calm_env e -> parse_document n cf e text o = Ok x -> document_of x = Some d -> appears d (dx_done x) k a c ->
  nameless cf n e 0 [] [] text o \/ in_text cf text o c \/
  (exists r t, root d (dx_done x) r /\ subnode t r /\ tree_kind t = k /\ placeless (dx_done x) r t) \/
  In k [KFootnote; KFootnotesItem; KTocItem; KBlockGroupItem].
Proof.
  intros He Hp Ed H. destruct H as [r t Hr Ht|r t first final before Hr Ht Hk H1 H2|k Hk].
  - destruct (C83_node cf text o n e x d He Hp Ed) as [K|K]; [left; exact K|right]. destruct (K r t Hr Ht) as [P|P]; [left; exact P|right; left]. exists r, t. auto.
  - destruct (C83_included cf text o n e x d He Hp Ed) as [K|K]; [left; exact K|right; left]. apply (K r t _ Hr Ht). split; [exact Hk|]. exists first, final, before. auto.
  - right. right. right. exact Hk.
Qed.

(* The error of a visitor names a place in the text, unless it is about one of the nodes
   that have no place. *)
Theorem C83_error cf text o n e x d jc flat ts v prefixes jinja depth m :
  calm_env e -> parse_document n cf e text o = Ok x -> document_of x = Some d ->
  all_templates jc (dx_env x) = Ok flat -> build_templates (jc_extension jc) flat = Ok ts -> jinja_init jc (dx_env x) = Ok v ->
  iter_value (env_get (dx_env x) (lit "mau.visitor.templates.prefixes")) = Ok prefixes ->
  (forall content config dat m', jinja content config dat <> JRaises (ExMau m')) ->
  vs_render (jinja_class jc jinja depth) (dx_env x) (Some d) (dx_done x) = Exc (ExMau m) ->
  nameless cf n e 0 [] [] text o \/
  exists what k place, m = MsgVisitor what (Some place) (Some (type_name k)) /\
    ((exists c, in_text cf text o c /\ for_people c place) \/
     (exists r t, root d (dx_done x) r /\ subnode t r /\ tree_kind t = k /\ placeless (dx_done x) r t) \/
     In k [KFootnote; KFootnotesItem; KTocItem; KBlockGroupItem]).
Proof.
  intros He Hp Ed T1 T2 T3 T4 Hj Hr. destruct (C82_error jc (dx_env x) flat ts v prefixes T1 T2 T3 T4 jinja depth d (dx_done x) m Hj Hr) as (k & a & c & place & Ha & Hpl & what & _ & ->).
  destruct (appears_somewhere n cf e text o x d k a c He Hp Ed Ha) as [K|K]; [left; exact K|right]. exists what, k, place. split; [reflexivity|]. destruct K as [K|K]; [left; exists c; auto|right; exact K].
Qed.

(* When the document has no blocks and no includes, and its variables have names. *)
Theorem C83_simple cf text o n e x d toks : calm_env e -> NoDup (keys e) -> dget [] e = None -> lex_document (buffer text o) = Ok toks -> simple_tokens toks ->
  parse_document n cf e text o = Ok x -> document_of x = Some d ->
  forall r t, root d (dx_done x) r -> subnode t r -> in_text cf text o (tree_ctx t) \/ placeless (dx_done x) r t.
Proof.
  intros He Hk H0 Hl Hs Hp Ed. destruct (C83_node cf text o n e x d He Hp Ed) as [K|K]; [|exact K]. exfalso. exact (simple_named cf n e 0 [] [] text o toks Hl Hs Hk H0 K).
Qed.

(* The nodes of a document with their places: the source, then the first line and column
   and the last ones. *)
Fixpoint spots (t : tree) : list (str * (option str * (nat * nat) * (nat * nat))) :=
  let all := fix all (l : list tree) := match l with [] => [] | x :: r => spots x ++ all r end in
  match t with
  | Tree k _ c _ fs => (type_name k, (c_source c, (c_start_line c, c_start_column c), (c_end_line c, c_end_column c))) ::
    (fix each (fs : list (string * attr)) := match fs with
     | [] => []
     | (_, TNodes l) :: r => all l ++ each r
     | (_, TNamed l) :: r => (fix named (l : list (str * tree)) := match l with [] => [] | (_, x) :: r => spots x ++ named r end) l ++ each r
     | (_, TOne (Some x)) :: r => spots x ++ each r
     | _ :: r => each r
     end) fs
  end.
Definition spots_of (s : string) : res (list (str * (option str * (nat * nat) * (nat * nat)))) :=
  rmap (fun x => match document_of x with Some d => spots (document_tree d) | None => [] end) (parse_document 5 cf_files1 [(lit "v", EStr (lit "x")); (lit "w", EStr (lit "x"))] (mau s) (mkOrigin 0 0 (Some (lit "a")))).
Example C83_ex : spots_of "= One||two|*three*||<< mau:f||----|* four [class](five, c)|----|" = Ok (
  map (fun x => (lit (fst (fst x)), (Some (lit (snd (fst x))), fst (snd x), snd (snd x))))
  [("document", "a", ((0, 0), (9, 5))); ("header", "a", ((0, 0), (0, 5))); ("text", "a", ((0, 2), (0, 5)));
   ("paragraph", "a", ((2, 0), (3, 7))); ("paragraph-line", "a", ((2, 0), (2, 3))); ("text", "a", ((2, 0), (2, 3)));
   ("paragraph-line", "a", ((3, 0), (3, 7))); ("style", "a", ((3, 0), (3, 7))); ("text", "a", ((3, 1), (3, 6)));
   ("include-mau", "a", ((5, 0), (5, 6)));
   ("paragraph", "f", ((0, 0), (0, 7))); ("paragraph-line", "f", ((0, 0), (0, 7))); ("text", "f", ((0, 0), (0, 3)));
   ("paragraph", "f", ((2, 0), (2, 7))); ("paragraph-line", "f", ((2, 0), (2, 7))); ("text", "f", ((2, 0), (2, 3)));
   ("block", "a", ((7, 0), (9, 4))); ("list", "a", ((8, 0), (8, 23))); ("list-item", "a", ((8, 0), (8, 23))); ("text", "a", ((8, 2), (8, 7)));
   ("macro-class", "a", ((8, 7), (8, 23))); ("text", "a", ((8, 15), (8, 19)))]%string).
Proof. vm_compute. reflexivity. Qed.
Example C83_ex_hypotheses : calm_env [(lit "v", EStr (lit "x")); (lit "w", EStr (lit "x"))] /\
  ~ nameless cf_files1 5 [(lit "v", EStr (lit "x"))] 0 [] [] (mau "= One||:w:7|*two*") (mkOrigin 0 0 (Some (lit "a"))).
Proof.
  split; [repeat constructor; intros [H|[]]; discriminate H|]. eapply simple_named; [vm_compute; reflexivity| |repeat constructor; intros []|reflexivity].
  split; [repeat (constructor; [split; discriminate|]); constructor|].
  intros pre o n post E Ho. repeat (destruct pre as [|? pre]; [injection E as <- <- _; try discriminate Ho; repeat split; discriminate|injection E as _ E]).
  all: destruct pre as [|? [|? pre]]; discriminate E.
Qed.

(* C83 is false for texts that are empty (finding 42): the place of the target of this link
   is the beginning of no file, although the link has a place. *)
Theorem C83_refuted_empty : exists s, option_map (fun l => skipn 4 l) (match spots_of s with Ok l => Some l | _ => None end) =
  Some [(lit "macro-link", (Some (lit "a"), (0, 2), (0, 12))); (lit "text", (None, (0, 0), (0, 0)))].
Proof. exists "a [link]("""")"%string. vm_compute. reflexivity. Qed.
