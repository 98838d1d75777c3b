(* SpecPages.v -- what a writer puts in a document, and how it is written (C86) *)
From Verif Require Export SpecGrammar SpecCases SpecText SpecArgs SpecPre Managers.
From Verif Require SpecManagers SpecTree PropertiesAlias.
From Verif Require Import PropertiesText PropertiesPre PropertiesCond.
From Verif Require Export DocParser.
#[local] Notation length := List.length.
Notation line := (list itree).

(* A list: each entry is an item, or a list inside it. *)
Inductive entry := Item (text : line) | Sub (ordered : bool) (items : list entry).

(* A line of source code: its text; its highlight style, or the callout at its end. *)
Record code := mkCode { cd_text : str; cd_style : option str; cd_callout : option str }.

(* What a document is made of.  Each node comes with the arguments and the labels that
   are written before it. *)
Inductive page :=
| PRule (a : option (list arg)) (l : dict line)
| PHeading (a : option (list arg)) (l : dict line) (level : nat) (text : line)
| PParagraph (a : option (list arg)) (l : dict line) (lines : list line)
| PList (a : option (list arg)) (l : dict line) (ordered : bool) (items : list entry)
| PBlock (a : option (list arg)) (l : dict line) (content : list page)
| PRaw (a : option (list arg)) (l : dict line) (lines : list str)
| PSource (a : option (list arg)) (l : dict line) (lines : list code)
| PImage (a : option (list arg)) (l : dict line)
| PFile (a : option (list arg)) (l : dict line) (name : str) (content : list page)
| PLines (a : option (list arg)) (l : dict line) (name : str) (lines : list str)
| PGroup (a : option (list arg)) (l : dict line) (name : str)
| PInclude (a : option (list arg)) (l : dict line) (what : str).

(* ------------------------------------------------ variables *)
Definition now (V : world) (k : str) (v : str) : world := fun j => if str_eqb j k then Some (EStr v) else V j.
(* s with its variables replaced, and without the escapes of braces, is w *)
Definition becomes (V : world) (s w : str) : Prop :=
  exists ps final, s = line_text ps final /\ line_ok ps final /\
    line_value (fun k => option_map py_str (V k)) ps (final_value ps final) = Some w.

(* A condition: a variable, == or !=, a value.  Is the next node shown? *)
Notation condition := (str * bool * str)%type.
Definition verdict (V : world) (c : option condition) (b : bool) : Prop :=
  match c with
  | None => b = true
  | Some (v, equal, w) => exists x, V v = Some x /\ (b = true <-> if equal : bool then x = EStr w else x <> EStr w)
  end.
Definition tests (V : world) (c : condition) (s : str) : Prop :=
  let '(v, equal, w) := c in
  exists sp1 sp2, becomes V s (condition_text v sp1 equal sp2 w) /\ var_name v /\ spaces sp1 /\ spaces sp2 /\ cond_value w.
Definition shown (b : bool) (p : page) : list page := if b then [p] else [].

(* ------------------------------------------------ footnotes and links *)
(* what is mentioned and what is defined *)
Inductive use := UFoot (name : str) | UHead (name : str) | UBody (name : str) | UName (name : str)
(* a group of blocks is drawn, a block is put in a group, a file includes another *)
| UGroup (name : str) | UItem (group position : str) | UFile (source : option str) (name : str).
Definition foots_of (us : list use) : list str := flat_map (fun u => match u with UFoot n => [n] | _ => [] end) us.
Definition heads_of (us : list use) : list str := flat_map (fun u => match u with UHead n => [n] | _ => [] end) us.
Definition bodies_of (us : list use) : list str := flat_map (fun u => match u with UBody n => [n] | _ => [] end) us.
Definition names_of (us : list use) : list str := flat_map (fun u => match u with UName n => [n] | _ => [] end) us.
Definition groups_of (us : list use) : list str := flat_map (fun u => match u with UGroup n => [n] | _ => [] end) us.
Definition items_of (us : list use) : list (str * str) := flat_map (fun u => match u with UItem g p => [(g, p)] | _ => [] end) us.
Definition files_of (us : list use) : list str := flat_map (fun u => match u with UFile _ n => [n] | _ => [] end) us.
Definition sources_of (us : list use) : list (option str) := flat_map (fun u => match u with UFile s _ => [s] | _ => [] end) us.
Definition loads (us : list use) : list use := filter (fun u => match u with UFile _ _ => true | _ => false end) us.
(* Everything that is mentioned is defined, once. A file is included once, and not by itself. *)
Definition linked (us : list use) : Prop :=
  (NoDup (bodies_of us) /\ NoDup (names_of us) /\ incl (foots_of us) (bodies_of us) /\ incl (heads_of us) (names_of us)) /\
  (NoDup (items_of us) /\ incl (groups_of us) (map fst (items_of us))) /\
  (NoDup (files_of us) /\ forall f, In f (files_of us) -> ~ In (Some f) (sources_of us)).
(* the mentions in a text; those in the texts of macros are not registered *)
Fixpoint tree_uses (t : itree) : list use :=
  match t with
  | IFoot n => [UFoot n]
  | IHead n | IHeadText n _ => [UHead n]
  | IStyle _ l => concat (map tree_uses l)
  | _ => []
  end.
Definition uses (l : line) : list use := concat (map tree_uses l).
Fixpoint entry_uses (e : entry) : list use :=
  match e with Item t => uses t | Sub _ es => concat (map entry_uses es) end.

(* ------------------------------------------------ how it is written *)
(* some text with styles, code, escapes, mentions of footnotes and headers, and conditions;
   the mentions in the cases of a condition are not registered *)
Definition quiet (l : line) : Prop := uses l = [].
Definition means (V : world) (l : line) (s : str) : Prop :=
  exists w k, becomes V s (w ++ repeat SP k) /\ conditional V quiet l w /\ no_space_end w /\ l <> [].
(* the entries of a list of level n: the marker and the text of each line *)
Definition marks (n : nat) (m : str) : Prop := length m = n /\ m <> [].
Definition sub_first (es : list entry) : Prop := exists o l r, es = Sub o l :: r.
Inductive entries (V : world) (n : nat) : list entry -> list (str * str) -> Prop :=
| en_end : entries V n [] []
| en_item t m s es ps : marks n m -> means V t s -> entries V n es ps -> entries V n (Item t :: es) ((m, s) :: ps)
| en_sub n' o t subs m s ps1 es ps2 : n < n' -> entries V n' (Item t :: subs) ((m, s) :: ps1) ->
    (o = true <-> exists r, m = lit "#" ++ r) -> ~ sub_first es -> entries V n es ps2 ->
    entries V n (Sub o (Item t :: subs) :: es) ((m, s) :: ps1 ++ ps2).

(* the value of a named argument *)
Definition key (a : option (list arg)) (k : string) : option str :=
  match a with None => None | Some l => named_of l (lit k) end.
Definition not_given (a : option (list arg)) (k : string) : Prop := key a k = None \/ key a k = Some [].

(* Some nodes take their own arguments by name or by position: of their names, those that
   are not given are for the first values, in order. *)
Definition open_names (names : list string) (l : list arg) : list str :=
  filter (fun n => match named_of l n with Some _ => false | None => true end) (map lit names).
Definition filled (names : list string) (a : option (list arg)) (k : string) : option str :=
  match a with
  | None => None
  | Some l => match named_of l (lit k) with
              | Some v => Some v
              | None => dget (lit k) (combine (open_names names l) (plain_of (unnamed_of l)))
              end
  end.

(* Every document has an alias, source: the engine is source, unless another is given, and
   the first value is the language, unless it is given. *)
Definition ALIASES : str := lit "mau.parser.aliases".
Definition usual_aliases (V : world) : Prop := V ALIASES = None /\ forall r, V (ALIASES ++ DOT :: r) = dget (ALIASES ++ DOT :: r) base_env.
Definition as_source (l l' : list arg) : Prop :=
  let us := unnamed_of l in let us' := unnamed_of l' in let names := open_names ["language"]%string l in
  plain_of us' = skipn (length names) (plain_of us) /\ marked_with HASH us' = marked_with HASH us /\ marked_with STAR us' = marked_with STAR us /\
  forall k, named_of l' k = match named_of l k, dget k (combine names (plain_of us)) with
                            | Some v, _ | None, Some v => Some v
                            | None, None => if str_eqb k (lit "engine") then Some (lit "source") else None
                            end.
(* An alias of the user (C23): keys, names for values and a subtype, whatever the order of
   the variables that define it; the arguments it gives. *)
Definition alias_of (V : world) (name : str) (args : dict env_val) (names : list str) (sub : option str) : Prop :=
  forall e, NoDup (keys e) -> (forall k, dget k e = V k) ->
    exists def a, PropertiesArgs.alias_definition e name def /\ PropertiesArgs.alias_args def = Some a /\ NoDup (keys a) /\
      (forall k, dget k a = dget k args) /\ PropertiesAlias.alias_names def names /\ PropertiesAlias.alias_subtype def = sub.
Definition as_alias (args : dict env_val) (names : list str) (sub : option str) (l l' : list arg) : Prop :=
  let us := unnamed_of l in let us' := unnamed_of l' in let free := PropertiesAlias.free_names l args names in
  plain_of us' = skipn (length free) (plain_of us) /\ marked_with HASH us' = marked_with HASH us /\
  hd_error (marked_with STAR us') = match hd_error (marked_with STAR us) with Some s => Some s | None => sub end /\
  forall k, named_of l' k = match named_of l k with
                            | Some v => Some v
                            | None => match dget k args with Some v => Some (py_str v) | None => dget k (combine free (plain_of us)) end
                            end.
(* arguments: values, keys, tags and a subtype, and maybe an alias *)
Definition arguments (V : world) (l' : list arg) (s : str) : Prop :=
  exists l w, becomes V s w /\ writes_args l w /\ ~ misplaced l /\ Forall single_mark (unnamed_of l) /\
    length (marked_with STAR (unnamed_of l)) <= 1 /\
    (marked_with AT (unnamed_of l) = [] /\ l' = l \/ marked_with AT (unnamed_of l) = [lit "source"] /\ usual_aliases V /\ as_source l l' \/
     exists name args names sub, marked_with AT (unnamed_of l) = [name] /\ alias_of V name args names sub /\ NoDup names /\ as_alias args names sub l l').

(* ------------------------------------------------ source code *)
Definition choice (a : option (list arg)) (k : string) (default : string) : str :=
  match key a k with Some v => v | None => lit default end.
(* The names of the styles stand for texts. *)
Definition STYLES : str := lit "mau.parser.source_highlight_style_aliases".
Definition plain_styles (V : world) : Prop :=
  V STYLES = None /\ forall r v, V (STYLES ++ DOT :: r) = Some v -> no_chr DOT r /\ exists s, v = EStr s.
Definition styled (V : world) (name : str) : str :=
  match V (STYLES ++ DOT :: name) with Some v => py_str v | None => name end.
(* A line may end with a mark between two delimiters: a style begins with "@". *)
Inductive codes (V : world) (a : option (list arg)) (d : N) : str -> code -> Prop :=
| cs_plain w : (forall s m, w <> s ++ [d] ++ m ++ [d]) -> codes V a d w (mkCode w None None)
| cs_nothing s : choice a "highlight_marker" "@" <> [] -> codes V a d (s ++ [d] ++ [d]) (mkCode s None None)
| cs_callout s m : no_chr d m -> m <> [] -> (forall r, m <> choice a "highlight_marker" "@" ++ r) ->
    codes V a d (s ++ [d] ++ m ++ [d]) (mkCode s None (Some m))
| cs_highlight s m r : m = choice a "highlight_marker" "@" ++ r -> no_chr d m ->
    codes V a d (s ++ [d] ++ m ++ [d])
      (mkCode s (Some (styled V (match m with _ :: c :: q => c :: q | _ => choice a "highlight_default_style" "default" end))) None).

(* what follows a paragraph does not continue it *)
Inductive cut : list str -> Prop :=
| cut_end : cut []
| cut_line l t v ts r : reads l ((t, v) :: ts) -> t <> T_TEXT -> cut (l :: r)
| cut_fence c r : fence_char c -> cut (fence c :: r)
| cut_comment s r : s <> lit "//" -> cut r -> cut ((lit "//" ++ s) :: r)
| cut_section cs r : ~ In slashes cs -> cut r -> cut (slashes :: cs ++ slashes :: r).
(* the number of the first item of a list: a number between spaces, with a sign and
   separators (C73); start=auto is not part of this grammar *)
Definition starts (a : option (list arg)) (z : Z) : Prop :=
  match key a "start" with None => z = 1%Z | Some v => SpecTree.written_number v z end.
(* a list ends at an empty line *)
Inductive list_cut : list str -> Prop :=
| lcut_end : list_cut []
| lcut_line r : list_cut ([] :: r)
| lcut_comment s r : s <> lit "//" -> list_cut r -> list_cut ((lit "//" ++ s) :: r)
| lcut_section cs r : ~ In slashes cs -> list_cut r -> list_cut (slashes :: cs ++ slashes :: r).

Definition role_of (r : str) : str := match r with [] => lit "title" | _ => r end.
(* the name of a heading *)
Definition name_use (b : bool) (a : option (list arg)) : list use :=
  match b, key a "name" with true, Some (c :: n) => [UName (c :: n)] | _, _ => [] end.

(* The variables with these names configure functions. *)
Definition FUNCTIONS : list str :=
  [lit "mau.parser.document_wrapper"; lit "mau.parser.header_internal_id_function"; lit "mau.parser.footnote_unique_id_function"].
Definition ordinary (k : str) : Prop := forall f, In f FUNCTIONS -> k <> f /\ forall r, k <> f ++ DOT :: r.
(* the includes that need arguments *)
Definition LOADERS : list str := [lit "image"; lit "mau"; lit "raw"; lit "blockgroup"].
(* the type of an include, and its arguments: those before it, or its own *)
Inductive includes (V : world) (what : str) : option (list arg) -> option (list arg) -> str -> Prop :=
| inc_bare a w : reads w [(T_INCLUDE, lit "<<"); (T_TEXT, what)] -> includes V what a a w
| inc_with d w s : reads w [(T_INCLUDE, lit "<<"); (T_TEXT, what); (T_LITERAL, lit ":"); (T_TEXT, s)] -> arguments V d s ->
    includes V what None (Some d) w.
(* The variables of an included file: those of the document, unless pass_environment is not
   true, and the arguments that begin with call: *)
Definition copyable (V : world) : Prop :=
  forall k v, V k = Some v -> is_leaf v /\ (forall r, V (k ++ DOT :: r) = None) /\ forall r, k <> DOT :: r.
Definition called (g : option (list arg)) (k : str) : option str :=
  match g with None => None | Some l => named_of l (lit "call:" ++ k) end.
Definition passes (V : world) (g : option (list arg)) (W : world) : Prop :=
  (forall k, called g k <> None -> ordinary k) /\
  exists B : world, (choice g "pass_environment" "true" = lit "true" /\ copyable V /\ B = V \/
                     choice g "pass_environment" "true" <> lit "true" /\ B = fun k => dget k base_env) /\
    forall k, W k = match called g k with Some v => Some (EStr v) | None => B k end.
Definition IMAGE_NAMES : list string := ["uri"; "alt_text"; "classes"]%string.
Definition has_uri (a : option (list arg)) : Prop := exists ch r, filled IMAGE_NAMES a "uri" = Some (ch :: r).
Definition block_args (a : option (list arg)) : Prop :=
  (not_given a "group" \/ not_given a "position") /\ key a "isolate" <> Some (lit "false").

(* [lays F src n V c a l ps us ls V']: the lines ls are the pages ps (those that are shown), with
   blocks nested at most n times.  V are the variables before, V' after; the condition c,
   the arguments a and the labels l have been written before; us are the footnotes and the
   headers that are mentioned and defined, in blocks excepted. F are the files; the text comes from the file src. *)
Inductive lays (F : str -> file) (src : option str) : nat -> world -> option condition -> option (list arg) -> dict line -> list page -> list use -> list str -> world -> Prop :=
| lay_end n V c a l : lays F src n V c a l [] [] [] V
| lay_blank n V c a l k ps us ls V' : lays F src n V c a l ps us ls V' -> lays F src n V c a l ps us (sps k :: ls) V'
| lay_comment n V c a l s ps us ls V' : s <> lit "//" -> lays F src n V c a l ps us ls V' -> lays F src n V c a l ps us ((lit "//" ++ s) :: ls) V'
| lay_section n V c a l cs ps us ls V' : ~ In slashes cs -> lays F src n V c a l ps us ls V' -> lays F src n V c a l ps us (slashes :: cs ++ slashes :: ls) V'
| lay_define n V c a l w name s v ps us ls V' :
    reads w [(T_VARIABLE, lit ":"); (T_TEXT, name); (T_LITERAL, lit ":"); (T_TEXT, s)] ->
    ~ In (hd 0%N name) (lit "+-") -> s <> [] -> becomes V s v -> v <> [] -> ordinary name ->
    lays F src n (now V name v) c a l ps us ls V' -> lays F src n V c a l ps us (w :: ls) V'
| lay_flag n V c a l w (on : bool) name ps us ls V' :
    reads w [(T_VARIABLE, lit ":"); (T_TEXT, (if on then lit "+" else lit "-") ++ name); (T_LITERAL, lit ":")] -> cut ls -> ordinary name ->
    lays F src n (now V name (if on then lit "true" else lit "false")) c a l ps us ls V' -> lays F src n V c a l ps us (w :: ls) V'
| lay_condition n V c a l w s d ps us ls V' : reads w [(T_CONTROL, lit "@"); (T_TEXT, lit "if"); (T_TEXT, s)] -> tests V d s ->
    lays F src n V (Some d) a l ps us ls V' -> lays F src n V c a l ps us (w :: ls) V'
| lay_arguments n V c a l b s ps us ls V' : arguments V b s -> lays F src n V c (Some b) l ps us ls V' ->
    lays F src n V c a l ps us ((lit "[" ++ s ++ lit "]") :: ls) V'
| lay_label n V c a l w role s t ps us ls V' : reads w [(T_LABEL, lit "." ++ role); (T_TEXT, s)] -> means V t s ->
    lays F src n V c a (dset (role_of role) t l) ps us ls V' -> lays F src n V c a l ps (uses t ++ us) (w :: ls) V'
| lay_rule n V c a l b ps us ls V' : verdict V c b -> lays F src n V None None [] ps us ls V' ->
    lays F src n V c a l (shown b (PRule a l) ++ ps) us (lit "---" :: ls) V'
| lay_heading n V c a l b w k s t ps us ls V' : reads w [(T_HEADER, EQ1 k); (T_TEXT, s)] -> means V t s -> verdict V c b ->
    lays F src n V None None [] ps us ls V' ->
    lays F src n V c a l (shown b (PHeading a l (S k) t) ++ ps) (uses t ++ name_use b a ++ us) (w :: ls) V'
| lay_paragraph n V c a l b ts ws ps us ls V' : ts <> [] -> Forall2 (fun t w => means V t w /\ reads w [(T_TEXT, w)]) ts ws -> cut ls ->
    verdict V c b -> lays F src n V None None [] ps us ls V' ->
    lays F src n V c a l (shown b (PParagraph a l ts) ++ ps) (concat (map uses ts) ++ us) (ws ++ ls) V'
| lay_list n V c a l b k o z t es m s qs ws ps us ls V' : entries V k (Item t :: es) ((m, s) :: qs) ->
    (o = true <-> exists r, m = lit "#" ++ r) -> starts a z ->
    Forall2 (fun q w => reads w [(T_LIST, fst q); (T_TEXT, snd q)]) ((m, s) :: qs) ws -> list_cut ls ->
    verdict V c b -> lays F src n V None None [] ps us ls V' ->
    lays F src n V c a l (shown b (PList a l o (Item t :: es)) ++ ps) (concat (map entry_uses (Item t :: es)) ++ us) (ws ++ ls) V'
| lay_block n V c a l b f content us1 ws V1 ps us ls V' : fence_char f -> ~ In (fence f) ws ->
    key a "engine" = None \/ key a "engine" = Some (lit "default") -> not_given a "footnote" -> block_args a ->
    lays F src n V None None [] content us1 ws V1 -> linked us1 -> verdict V1 c b -> lays F src (S n) V1 None None [] ps us ls V' ->
    lays F src (S n) V c a l (shown b (PBlock a l content) ++ ps) us (fence f :: ws ++ fence f :: ls) V'
| lay_raw n V c a l b f ws ps us ls V' : fence_char f -> ~ In (fence f) ws -> key a "engine" = Some (lit "raw") ->
    not_given a "footnote" -> block_args a ->
    (* one empty line counts as no line *)
    ws <> [[]] -> verdict V c b -> lays F src n V None None [] ps us ls V' ->
    lays F src n V c a l (shown b (PRaw a l ws) ++ ps) us (fence f :: ws ++ fence f :: ls) V'
| lay_source n V c a l b f d cs ws ps us ls V' : fence_char f -> ~ In (fence f) ws -> key a "engine" = Some (lit "source") ->
    not_given a "footnote" -> block_args a -> choice a "marker_delimiter" ":" = [d] -> plain_styles V ->
    Forall2 (codes V a d) ws cs -> ws <> [] -> ws <> [[]] -> verdict V c b -> lays F src n V None None [] ps us ls V' ->
    lays F src n V c a l (shown b (PSource a l cs) ++ ps) us (fence f :: ws ++ fence f :: ls) V'
| lay_footnote n V a l name f content us1 ws V1 ps us ls V' : fence_char f -> ~ In (fence f) ws ->
    key a "engine" = None \/ key a "engine" = Some (lit "default") -> key a "footnote" = Some name -> name <> [] ->
    key a "isolate" <> Some (lit "false") ->
    lays F src n V None None [] content us1 ws V1 -> linked us1 -> lays F src (S n) V1 None None [] ps us ls V' ->
    lays F src (S n) V None a l ps (UBody name :: us) (fence f :: ws ++ fence f :: ls) V'
| lay_include n V c a l b w what g ps us ls V' : includes V what a g w -> ~ In what LOADERS -> verdict V c b ->
    lays F src n V None None [] ps us ls V' -> lays F src n V c a l (shown b (PInclude g l what) ++ ps) us (w :: ls) V'
| lay_image n V c a l b w g ps us ls V' : includes V (lit "image") a g w -> has_uri g -> verdict V c b ->
    lays F src n V None None [] ps us ls V' -> lays F src n V c a l (shown b (PImage g l) ++ ps) us (w :: ls) V'
| lay_item n V a l f content us1 ws V1 g p ps us ls V' : fence_char f -> ~ In (fence f) ws ->
    key a "engine" = None \/ key a "engine" = Some (lit "default") -> not_given a "footnote" ->
    key a "group" = Some g -> g <> [] -> key a "position" = Some p -> p <> [] -> key a "isolate" <> Some (lit "false") ->
    lays F src n V None None [] content us1 ws V1 -> linked us1 -> lays F src (S n) V1 None None [] ps us ls V' ->
    lays F src (S n) V None a l ps (UItem g p :: us) (fence f :: ws ++ fence f :: ls) V'
| lay_group n V c a l b w g name ps us ls V' : includes V (lit "blockgroup") a g w -> filled ["group"]%string g "group" = Some name -> verdict V c b ->
    lays F src n V None None [] ps us ls V' -> lays F src n V c a l (shown b (PGroup g l name) ++ ps) (UGroup name :: us) (w :: ls) V'
| lay_lines n V c a l b w g name ws ps us ls V' : includes V (lit "raw") a g w -> filled ["uri"]%string g "uri" = Some name -> name <> [] ->
    F name = File (join [NL] ws) -> ws <> [] -> Forall (no_chr NL) ws -> verdict V c b ->
    lays F src n V None None [] ps us ls V' -> lays F src n V c a l (shown b (PLines g l name ws) ++ ps) us (w :: ls) V'
| lay_file n V c a l b w g name ws W content us1 W1 ps us ls V' : includes V (lit "mau") a g w -> filled ["uri"]%string g "uri" = Some name -> name <> [] ->
    F name = File (join [NL] ws) -> Forall (no_chr NL) ws -> passes V g W ->
    lays F (Some name) n W None None [] content us1 ws W1 -> linked us1 -> verdict V c b -> lays F src (S n) V None None [] ps us ls V' ->
    lays F src (S n) V c a l (shown b (PFile g l name content) ++ ps) (UFile src name :: loads us1 ++ us) (w :: ls) V'.
Arguments lay_end {F src}.
Arguments lay_blank {F src}.
Arguments lay_comment {F src}.
Arguments lay_section {F src}.
Arguments lay_define {F src}.
Arguments lay_flag {F src}.
Arguments lay_condition {F src}.
Arguments lay_arguments {F src}.
Arguments lay_label {F src}.
Arguments lay_rule {F src}.
Arguments lay_heading {F src}.
Arguments lay_paragraph {F src}.
Arguments lay_list {F src}.
Arguments lay_block {F src}.
Arguments lay_raw {F src}.
Arguments lay_source {F src}.
Arguments lay_footnote {F src}.
Arguments lay_include {F src}.
Arguments lay_image {F src}.
Arguments lay_item {F src}.
Arguments lay_group {F src}.
Arguments lay_lines {F src}.
Arguments lay_file {F src}.

(* ------------------------------------------------ what the document must be *)
(* the arguments of a node, but for those the node has used *)
Definition is_args (used : list string) (a : option (list arg)) (r : node_args) : Prop :=
  match a with
  | None => r = empty_args
  | Some l => let us := unnamed_of l in
      na_unnamed r = plain_of us /\ na_tags r = tags_of us /\ na_internal r = internal_tags_of us /\
      na_subtype r = hd_error (marked_with STAR us) /\
      forall k, dget k (na_named r) = if mem_str k (map lit used) then None else named_of l k
  end.
(* the same for a node with names, or one that includes a file *)
Definition is_args_filled (names used : list string) (a : option (list arg)) (r : node_args) : Prop :=
  match a with
  | None => r = empty_args
  | Some l => let us := unnamed_of l in
      na_unnamed r = skipn (length (open_names names l)) (plain_of us) /\ na_tags r = tags_of us /\ na_internal r = internal_tags_of us /\
      na_subtype r = hd_error (marked_with STAR us) /\
      forall k, dget k (na_named r) = if mem_str k (map lit (used ++ names)) then None else named_of l k
  end.
Definition is_args_file (a : option (list arg)) (r : node_args) : Prop :=
  match a with
  | None => r = empty_args
  | Some l => let us := unnamed_of l in
      na_unnamed r = skipn (length (open_names ["uri"]%string l)) (plain_of us) /\ na_tags r = tags_of us /\ na_internal r = internal_tags_of us /\
      na_subtype r = hd_error (marked_with STAR us) /\
      forall k, dget k (na_named r) =
        if mem_str k [lit "uri"; lit "pass_environment"] || startswith (lit "call:") k then None else named_of l k
  end.
Definition is_labels (l : dict line) (r : labels) : Prop :=
  Forall2 (fun x y => fst y = fst x /\ same_all (snd y) (snd x)) l r.
Definition is_attrs (used : list string) (a : option (list arg)) (l : dict line) (r : attrs) : Prop :=
  is_args used a (at_args r) /\ is_labels l (at_labels r).
Inductive is_entry : dnode -> entry -> Prop :=
| ie_item n c ctx t : same_all c t -> is_entry (DItem n c ctx) (Item t)
| ie_sub o nodes r es : is_attrs [] None [] r -> Forall2 is_entry nodes es -> is_entry (DList o false 1 nodes r) (Sub o es).
(* the lines of source code, with their numbers *)
Inductive numbered : nat -> list source_line -> list code -> Prop :=
| nb_end n : numbered n [] []
| nb_line n sl cd sls cs : SpecManagers.writes (sl_number sl) n -> sl_content sl = cd_text cd -> sl_style sl = cd_style cd ->
    option_map fst (sl_marker sl) = cd_callout cd -> numbered (S n) sls cs -> numbered n (sl :: sls) (cd :: cs).
(* the classes of a block *)
Definition classes_of (v : option str) (cl : list str) : Prop :=
  match v with None | Some [] => cl = [] | Some s => join [COMMA] cl = s /\ Forall (no_chr COMMA) cl end.
Inductive is_page : dnode -> page -> Prop :=
| ip_rule a l r : is_attrs [] a l r -> is_page (DRule r) (PRule a l)
| ip_heading a l n t h : h_level h = n -> same_all (h_content h) t -> h_internal h = key a "internal_id" -> h_name h = key a "name" ->
    is_attrs ["internal_id"; "name"]%string a l (mkAttrs (h_args h) (h_labels h) (h_ctx h)) -> is_page (DHeader h) (PHeading a l n t)
| ip_paragraph a l ts lines r : is_attrs [] a l r -> Forall2 (fun ln t => same_all (fst ln) t) lines ts ->
    is_page (DParagraph lines r) (PParagraph a l ts)
| ip_list a l o z es nodes r : is_attrs [] a l r -> starts a z -> Forall2 is_entry nodes es -> is_page (DList o true z nodes r) (PList a l o es)
| ip_block a l ps cl nodes r : is_attrs ["classes"; "engine"]%string a l r -> classes_of (key a "classes") cl ->
    Forall2 is_page nodes ps -> is_page (DBlock cl nodes r) (PBlock a l ps)
| ip_raw a l ls cl lines r : is_attrs ["classes"; "engine"]%string a l r -> classes_of (key a "classes") cl ->
    map fst lines = ls -> is_page (DRaw cl lines r) (PRaw a l ls)
| ip_source a l cs cl lang lines r : is_args_filled ["language"]%string ["classes"; "engine"; "marker_delimiter"; "highlight_marker"; "highlight_default_style"]%string a (at_args r) ->
    is_labels l (at_labels r) -> classes_of (key a "classes") cl ->
    lang = match filled ["language"]%string a "language" with Some v => v | None => lit "text" end -> numbered 1 lines cs ->
    is_page (DSource cl (Some lang) lines r) (PSource a l cs)
| ip_image a l uri alt cl r : is_args_filled IMAGE_NAMES [] a (at_args r) -> is_labels l (at_labels r) -> filled IMAGE_NAMES a "uri" = Some uri ->
    filled IMAGE_NAMES a "alt_text" = alt -> classes_of (filled IMAGE_NAMES a "classes") cl -> is_page (DImage uri alt cl r) (PImage a l)
| ip_file a l name ps nodes r : is_args_file a (at_args r) -> is_labels l (at_labels r) -> Forall2 is_page nodes ps ->
    is_page (DMau name nodes r) (PFile a l name ps)
| ip_lines a l name ls lines r : is_args_filled ["uri"]%string [] a (at_args r) -> is_labels l (at_labels r) -> map fst lines = ls ->
    is_page (DIncludeRaw name lines r) (PLines a l name ls)
| ip_group a l name id r : is_args_filled ["group"]%string [] a (at_args r) -> is_labels l (at_labels r) -> is_page (DGroup id name r) (PGroup a l name)
| ip_toc a l id r : is_attrs [] a l r -> is_page (DToc id r) (PInclude a l (lit "toc"))
| ip_footnotes a l id r : is_attrs [] a l r -> is_page (DFootnotes id r) (PInclude a l (lit "footnotes"))
| ip_include a l what r : what <> lit "toc" -> what <> lit "footnotes" -> is_attrs [] a l r -> is_page (DInclude what r) (PInclude a l what).

(* The functions that the environment configures are functions. *)
Definition well_configured (e : env) : Prop :=
  Forall (fun kv => forall k, In k FUNCTIONS ->
    (fst kv = k -> exists o, snd kv = EOther o) /\ (forall r, fst kv <> k ++ DOT :: r)) e.
(* The variables of a document: those of the environment, and the defaults. *)
Definition given (e : env) : world := fun k => match dget k e with Some v => Some v | None => dget k base_env end.
