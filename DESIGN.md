# Formal model of Project-Mau/mau in Rocq (Coq 8.16.1)

## 1. What is modelled, and how

The model is a set of total, computable Gallina functions that mirror the
Python functions branch by branch; each definition cites the file and lines it
models.  Python strings are lists of code points (`str := list N`); exceptions
are values (`res A := Ok a | Exc e`, where `e` is a TokenError, a MauException
with its message, any other Python exception with its class, or the exhaustion
of a bound); dictionaries are insertion-ordered association lists; a mutable
object is a record returned by the function that mutates it; a `while` loop is a
recursion on explicit fuel whose exhaustion is a *distinct* error value, and
theorems exclude that value (C01, C58) or give the exact condition (C45).

| layer | model | code modelled |
|---|---|---|
| strings, exceptions, dictionaries | `Str`, `Exn`, `Dict` | the `str` and `dict` methods used by mau; `message.py` reduced to a fixed text and a context |
| regular expressions | `Regex` | a backtracking matcher for the constructs mau uses |
| positions, tokens | `Token` | `text_buffer.py`, `token.py` |
| lexers | `Lexer`, `DocLexer` | `base_lexer.py`, `document_lexer.py`, `text_lexer.py`, `arguments_lexer.py`, `preprocess_variables_lexer.py`, `condition_lexer.py` |
| environment | `Env` | `environment/*.py` |
| arguments | `NodeArgs`, `Args` | `node_arguments.py`, `arguments_parser.py` |
| token manager | `TM`, `P` | `tokens_manager.py`, `base_parser.py`; the parsers are written in `P` (the list of remaining tokens), and `PRefine` proves that programs of `P` are refined by the position stack of `TM` |
| small parsers | `Preproc`, `Cond` | `preprocess_variables_parser.py`, `condition_parser.py`, `control_buffer.py` |
| text parser | `TextParser` | `text_parser.py` (styles, verbatim, escapes, all macros) |
| managers | `Managers` | `toc_manager.py`, `footnotes_manager.py`, `header_links_manager.py`, `blockgroup_manager.py` |
| document parser | `Engines`, `DocParser` | `document_parser.py`, `document_processors/*.py`, `block_engines/*.py`, the argument, label and control buffers |
| nodes, visitors | `Visitor` | `nodes/*.py` (a heap of objects; `deepcopy` of every class), `base_visitor.py` (every `_visit_` method), `visit` and `visitlist` of `jinja_visitor.py` |
| objects | `Build` | the objects made by the parsers, with their parents, and the assignments of the managers to them; `process` of `base_visitor.py` (a parsed document, rendered) |
| templates on disk | `Folder` | `_load_templates_from_path` of `jinja_visitor.py` over a tree of files |
| ids | `Anchors` | `toc_manager.py` `extract_text`, `default_header_internal_id` (MD5 is a parameter), `footnotes_manager.py` `default_footnote_unique_id`; elsewhere these functions are parameters of the model |
| visitor classes | `Visitors` | `run_visitor` with `JinjaVisitor` (templates, `DictLoader`, `_render` up to jinja2) and `YamlVisitor` (up to `yaml.dump`) |
| log | `Messages` | `message.py` (the lines logged for an error), `Context.__repr__`, `adjust_context`, `adjust_position` |
| templates | `Jinja` | template names, claims, matching and choice of `jinja_visitor.py` |
| program | `Cli` | `mau/__init__.py` (class Mau, environment files and variables), `cli.py` |

Specifications are in `Spec*.v`.  They contain no parsing: relations and small
functions that say what the English property says (`SpecLexer`, `SpecLines`,
`SpecGrammar`, `SpecTM`, `SpecPre`, `SpecArgs`, `SpecText`, `SpecManagers`,
`SpecEngines`, `SpecDoc`, `SpecLists`, `SpecAttach`, `SpecInclude`, `SpecErrors`,
`SpecNumbers`, `SpecWhole`, `SpecTree`, `SpecJinja`, `SpecVisitor`, `SpecRender`).  Files `*Facts` (and `InlineLexer`, `InlineInst`,
`DocLexerProps`, `LexerThms`, `TermText`, `TermFiles`, `ErrDoc`) have the lemmas;
`Properties*.v` have the theorems, named after their property, each followed by
examples that meet its hypotheses.  Claims that are false of the code have a
theorem `..._refuted...` with a witness, and the part that is true has a theorem
with the suffix `_partial`.

## 2. Plan per property

Lexing and tokens (`PropertiesLexer`, `PropertiesLines`, `PropertiesGrammar`)

* C01 fuelled driver; fuel = a measure of the remaining text; the fuel is never exhausted and the shape of the result, for all five lexers through one driver theorem.
* C02 invert the driver's error branches: the text rule accepts every non-empty line; a progress lemma excludes the loop check.
* C03 same driver theorem with per-lexer "some rule applies" lemmas.
* C04 induction on the line: invariant "values so far ++ rest of line = line".
* C05 per-rule lemma: each created token is found at its context in the source; lifted by the driver induction.
* C06 per-rule lemma: token positions lie in [old position, new position] and are sorted; lifted.
* C07 compute the block rule on fence ++ content ++ fence; independence from the rest via a one-step lemma.
* C08 one-step lemma on a comment line plus "tokens do not depend on line numbers" (shift lemma).
* C09 search lemma for the closing fence.
* C10 arithmetic (min/max lattice).  C11 split/join lemmas.
* C53 an inductive grammar of lines (`reads`); the lexer on a line agrees with it in any surroundings; it is total and unambiguous.
* C59 the same for whole documents: a grammar of lines, blocks and comments with a unique reading, equal to what the lexer accepts.

Token manager (`PropertiesTM`)

* C12 guard combinator in the state+exception monad; theorem over an inductive language of token actions.
* C13 refinement of the collect loop to a relation on the token list, which is functional.

Environment and arguments (`PropertiesEnv`, `PropertiesArgs`)

* C14 mutual induction on nested dictionaries.  C15 flatten(nest m) under prefix-freeness, and the domain is exact.
* C16-C18 finite-map lemmas on ordered association lists.  C19 list induction against a zip specification.
* C20 lex + parse composition; induction over the written values.  C21-C23 invariants of the argument parser; `PropertiesAlias` gives the whole result of an alias (exact named arguments, values, tags and subtype), which C86 uses for the aliases of the user.

Variables, conditions, text (`PropertiesPre`, `PropertiesCond`, `PropertiesText`, `PropertiesTotal`, `PropertiesMacro`, `PropertiesReg`)

* C24-C26 lex + parse composition over pieces.  C27 regex inversion of the condition lexer + evaluation.
* C28-C31, C55 lex + fuelled text parser; induction on lines / trees. C30's trees have all the macros but conditions; a text of a macro is a tree read by the parser inside the parser (`reads_texts`), and one such level is enough because those texts are in quotes (`text_quotes`); `MacroFacts` has the reading of the arguments of a macro among words.
* C32 invariant "the registered macros are those in the nodes" with exact exceptions; C33, C54, C56 the macro argument collector on quoted arguments; refuted by witnesses outside the proved part.

Managers and engines (`PropertiesManagers`, `PropertiesEngines`)

* C34 induction on the header list against an independent parent function.  C35-C37 invariants over histories of operations.
* C40, C41 line-level lemmas.

Documents (`PropertiesDoc`, `PropertiesAttach`, `PropertiesInclude`, `PropertiesErrors`, `PropertiesVars`)

* C57 a document is a list of elements, and the run of the parser is the fold of their actions; every later document theorem goes through it.  C58 measure on tokens.
* C38, C39 induction on the items; refutation for start=auto.
* C42-C44 actions of elements: frame lemmas on the stored labels, arguments and condition.
* C45 termination: a measure on the files not yet forbidden; refutation by a pair of files for every depth.  C46 the includer's environment is in no position to be changed.  C60 simulation between two depths.
* C47 a weakest-precondition calculus over the parsers for the class of exceptions that are not MauException; the causes are a specification; refuted by witnesses.
* C63, C64 invariants over elements and nested parsers.

Rendering and program (`PropertiesJinja`, `PropertiesVisitor`, `PropertiesVisit`, `PropertiesBuild`, `PropertiesRender`, `PropertiesCli`)

* C48, C49 sort/selection lemma against a declarative "claims" relation.
* C50 deepcopy establishes a copy relation on the heap; visits of related objects are equal (bisimulation); refuted for the parents the parser gives.
* C66 table lookup: every attribute of a class has the first row of that key in the visitor's table; default entries never collide.  C67 induction on the height of the visited graph; for documents with quiet headers, an invariant over the assignments (what is added leads only to objects that are not assigned to any more), so that every object has a height; the items of groups are ordered by when their group was filled (levels from C69's layering, ShowFacts.v); refuted by two documents whose objects form a cycle.
* C68 an invariant of the heap (closed, and every object has the attributes of its class) over the construction of the tree, the copies and the assignments; every footnote and header looked up is there.
* C69 an invariant of the parser (NumDoc.v): the numbers of the nodes made so far are distinct and in the range given to the parser, everything in the tree and in the managers comes from them; by induction on the elements and on the depth of the parsers, with a Hoare logic for the text parser (NumText.v).
* C70 a second invariant of the same parsers (WholeFacts.v): every node with something to fill is either filled or known to a manager; `dp_finalise` empties the managers. The levels of the headers are positive because of the grammar (C59), so C34 applies to the table of contents.
* C71 by composing C61 and C51 over `main_environment`.
* C72 from C48 and C66 for the visitor `jinja_hooks`; `seen` and `separator` say independently of Visitor.v what a template can ask for and what joins the texts.
* C73 by the inversion of each action (`*_full` in PropertiesTree.v) into the independent relation `makes` of SpecTree.v, lifted to documents by `dp_run_inv`; the reading of numbers (`int(...)`) against the grammar `written_number`, both ways.
* C74 with the relation `is_tree` (SpecObjects.v) between trees and heaps. ObjFacts.v: the cells of every node are its tree (`dnode_placed`), the parts and headers set apart are in the heap once (`tree_objects`, from the invariants of NumDoc.v), an invariant of the assignments (`state`), kept by each of them (`step`): only attributes that are completed later change, and the object that is completed has what `completed` says.
* C75 with `right_parent` (SpecParents.v), a table of the parent for each class of holder. ParentFacts.v: the cells of every node satisfy it (`dnode_homed`); HomeFacts.v: an invariant (`homes`) of the provenance of the objects (parsed, made, copied), kept by every assignment; the blocks of the groups and their items, which change their parent, are followed by name and position.
* C76 with `placed`/`accounted`/`nameless` (SpecPlaces.v). PlaceFacts.v: the tokens of the inline lexers are on the lines of their text; PlaceText.v, PlaceInline.v: a Hoare-style walk of the arguments, condition, preprocess and text parsers (each error and each node is within the lines of the text); PlaceDoc.v: the same for each element of a document, with the state (pending condition, mentions, groups) located in the page; PlaceRun.v: which elements make a parser inside, and the induction on the parsers inside parsers.
* C77 C76 and C62 composed with the model of the log handler (`Messages`); a line that shows a place is unambiguous because what follows the last colon has only digits, commas and a dash.
* C78 induction on the tree of files (`Folder`): the paths of the leaves of the nested dictionary are those of the files; flattening maps paths to dotted names; C48 for the visitor.
* C79 `SpecDrawn`: a relation on the nodes alone (no heap) between a document and what a visitor gives for it; by induction on the recursion limit of the visit, from C74 (objects), C75 (parents), C68 (attributes) and C66 (what a visit shows); then `Visitors` (the classes as the command line uses them) and `main`.
* C80, C81 `AnchorFacts`: an invariant of the parser with all its children, there is a set of headers, pairwise different in their identity, that contains every header of the document, of the managers and of what was set apart, and every assignment made so far agrees with it; with C70 (every header is filled) the last assignment to a header is its `anchor`. The clash of the default ids is by the pigeonhole principle, for any hash.
* C82 `SpecBlame`: the nodes that appear (in the document, set apart, in tables and links, made in the end), with class, arguments and place; `BlameFacts`: every object of the heap is one of them (induction on the tree, then over every step of the build, deepcopy included); a failure of a visit is traced to the object whose hook fails (`visit_fails`), and the data given to the hook have its place and type (C66), so the exception made of them has too.
* C83 `PlaceNodes`: the invariant of C76 (`sound`) is strengthened by the places of all that the parser keeps (nodes, labels, bodies, headers, groups, assignments), by the same walk over the parser and its children; `PropertiesSpots` reads the invariant on the trees of C74, and composes it with C82.
* C84 `PropertiesFrames`: the boxes by inversion of each `do_*` step and `merge_contexts`; the lines by the walk of C76 (which now also says what is added: `news`), from the order of the tokens (`in_order`); the order of the nodes by induction over the elements.
* C85 `VisitLog`: the visit of `Visitor.v` again, in a writer of messages; erasure by induction; the messages by the trees of C74 (`is_tree`), for a visit order given by the attributes of the nodes (`finished`), and `appears` of C82 for the converse.
* C86 `SpecPages`: a tree of pages and an inductive relation between pages and lines (`lays`, which carries the variables, the pending condition, arguments and labels, and what is mentioned, defined and loaded), built on the relations of C20, C26, C30, C40, C53 and C59; proved by induction on it: the lines give tokens (C59), the tokens are elements (`made_of`, C38), each element acts and gives its node, and `ForwardFacts` (the converse of the reading lemmas of C57) turns this into a run of the parser.
* C87 `SpecCases`: an inductive relation between a text with conditions and its tree in an environment, on top of the relation of C30 and the conditions of C27; proved by induction on it over the loop of a sentence (`sentence_run`), and then over the loop of the parser, as a case that shows nothing ends the sentence (`sentences_run`); the errors are four forms of condition with their messages.
* C51, C61 fold invariants on the environment.  C52 on the name of the output.  C62 case analysis of the program against a world with effects.  C65 composition of C63; refutation.

## 3. Simplifications

* Error messages: the text is a fixed part of the real message, without interpolated values; contexts are exact.
* `Environment` values other than text, lists of text and dictionaries are opaque objects; an opaque object found where a function or class is expected is assumed suitable.  Sharing between dictionaries (an environment given to two parsers, `asdict` writing in an empty dictionary leaf) is not modelled.
* Object identity in the parser: nodes that are assigned to later (headers, macros, toc, footnotes, block groups) have a number, and the assignments are recorded in order (`assign`).  Parent pointers are not in the nodes of the parser model: `Build` makes the objects with their parents from the tree and the assignments.  There the parents of headers in excluded blocks are not modelled, assignments to objects that are not in the document are skipped (nothing rendered refers to them), and the `toc` of the output is not made.
* The mutation of tokens by the preprocessor's escapes is modelled by the returned token.
* Ids of headers and of footnotes are given functions (`cf_header_id`, `cf_footnote_id`), of which those of Mau are an instance (`Anchors`, MD5 a parameter); the set order of keys in an alias is the insertion order.
* `ifeval` of a value that is not text, `str()` of lists, and `int()` of non-ASCII digits are simplified as said at the definitions.
* The depth parameters (`n` of `dp_run`, `cf_depth`, `n` of `deepcopy` and `visit`) stand for the recursion limit of the interpreter; C60 says that a larger one changes nothing.
* Files, YAML loading and dumping, jinja2 rendering, argparse and the plug-in search are parameters of the model (`cf_files`, `world`, `render`); paths are POSIX.
* Not modelled: the set-up of logging and `--verbose`, the help after some messages, the data and templates in the log of debug messages, the test helpers, the loading of template providers (plug-ins), links between directories.

## 4. Trusted base

* Coq's kernel, including its virtual machine (`vm_compute` is used in proofs on closed terms).
* The reading of the Python source cited at each definition, and section 3.
* Assumptions: `python3 tools/assumptions.py` prints the assumptions of every theorem in `MANIFEST.json`; each is "Closed under the global context".  vcheck lists seven axioms of the standard library (`Coq.ssr.ssrunder.Under_rel.*`, the interface of the `under` tactic): they come with the plug-in `ssreflect` that `Lia`/`zify` loads, and no theorem depends on them.

## 5. Tests of the theorems

`tools/mutate.py` builds a scratch copy of the model with one wrong edit and records
which files fail.  `seeded/LOG.jsonl` has one line per edit: the definition, the edit,
the claim it breaks, the theorems that failed and those tightened because of it.
