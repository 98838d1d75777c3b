{"id": "C01", "title": "Lexing always terminates with one EOF", "statement": "Lexing any document terminates; it either raises a lexer MauException or returns a token list whose last token, and only its last token, is EOF.", "quantifier": "every text (any length, any characters), start position and source name", "why_tests_cant": "infinitely many texts; non-termination cannot be observed by a finite test", "anchors": ["mau/lexers/base_lexer.py:BaseLexer.process", "mau/lexers/document_lexer.py:DocumentLexer", "mau/text_buffer.py:TextBuffer"]}
{"id": "C02", "title": "The only lexing errors of a document are unclosed fences", "statement": "DocumentLexer never reports 'Loop detected' nor 'Cannot process token': the only lexer errors are 'Unclosed block.' and 'Unclosed multiline comment.', positioned at the opening fence.", "quantifier": "every text (any length, any characters), start position and source name", "why_tests_cant": "absence of an error for all inputs", "anchors": ["mau/lexers/document_lexer.py", "mau/lexers/base_lexer.py:BaseLexer._process"]}
{"id": "C03", "title": "Inline lexers never fail", "statement": "TextLexer, ArgumentsLexer and PreprocessVariablesLexer succeed on every text.", "quantifier": "every text (any length, any characters), start position and source name", "why_tests_cant": "absence of an error for all inputs", "anchors": ["mau/lexers/text_lexer.py", "mau/lexers/arguments_lexer.py", "mau/lexers/preprocess_variables_lexer.py"]}
{"id": "C04", "title": "Inline lexing is lossless", "statement": "For the inline lexers the concatenation of the token values of a single line is that line, minus at most one run of trailing spaces.", "quantifier": "every single-line text", "why_tests_cant": "all strings, including adversarial mixes of special characters", "anchors": ["mau/lexers/text_lexer.py", "mau/lexers/arguments_lexer.py", "mau/lexers/preprocess_variables_lexer.py"]}
{"id": "C05", "title": "Token contexts locate the token", "statement": "Every token of a document carries the exact position of its value: the source text found at the token's start line and column, shifted by the buffer's start position, is the token's value, and start/end columns differ by its length.", "quantifier": "every text (any length, any characters), start position and source name", "why_tests_cant": "relation between every token and every source position", "anchors": ["mau/lexers/base_lexer.py:BaseLexer._create_token_and_skip", "mau/lexers/document_lexer.py"]}
{"id": "C06", "title": "Tokens come out in source order", "statement": "The token contexts of a document are in non-decreasing source order and never overlap.", "quantifier": "every text (any length, any characters), start position and source name", "why_tests_cant": "all documents", "anchors": ["mau/lexers/base_lexer.py", "mau/lexers/document_lexer.py"]}
{"id": "C07", "title": "Block content is taken verbatim", "statement": "For any fence character, and any content lines none of which is the fence, lexing fence/content/fence (anywhere in a document) yields BLOCK, one TEXT token with exactly those lines joined by newline (absent if there are none), BLOCK, and lexing resumes on the line after.", "quantifier": "every fence character, every list of content lines, every surrounding document", "why_tests_cant": "all contents, including lines that look like other syntax", "anchors": ["mau/lexers/document_lexer.py:_process_block"]}
{"id": "C08", "title": "Comments are invisible", "statement": "Inserting a // line or a closed //// section between two complete lines of a document changes no token type or value.", "quantifier": "every document, every insertion point outside a fence, every comment", "why_tests_cant": "all documents and insertion points", "anchors": ["mau/lexers/document_lexer.py:_process_comment", "mau/lexers/document_lexer.py:_process_multiline_comment"]}
{"id": "C09", "title": "Unclosed fences are always detected", "statement": "A document whose next construct is a block fence or //// with no later identical line is rejected with the position of the opening fence.", "quantifier": "every document prefix that lexes, every fence, every unterminated rest", "why_tests_cant": "all documents", "anchors": ["mau/lexers/document_lexer.py:_process_block", "mau/lexers/document_lexer.py:_process_multiline_comment"]}
{"id": "C10", "title": "Merged contexts contain both", "statement": "Context.merge_contexts(a,b) starts not after and ends not before both a and b in line and in column, is the least such box, is idempotent and associative, and keeps the source of a.", "quantifier": "every pair/triple of contexts", "why_tests_cant": "all integers", "anchors": ["mau/text_buffer.py:Context.merge_contexts"]}
{"id": "C11", "title": "Splitting and joining a token is lossless", "statement": "Token.from_token_list(t.to_token_list(), '\\n') has the value of t, one token per line, each on its own line with the right width.", "quantifier": "every TEXT token", "why_tests_cant": "all strings", "anchors": ["mau/token.py:Token.to_token_list", "mau/token.py:Token.from_token_list"]}
{"id": "C12", "title": "Failed alternatives consume nothing", "statement": "A guarded parsing attempt (with self.tm) that fails with TokenError leaves the token position and the saved-position stack as they were; one that succeeds leaves the stack as it was.", "quantifier": "every token list, position, stack and guarded action built from the token operations", "why_tests_cant": "all states and actions", "anchors": ["mau/parsers/managers/tokens_manager.py:TokensManager.__enter__", "mau/parsers/managers/tokens_manager.py:TokensManager.__exit__"]}
{"id": "C13", "title": "collect stops at the first unescaped stop token", "statement": "collect returns exactly the tokens before the first stop token or EOF that is not preceded by an escaping backslash, drops a backslash exactly when it escapes a stop token (keeps it when asked to), always terminates, and leaves the stop token unconsumed.", "quantifier": "every token list ending in EOF, every position, every stop set", "why_tests_cant": "all token sequences", "anchors": ["mau/parsers/managers/tokens_manager.py:TokensManager.collect"]}
{"id": "C14", "title": "Flattening a nested configuration and nesting it back loses nothing", "statement": "For every nested dictionary whose keys contain no dot (and are non-empty at top level), nest(flatten(d)) = d.", "quantifier": "every nested dictionary of any depth", "why_tests_cant": "all depths and shapes", "anchors": ["mau/environment/helpers.py"]}
{"id": "C15", "title": "Environment.asdict and back preserves the variables", "statement": "Environment.from_environment(e) answers every lookup as e does, for every e no key of which is a dotted prefix of another and no key of which starts with a dot; outside this domain asdict raises TypeError, drops or renames a variable.", "quantifier": "every flat environment", "why_tests_cant": "all key sets, all insertion orders", "anchors": ["mau/environment/environment.py:Environment.from_environment", "mau/environment/helpers.py:nest_flattened_dict"]}
{"id": "C16", "title": "Reading a variable returns the last value written", "statement": "After e[k]=v with a non-dictionary v, e[k] and e.get(k) are v and every other key is unchanged, for any history of writes.", "quantifier": "every history of assignments", "why_tests_cant": "all histories", "anchors": ["mau/environment/environment.py:Environment.__setitem__", "mau/environment/environment.py:Environment.get"]}
{"id": "C17", "title": "A namespace lookup returns exactly the variables below it", "statement": "If k is not a variable, e.get(k) is an environment with exactly the variables e has under 'k.', or the default when there is none.", "quantifier": "every environment and key", "why_tests_cant": "all key sets", "anchors": ["mau/environment/environment.py:Environment.get"]}
{"id": "C18", "title": "Environment.update honours overwrite", "statement": "update(other) makes every variable of other win; update(other, overwrite=False) keeps every existing variable and only adds missing ones.", "quantifier": "every pair of environments", "why_tests_cant": "all pairs", "anchors": ["mau/environment/environment.py:Environment.update"]}
{"id": "C19", "title": "set_names assigns positional names in order", "statement": "set_names gives the unnamed values, in order, to the positional names not already given by name; explicitly named values are never overwritten; values beyond the names stay unnamed in order.", "quantifier": "every list of values, dictionary of named values and list of names", "why_tests_cant": "all sizes and overlaps", "anchors": ["mau/nodes/node_arguments.py:set_names"]}
{"id": "C20", "title": "Quoted arguments round-trip", "statement": "Writing any list of unnamed values and then named values as quoted, comma-separated arguments with inner quotes escaped, and parsing it, gives back exactly these values (named ones up to surrounding whitespace).", "quantifier": "every list of values with no backslash directly before a quote or at the end", "why_tests_cant": "all strings, including commas, equals signs, brackets", "anchors": ["mau/parsers/arguments_parser.py", "mau/lexers/arguments_lexer.py"]}
{"id": "C21", "title": "Unnamed arguments after named ones are rejected", "statement": "Parsing arguments that place an unnamed value after a named one raises a parser error; otherwise the order of unnamed values is kept and the last value of a repeated key wins.", "quantifier": "every argument string", "why_tests_cant": "all argument strings", "anchors": ["mau/parsers/arguments_parser.py:ArgumentsParser._process_unnamed_argument"]}
{"id": "C22", "title": "Tags, subtype and alias are separated from unnamed arguments", "statement": "After parsing, #values are tags (without #, in order; #mau: values are internal tags), the single *value is the subtype, the single @value the alias, and the unnamed arguments are exactly the others in order; two subtypes or two aliases are rejected.", "quantifier": "every list of unnamed values whose marked values carry one mark (not \"#*x\", which is both a tag and a subtype)", "why_tests_cant": "all lists of values", "anchors": ["mau/parsers/arguments_parser.py:ArgumentsParser._isolate_tags_and_subtype", "mau/parsers/arguments_parser.py:ArgumentsParser.arguments"]}
{"id": "C23", "title": "An alias never overrides explicit arguments", "statement": "Expanding @alias adds only the keys the user did not give, keeps the user's subtype, and an unknown alias is an error. A successful expansion gives exactly: the user's named arguments, then those of the definition, then the first values for the names of the definition that are left, in order; the other values, the tags and the internal tags as written; and the subtype of the user, or else that of the definition.", "quantifier": "every alias definition and argument list", "why_tests_cant": "all alias definitions", "anchors": ["mau/parsers/arguments_parser.py:ArgumentsParser._isolate_tags_and_subtype"]}
{"id": "C24", "title": "Text without variable syntax is untouched by the preprocessor", "statement": "A single line with no backslash, backtick or curly brace is returned unchanged.", "quantifier": "every such line, every environment", "why_tests_cant": "all strings", "anchors": ["mau/parsers/preprocess_variables_parser.py", "mau/lexers/preprocess_variables_lexer.py"]}
{"id": "C25", "title": "Variable replacement", "statement": "In a line made of plain text and {name} references, every {name} is replaced by the text of that variable and the rest is unchanged; if some name is undefined a parser error is raised.", "quantifier": "every sequence of text pieces and references, every environment", "why_tests_cant": "all lines and environments", "anchors": ["mau/parsers/preprocess_variables_parser.py:_process_curly"]}
{"id": "C26", "title": "Escapes and verbatim protect from replacement", "statement": "\\{ and \\} yield the brace itself, {{name}} yields {name}, and text between backticks is kept with its backticks, whatever the environment.", "quantifier": "every such line, every environment", "why_tests_cant": "all lines", "anchors": ["mau/parsers/preprocess_variables_parser.py"]}
{"id": "C27", "title": "Conditions are evaluated as written", "statement": "@if VAR==VALUE (any spaces around the operator) is true exactly when the variable's value is VALUE, != exactly when it is not; an undefined variable, or an operator other than if, is a parser error.", "quantifier": "every variable name, value and environment", "why_tests_cant": "all names, values, environments", "anchors": ["mau/parsers/condition_parser.py", "mau/lexers/condition_lexer.py", "mau/parsers/buffers/control_buffer.py:Control"]}
{"id": "C28", "title": "Plain text becomes one text node", "statement": "A line without special characters is parsed into a single text node with that text (trailing spaces dropped).", "quantifier": "every such line", "why_tests_cant": "all strings", "anchors": ["mau/parsers/text_parser.py", "mau/lexers/text_lexer.py"]}
{"id": "C29", "title": "Backslash escaping is complete", "statement": "Putting a backslash before every special character of any line yields a text node with exactly that line.", "quantifier": "every non-blank line without trailing space", "why_tests_cant": "all strings", "anchors": ["mau/parsers/text_parser.py:_parse_backslash_escaped"]}
{"id": "C30", "title": "Inline markup round-trips", "statement": "Writing a tree of text, nested styles, verbatim, escapes, mentions, links, mailto, images, unicode characters, raw text, classes (each with its own text, which can have markup) and user macros as Mau syntax and parsing it returns that tree, with the mentions outside the texts of macros registered in order.", "quantifier": "every inline tree of any depth in which no style is directly nested in itself", "why_tests_cant": "all depths and shapes", "anchors": ["mau/parsers/text_parser.py:_parse_style", "mau/parsers/text_parser.py:_parse_verbatim"]}
{"id": "C31", "title": "Text without macros never fails to parse", "statement": "The text parser accepts every line that contains no '[': unbalanced markers are plain text.", "quantifier": "every line without an opening square bracket", "why_tests_cant": "absence of an error for all inputs", "anchors": ["mau/parsers/text_parser.py"]}
{"id": "C32", "title": "Every footnote and header mention is registered", "statement": "Every [footnote](..) and [header](..) in a paragraph is known to the document so that it is linked or reported as undefined.", "quantifier": "every text", "why_tests_cant": "all nestings of macros", "anchors": ["mau/parsers/text_parser.py", "mau/parsers/document_parser.py:DocumentParser._parse_text"]}
{"id": "C33", "title": "Quoted macro arguments may contain brackets", "statement": "A macro argument in double quotes may contain ')' and the macro still ends at its own bracket.", "quantifier": "every macro whose arguments are quoted", "why_tests_cant": "all argument positions", "anchors": ["mau/parsers/text_parser.py:_collect_macro_args"]}
{"id": "C34", "title": "The nested table of contents contains every header once, in order, under its parent", "statement": "Reading the nested ToC in document order gives exactly the list of headers; each entry is deeper than the entry that contains it, and it sits under the nearest preceding shallower header.", "quantifier": "every list of headers with positive levels", "why_tests_cant": "all level sequences", "anchors": ["mau/parsers/managers/toc_manager.py:add_nodes_under_level"]}
{"id": "C35", "title": "Footnotes are numbered in definition order and every mention is linked", "statement": "Footnotes get public ids 1..n in order of definition; every registered mention is linked to the footnote of that name; an undefined mention or a second definition of a name is an error; every footnotes list holds them all in order.", "quantifier": "every history of definitions, mentions and lists", "why_tests_cant": "all histories", "anchors": ["mau/parsers/managers/footnotes_manager.py"]}
{"id": "C36", "title": "Header links resolve to the named header", "statement": "Every registered [header](name) is linked to the only header with that name (inheriting its text when it has none); unknown and duplicate names are errors.", "quantifier": "every history of headers and links", "why_tests_cant": "all histories", "anchors": ["mau/parsers/managers/header_links_manager.py"]}
{"id": "C37", "title": "Block groups collect their blocks by position", "statement": "A group node receives exactly the blocks of its group, in order, one per position; a taken position or an unknown group is an error.", "quantifier": "every history of blocks and groups", "why_tests_cant": "all histories", "anchors": ["mau/parsers/managers/blockgroup_manager.py"]}
{"id": "C38", "title": "List items keep their order and depth", "statement": "Parsing consecutive list items yields a tree whose items in document order are the written items with their levels, items of a (sub)list all have its level, a sublist is strictly deeper and its ordering is given by its first symbol.", "quantifier": "every sequence of list items", "why_tests_cant": "all level sequences", "anchors": ["mau/parsers/document_processors/list.py:_process_list_nodes"]}
{"id": "C39", "title": "start=auto continues the numbering", "statement": "A list with start=auto starts one after the last number of the previous ordered list.", "quantifier": "every history of lists", "why_tests_cant": "all histories", "anchors": ["mau/parsers/document_processors/list.py:list_processor"]}
{"id": "C40", "title": "Source blocks keep every line", "statement": "A source block has one line node per content line, numbered 1..n; a line that does not end with :text: is kept exactly; otherwise line content + delimiter + marker + delimiter is the original line, and the highlight style is given by the marker.", "quantifier": "every content and delimiter of one character", "why_tests_cant": "all contents", "anchors": ["mau/parsers/document_processors/block_engines/source.py"]}
{"id": "C41", "title": "Raw blocks are verbatim", "statement": "The lines of a raw block joined by newline are exactly its content.", "quantifier": "every content", "why_tests_cant": "all contents", "anchors": ["mau/parsers/document_processors/block_engines/raw.py"]}
{"id": "C42", "title": "Attachments apply to the next node only", "statement": "Labels, arguments and a control condition are consumed by the next document node, even when the condition excludes it, and never reach a later node.", "quantifier": "every document", "why_tests_cant": "all sequences of constructs", "anchors": ["mau/parsers/document_parser.py", "mau/parsers/document_processors/block.py", "mau/parsers/document_processors/paragraph.py", "mau/parsers/document_processors/header.py", "mau/parsers/buffers"]}
{"id": "C43", "title": "Excluded nodes leave no trace", "statement": "A node whose control condition is false is not in the document, in the ToC or among the header links.", "quantifier": "every document", "why_tests_cant": "all documents", "anchors": ["mau/parsers/document_processors/header.py", "mau/parsers/document_processors/paragraph.py", "mau/parsers/document_processors/include.py"]}
{"id": "C44", "title": "Block isolation", "statement": "Headers and footnotes of a block appear in the outer ToC and footnotes list exactly when isolate=false.", "quantifier": "every block content", "why_tests_cant": "all contents", "anchors": ["mau/parsers/document_processors/block_engines/default.py"]}
{"id": "C45", "title": "Includes cannot recurse forever", "statement": "Processing a document terminates whatever the files include, and an include cycle is reported.", "quantifier": "every file system content", "why_tests_cant": "non-termination is not testable", "anchors": ["mau/parsers/document_processors/include.py:_parse_mau", "mau/parsers/document_processors/block_engines/default.py:parse_block_content"]}
{"id": "C46", "title": "An included file cannot change the includer's variables", "statement": "After << mau the variables of the including document are what they were; with pass_environment=false the included file sees only the call: variables.", "quantifier": "every included file and environment", "why_tests_cant": "all files", "anchors": ["mau/parsers/document_processors/include.py:_parse_mau"]}
{"id": "C47", "title": "Every failure is a MauException", "statement": "Processing any document either succeeds or raises a MauException (which the message handler reports), never another Python exception.", "quantifier": "every document", "why_tests_cant": "all documents", "anchors": ["mau/parsers/document_parser.py", "mau/parsers/document_processors/list.py", "mau/parsers/document_processors/control.py", "mau/parsers/document_processors/include.py"]}
{"id": "C48", "title": "The most specific matching template is used", "statement": "The template chosen for a node matches all its claims; templates of an earlier configured prefix win over later ones and over unprefixed ones, and among those of one prefix none that matches is more specific.", "quantifier": "every template set, prefix list and node", "why_tests_cant": "all template sets", "anchors": ["mau/visitors/jinja_visitor.py:JinjaVisitor._find_matching_template", "mau/visitors/jinja_visitor.py:Template"]}
{"id": "C49", "title": "A template matches exactly when all its claims hold", "statement": "Template.match is true exactly when type, custom fields, prefix, subtype, parent claims and tags of the template all hold of the node.", "quantifier": "every template and node", "why_tests_cant": "all combinations", "anchors": ["mau/visitors/jinja_visitor.py:Template.match", "mau/visitors/jinja_visitor.py:Template.from_name"]}
{"id": "C50", "title": "Copied nodes render as the original", "statement": "Visiting a deepcopy of a node gives the same data as visiting the node, for every node tree.", "quantifier": "every node tree", "why_tests_cant": "all trees", "anchors": ["mau/nodes", "mau/visitors/base_visitor.py"]}
{"id": "C51", "title": "Command-line variables reach the environment", "statement": "Every -v key=value is readable as mau.NAMESPACE.key, the last one winning; the variables already there are kept.", "quantifier": "every list of variables", "why_tests_cant": "all lists", "anchors": ["mau/__init__.py:load_environment_variables"]}
{"id": "C52", "title": "The default output file is not the input file", "statement": "Without -o the rendered output never overwrites the input file.", "quantifier": "every input file name", "why_tests_cant": "all names", "anchors": ["mau/cli.py:main"]}
{"id": "C53", "title": "The syntax of a document line does not depend on its neighbours", "statement": "Outside blocks and comment sections every line is read by itself: a fixed grammar of lines (blank, comment, horizontal rule, header, list item, variable definition, arguments, label, control, include, anything else is text) says which tokens it gives, whatever lines come before and after; the grammar covers every line and is unambiguous.", "quantifier": "every line, every valid prefix of a document and every continuation", "why_tests_cant": "all lines and all contexts; regular expressions backtrack", "anchors": ["mau/lexers/document_lexer.py", "mau/lexers/base_lexer.py:_process_empty_line"]}
{"id": "C54", "title": "The text of a link is what was written", "statement": "The quoted text argument of [link](target, \"text\") is parsed as inline text by itself and becomes the content of the link.", "quantifier": "every target and text", "why_tests_cant": "all texts; values that start with * # @ are taken for something else", "anchors": ["mau/parsers/text_parser.py:_parse_macro_link", "mau/parsers/arguments_parser.py"]}
{"id": "C55", "title": "Inline parsing does not lose or move characters", "statement": "In a line without '[' every character that is not special is in the visible text of the nodes, in the same order, except spaces at the end of the line; no other ordinary character is added.", "quantifier": "every line without an opening square bracket", "why_tests_cant": "all strings, all ways to backtrack", "anchors": ["mau/parsers/text_parser.py"]}
{"id": "C56", "title": "Escaped quotes in macro arguments", "statement": "A quote escaped with a backslash inside a quoted macro argument belongs to the argument.", "quantifier": "every macro argument", "why_tests_cant": "all values", "anchors": ["mau/parsers/text_parser.py:_collect_macro_args"]}
{"id": "C57", "title": "A document is read element by element", "statement": "A document that is processed successfully is a sequence of well-formed elements (rules, variables, labels, conditions, arguments, headers, blocks, includes, lists, paragraphs, blank lines), each as long as possible and nothing in between, and processing it is processing them in order.", "quantifier": "every document", "why_tests_cant": "all documents", "anchors": ["mau/parsers/document_parser.py:DocumentParser", "mau/parsers/base_parser.py:parse", "mau/parsers/document_processors"]}
{"id": "C58", "title": "The loops of the parsers end", "statement": "Every loop of the parsers consumes a token at each step, so no text makes one run forever; only parsers inside parsers can be nested without a bound.", "quantifier": "every text", "why_tests_cant": "non-termination is not testable", "anchors": ["mau/parsers/base_parser.py:parse", "mau/parsers/text_parser.py", "mau/parsers/document_processors/list.py"]}
{"id": "C59", "title": "The grammar of a document", "statement": "Every document is read line by line: each line has one reading; a line of four equal characters opens a block that runs to the next equal line, a line of four slashes opens a comment that runs to the next such line, and a block or comment without its end is an error; the reading is unique.", "quantifier": "every text", "why_tests_cant": "all texts", "anchors": ["mau/lexers/document_lexer.py:DocumentLexer", "mau/lexers/base_lexer.py:BaseLexer.lex"]}
{"id": "C60", "title": "A larger recursion limit changes nothing", "statement": "If a document is processed, or is rejected, within some depth of nested parsers, then with any larger depth the outcome is the same, whatever the files it includes.", "quantifier": "every document, environment, set of files and pair of depths", "why_tests_cant": "all depths", "anchors": ["mau/parsers/document_parser.py:DocumentParser", "mau/parsers/document_processors/block.py", "mau/parsers/document_processors/include.py"]}
{"id": "C61", "title": "Environment files reach the environment", "statement": "Every value of a YAML file given with -e is readable as mau.NAMESPACE.KEY.path, where KEY is the one given as KEY=FILE or the stem of the file name; the last file of a key wins; variables outside are kept; a file that cannot be read is a ConfigurationError.", "quantifier": "every list of files and every content", "why_tests_cant": "all nested contents", "anchors": ["mau/__init__.py:load_environment_files"]}
{"id": "C62", "title": "The output is written only when everything succeeded", "statement": "The program writes at most one file, only when configuration, lexing, parsing and rendering all succeeded, with the rendered text and a final newline; every Mau error is reported and gives exit code 1.", "quantifier": "every option list, input and visitor", "why_tests_cant": "all failures at all stages", "anchors": ["mau/cli.py:main", "mau/cli.py:write_output", "mau/__init__.py:Mau"]}
{"id": "C63", "title": "A document changes only the variables it defines", "statement": "After processing a document the variables are those given, plus the parser's defaults where there was no value, plus the names the document defines on its own lines or inside its blocks; nothing else changes.", "quantifier": "every document, environment and set of files", "why_tests_cant": "all documents, nested blocks and includes", "anchors": ["mau/parsers/document_parser.py", "mau/parsers/document_processors/variable_definition.py", "mau/parsers/document_processors/block_engines/default.py"]}
{"id": "C64", "title": "A definition gives the variable its value", "statement": "After :name:value the variable has that value with its own variables replaced, :+name: makes it true and :-name: false; nothing else of the parser changes.", "quantifier": "every definition and parser state", "why_tests_cant": "all values and environments", "anchors": ["mau/parsers/document_processors/variable_definition.py"]}
{"id": "C65", "title": "A Mau object can process several documents", "statement": "Processing a document does not influence the documents processed later with the same environment.", "quantifier": "every pair of documents", "why_tests_cant": "all histories", "anchors": ["mau/__init__.py:Mau.process", "mau/parsers/document_processors/variable_definition.py"]}
{"id": "C66", "title": "A visit shows everything a node has", "statement": "The data a visitor produces for a node contains the node's class, arguments, tags, subtype, the context and parent when requested, and every public attribute of the node, with the results for the nodes in it in their order; nothing is dropped, renamed or swapped.", "quantifier": "every node of every class, every visitor and every combination of visitor options", "why_tests_cant": "all nodes and all visitors", "anchors": ["mau/visitors/base_visitor.py:BaseVisitor.visit", "mau/nodes"]}
{"id": "C67", "title": "Rendering ends", "statement": "A visit of a node of a parsed document ends with a result.", "quantifier": "every node and visitor", "why_tests_cant": "termination over all node graphs", "anchors": ["mau/visitors/base_visitor.py:BaseVisitor.visit", "mau/nodes/macros.py:MacroHeaderNode", "mau/nodes/headers.py"]}
{"id": "C68", "title": "A parsed document can always be rendered, but for templates and depth", "statement": "Rendering a parsed document fails only with an error of the visitor (a missing template, a template that fails) or with the recursion limit of the interpreter: no node lacks an attribute, and no link, mention, table of contents, footnotes list or group refers to a node that does not exist.", "quantifier": "every parsed document and every sequence of assignments to its nodes, every visitor, every recursion limit", "why_tests_cant": "all documents", "anchors": ["mau/visitors/base_visitor.py:BaseVisitor.process", "mau/parsers/managers", "mau/nodes"]}
{"id": "C69", "title": "Links, mentions and groups go where they say", "statement": "After parsing, every footnote mention holds the footnote of the name it mentions, every header link holds the header of the document that has the name it links to (and that header's text when the link has none), every block group holds only blocks with its group name, each at the position it declares, and tables of contents, footnote lists and ids are given to nodes of that kind only; no node is at two places of the document, no node is in two of the blocks that are shown elsewhere, and a group never contains itself.", "quantifier": "every document that parses, with every environment, set of files and recursion limit; every node of the document, of the footnotes and of the groups", "why_tests_cant": "all documents: nested blocks, included files and non-isolated blocks each have their own managers and share the nodes", "anchors": ["mau/parsers/document_parser.py:DocumentParser.finalise", "mau/parsers/managers", "mau/parsers/document_processors"]}
{"id": "C70", "title": "Nothing is left unfilled and the table of contents is complete", "statement": "After parsing, every header of the document has an internal id, every list of footnotes has been given the footnotes and every block group its blocks, also inside blocks, in the blocks of the groups and in the bodies of the footnotes; and every table of contents has been given, as its last content, all the headers of the document that are in no isolated block, in document order, each entry under the nearest previous header of a higher level, the nested and the plain list having the same entries.", "quantifier": "every document that parses, with every environment, set of files and recursion limit; every node of the document, of the groups and of the bodies of footnotes", "why_tests_cant": "all documents: each block has its own managers, which run before those of the document and share nodes with it or not depending on isolation, and the later ones overwrite what the earlier ones wrote", "anchors": ["mau/parsers/document_parser.py:DocumentParser.finalise", "mau/parsers/document_processors", "mau/parsers/managers/toc_manager.py", "mau/parsers/managers/footnotes_manager.py", "mau/parsers/managers/block_group_manager.py"]}
{"id": "C71", "title": "Variables win over files, files over the configuration", "statement": "For every command line whose files can be read, the environment of the run has the last value given to every variable on the command line; where no variable has that name, the value in the environment file given last with that key; where neither, the value of the configuration file under mau. In particular the same full name given twice is decided by this order.", "quantifier": "every configuration file, list of environment files and variables, and namespaces", "why_tests_cant": "all combinations of names, namespaces and nested contents", "anchors": ["mau/cli.py:main", "mau/__init__.py:load_environment_files", "mau/__init__.py:load_environment_variables"]}
{"id": "C72", "title": "The text of a node is its template applied to its data", "statement": "When the Jinja visitor renders a node, the text is that of the template chosen (C48) for the type, subtype, tags and template fields (style, macro name, role, content type, group, position) of the node and of its parent, rendered with data that hold every attribute; the nodes inside are rendered in the same way, in order, and joined with a newline in documents and source blocks, a space in paragraphs and nothing elsewhere.", "quantifier": "every tree of nodes, set of templates and prefixes, rendering function and node that can be rendered", "why_tests_cant": "all documents and all sets of templates", "anchors": ["mau/visitors/jinja_visitor.py:JinjaVisitor.visit", "mau/visitors/jinja_visitor.py:JinjaVisitor.visitlist", "mau/nodes:custom_template_fields"]}
{"id": "C73", "title": "Every element makes exactly the node that is written", "statement": "For every document that parses, the nodes of the document are, in order, those of its elements: for each element whose condition holds, one node with the text of its lines (parsed as inline text in the environment at that point, each line at its position), the level, the numbering (start), the classes, language and lines of a block, the lines of an included file, the arguments that were given less those the construct uses, the pending labels, and the context of its first and last token. An element whose condition does not hold adds nothing; the body of a footnote is stored under its name and a block of a group under its group and position; definitions, conditions, arguments and blank lines add no node, a label is kept under its role.", "quantifier": "every document, configuration and environment", "why_tests_cant": "all sequences of elements, texts and arguments", "anchors": ["mau/parsers/document_processors", "mau/parsers/document_parser.py:DocumentParser", "mau/parsers/base_parser.py:BaseParser.parse"]}
{"id": "C74", "title": "The nodes that a visitor is given are the parsed document", "statement": "When the output of a parsed document is given to a visitor, the object of the document is the root of a tree with every parsed node in its place: each has the class, arguments, context, values, labels and nodes (in order) that were parsed. Every node that is completed after the parsing has what was assigned to it: a mention the footnote with its name, ids and a copy of the content of its body; a list of footnotes an item for each footnote, in order; a header its internal id; a table of contents the entries nested as their headers are, and a copy of each header; a link its header and its own text or a copy of the header's; a group an item with the block of each position. The document node has all the nodes, and the context from the first to the last.", "quantifier": "every document, configuration, environment and recursion limit for which the objects are made", "why_tests_cant": "all trees of nodes with links between them, in all orders", "anchors": ["mau/parsers/document_parser.py:DocumentParser.finalise", "mau/parsers/managers", "mau/nodes/node.py:Node.deepcopy"]}
{"id": "C75", "title": "Every node has the right parent", "statement": "In the tree that a visitor is given, the document has no parent and every node held by another has the parent that the kind of its holder prescribes: a label and the content of a style, header, paragraph, block, label or document have the node that holds them; the text of a line has the paragraph and the text of an item or an inner list the outermost list; the text of a class or link macro and a callout have none; the nodes of an included document have a document node with that content and the context from its first to its last node; the entries of a table of contents, at any depth, have the table of contents, and the copies of the headers too; the items of a list of footnotes have that list; the copied content of a footnote has the footnote, the copied text of a link the link, and every copy the copy that holds it; an item of a group has a group node with that name, and a block of a group an item with its position. A mention refers to a footnote, which has no parent, and a link or an entry to a header of the text.", "quantifier": "every document, configuration, environment and recursion limit for which the objects are made, and every node of it", "why_tests_cant": "all documents; template selection depends on the parent of every node", "anchors": ["mau/nodes/node.py:Node.set_parent", "mau/nodes/node.py:Node.deepcopy", "mau/parsers/managers", "mau/parsers/document_processors"]}
{"id": "C76", "title": "Errors point at the text that caused them", "statement": "When the parsing of a document fails with a MauException, the place in the message is in the document (its source, and lines of its text) or in a file that is included; if an element of the document fails (a paragraph, block, list, ...), the place is in the lines of that element, or of the condition before it for a variable that is not defined; errors in a line of text are on that line. Exceptions: a footnote defined twice is reported at no place, and this does not hold for texts where a variable has an empty name or the given environment has values of more than one line.", "quantifier": "every document, environment, set of files, configuration and recursion limit", "why_tests_cant": "all documents and all nestings of blocks, includes, variables and macros, and all errors", "anchors": ["mau/message.py:MauMessage", "mau/text_buffer.py:Context", "mau/parsers/base_parser.py:BaseParser", "mau/parsers/document_parser.py:DocumentParser", "mau/parsers/text_parser.py:TextParser", "mau/parsers/preprocess_variables_parser.py", "mau/parsers/arguments_parser.py", "mau/parsers/condition_parser.py"]}
{"id": "C77", "title": "A failed run tells where the error is", "statement": "When the document given to the command line cannot be read because of a MauException, the program ends with 1, writes no file, and what it logs is the text of the error followed by its place: the name of the input file (or of an included one), the first and the last line, counted from 1 and lines of that file, and the columns. The place is read back from the logged line in one way only, whatever the name of the file is. The exceptions are those of C76.", "quantifier": "every document, command line, environment, set of files and names of files", "why_tests_cant": "all documents and errors, all names of files (with colons, commas and digits) and all numbers", "anchors": ["mau/message.py:LogMessageHandler", "mau/text_buffer.py:Context.__repr__", "mau/text_buffer.py:adjust_context", "mau/text_buffer.py:adjust_position", "mau/__init__.py:Mau.run_parser", "mau/cli.py:main"]}
{"id": "C78", "title": "The templates of a path are the files with the extension", "statement": "The templates that are loaded from a configured path are exactly the files under it, at any depth, whose name ends with the extension of the visitor, each with its (preprocessed) text, under the name made of the names of its directories and its own, joined by dots; a file with another extension is never read, and loading fails only if a file with the extension cannot be read. If no two files have the same dotted name the order in which directories are listed does not matter for what is loaded. The visitor has the template of each such file unless custom templates or a later path replace it.", "quantifier": "every directory tree, listing order, extension, preprocess function and configuration", "why_tests_cant": "all trees of files and all orders of listing", "anchors": ["mau/visitors/jinja_visitor.py:_load_templates_from_path", "mau/visitors/jinja_visitor.py:load_templates_from_filesystem", "mau/visitors/jinja_visitor.py:JinjaVisitor.__init__", "mau/environment/helpers.py:flatten_nested_dict"]}
{"id": "C79", "title": "What is written is what the templates make of the parsed document", "statement": "The output of a visitor on a text is determined node by node by the parsed document: for each node the visitor's step (for JinjaVisitor, the template chosen for that node and its parent) is given the node's class, arguments, tags, context, the data of its parent, and every attribute, where the nodes in an attribute are replaced by what is given for them, in order (for JinjaVisitor, joined by newlines in a document and a source block, by spaces in a paragraph, by nothing elsewhere). Mentions, lists of footnotes, links, tables of contents and groups have the footnotes, headers and blocks that were resolved for them. The command line writes the text that the template of the document gives, followed by a newline; the template rendered for a node is the one chosen for it, with the final environment as its configuration.", "quantifier": "every text, configuration, environment, visitor (any function of the node, the parent and the data) and set of templates", "why_tests_cant": "all documents, visitors and templates, at any depth", "anchors": ["mau/visitors/base_visitor.py:BaseVisitor.visit", "mau/visitors/jinja_visitor.py:JinjaVisitor.visit", "mau/visitors/jinja_visitor.py:JinjaVisitor._render", "mau/visitors/yaml_visitor.py:YamlVisitor", "mau/__init__.py:Mau.run_visitor", "mau/cli.py:main"]}
{"id": "C80", "title": "Header ids", "statement": "After parsing, every header of a document (at any depth, also in the bodies of footnotes and in block groups) has as its internal id the one written with [internal_id=...], or else what the configured function gives for that header as it is written; the copies of the header in the tables of contents have the same id and the same content, and a link to the header is given that header. The default function gives an id made of a-z, 0-9, dash and dot: the header's text in lower case without other characters, with a dash for each run of spaces, followed by a dash and four characters of the MD5 hash of level and text; it depends on the level and the text only. (Ids are not unique: two headers with the same level and text clash, and so do some headers of the same level with different texts, whatever the hash, against the comment in the code.)", "quantifier": "every document that parses, every configuration, function and environment; every header", "why_tests_cant": "all documents and functions: several managers (one for each block) assign ids, before and after the headers are copied in tables and links", "anchors": ["mau/parsers/managers/toc_manager.py:default_header_internal_id", "mau/parsers/managers/toc_manager.py:TocManager.process", "mau/parsers/managers/header_links_manager.py:HeaderLinksManager.process"]}
{"id": "C81", "title": "Footnote numbers and ids", "statement": "The footnotes in a list of footnotes are numbered 1, 2, 3, ... in the order of the list, have distinct names, and have the ids that the configured function gives for them; so has the footnote given to a mention. With the default function the id is the name, so the ids in a list are distinct. (Not in the whole document: footnotes in a block are numbered on their own and may have the same name, number and id as those outside.)", "quantifier": "every document that parses, every configuration, function and environment; every list and mention", "why_tests_cant": "all documents and functions", "anchors": ["mau/parsers/managers/footnotes_manager.py:default_footnote_unique_id", "mau/parsers/managers/footnotes_manager.py:FootnotesManager.process"]}
{"id": "C82", "title": "Errors of visitors name a node of the document", "statement": "When the rendering of a document with a Jinja visitor fails with a Mau error, the error is about a node: no template is for that node (and then the message says that none can be found), or the template that is for it uses something undefined (and then the message says so). The message has the type of the node and its place (source, first and last line counted from one, columns) as the parser recorded it; the command line ends with 1, writes no file and logs exactly the kind of error, the message, the place and the type. Any other failure is the recursion limit or an exception of jinja2 itself. (Labels, and the nodes made for footnotes, tables of contents and groups, have no place: an error about them is reported at line 1, column 0 of no source.)", "quantifier": "every document that parses, every set of templates, every behaviour of the templates, every environment and recursion limit", "why_tests_cant": "all documents, templates and nodes", "anchors": ["mau/visitors/base_visitor.py:create_visitor_exception", "mau/visitors/jinja_visitor.py:JinjaVisitor._find_matching_template", "mau/visitors/jinja_visitor.py:JinjaVisitor._render", "mau/message.py:LogMessageHandler.process"]}
{"id": "C83", "title": "Every node says where it is in the text", "statement": "After a document is parsed, every node in it at any depth (and in the bodies of footnotes, the blocks of groups, the tables of contents and the targets of header links) has a place whose source is the one of the document with lines that are lines of the document, or is an included file with lines of that file; the nodes of the document itself, and the document, are always in the document. An error of a Jinja visitor therefore names a place in the text. Exceptions: labels, a text that is empty (the text of a link to an empty target), the block that is the body of a footnote, and the nodes made for footnotes, tables of contents and groups, which may have no place; values of variables are of one line and names of variables are not empty.", "quantifier": "every document that parses, every environment with values of one line, every set of files and every recursion limit; every node", "why_tests_cant": "all documents and all nodes at every depth", "anchors": ["mau/text_buffer.py:Context.merge_contexts", "mau/parsers/document_parser.py:DocumentParser.finalise", "mau/parsers/document_processors/block.py:block_processor", "mau/parsers/text_parser.py:TextParser"]}
{"id": "C84", "title": "The box of a node is that of its element, and nodes are in the order of their lines", "statement": "Each element of a document adds at most one node, and the node's place is the least box of lines and columns that covers the first and last parts of the element (the two fences of a block; marker and content of a header; the first and the last line of a paragraph; the first and the last item of a list with their markers; prefix and type of an include; the rule itself). It has the source of the document and starts on the line of the element's first token; it ends on the line where the element ends, or (a text from a variable that ends with a backslash and a space) one after. The nodes of the document are in the order of their lines, and the place of the document starts on the line of its first node.", "quantifier": "every document that parses, every element in it, every environment with values of one line, every set of files and recursion limit", "why_tests_cant": "all documents, elements and environments", "anchors": ["mau/text_buffer.py:Context.merge_contexts", "mau/parsers/document_processors/block.py:block_processor", "mau/parsers/document_processors/list.py:list_processor", "mau/parsers/document_processors/paragraph.py:paragraph_processor", "mau/parsers/document_processors/header.py:header_processor", "mau/parsers/document_parser.py:DocumentParser.finalise"]}
{"id": "C85", "title": "Nodes with the internal tag debug are reported, and nothing else changes", "statement": "While a document is rendered, each node in it whose arguments have the internal tag debug (#mau:debug) gives a message with its type, its place (lines counted from one) and its data; the messages come in the order of the document, what is in a node before the node, and every message (also of a rendering that fails) is about a node that has the tag. In a document without mentions of footnotes, links to headers, tables of contents, lists of footnotes and groups these are all the messages, one for each node. The messages do not change what the visitor gives or whether it fails.", "quantifier": "every document that parses, every environment and files, every visitor (hooks) that includes contexts", "why_tests_cant": "all documents, all nodes at every depth, all visitors", "anchors": ["mau/visitors/base_visitor.py:BaseVisitor.visit", "mau/visitors/base_visitor.py:BaseVisitor._debug_result", "mau/message.py:LogMessageHandler.process_visitor_debug"]}
{"id": "C86", "title": "A document written with the grammar of the pages gives what was written", "statement": "Take a document made of headings, paragraphs of several lines, horizontal rules, lists (nested, ordered or not, from any first number), blocks with more of the same inside, raw blocks, blocks of source code (with callouts and highlighted lines), images, included documents (with their own variables, as C16 and C17 say, and with more of the same inside), raw includes of a file, groups of blocks, and other includes (table of contents, footnotes, custom ones), each with the arguments (values, keys, tags, subtype, or an alias, the predefined one for source code or one of the user), the labels and possibly a condition written before it; with variable and flag definitions, footnotes, blank lines, comments and comment sections between them; where the text is made of plain text, styles, code, escaped characters, variables, links, inline images, classes, macros of the user, conditions, and mentions of footnotes and of headers, everything mentioned is defined once, every group that is shown has a block, no two blocks share a place in a group, and no file is included twice or includes itself.  However it is written (spaces, markers, quotes, escapes), it compiles without an error, and the nodes of the document are exactly those whose condition holds, in order, each with its text, level, language, classes, arguments and labels, nested as written, with the variables replaced by their values at that point; and the variables at the end are those that were defined.", "quantifier": "every document of the grammar and every way to write it, every nesting, every environment whose configured functions are functions, every position of the text", "why_tests_cant": "the grammar is recursive and has infinitely many documents; the claim composes the lexers, the preprocessor, the text and argument parsers and the document parser", "anchors": ["mau/parsers/document_parser.py:DocumentParser", "mau/parsers/document_processors", "mau/lexers/document_lexer.py:DocumentLexer", "mau/parsers/text_parser.py:TextParser", "mau/parsers/arguments_parser.py:ArgumentsParser", "mau/parsers/document_processors/include.py:include_processor"]}
{"id": "C87", "title": "A condition inside a text shows the case that holds", "statement": "[if:VAR==VALUE](yes, no) (or !=) inside a text gives, in that place, the nodes of the text `yes` when the value of the variable is VALUE, of the text `no` when it is not, and nothing when there is no `no`; [ifeval:...](yes, no) gives those of the text in the variable of that name. The rest of the text, with any other conditions in it, is as it would be otherwise. An undefined variable (of the condition, or of the case of an ifeval), a missing case of an ifeval, or an operator other than if and ifeval, is a parser error that says so.", "quantifier": "every environment, every text and cases made of plain text, styles, code, escapes, mentions and macros, every way to write them, any number of conditions", "why_tests_cant": "texts, conditions and environments are unbounded, and the claim composes the text parser, the arguments parser and the condition parser", "anchors": ["mau/parsers/text_parser.py:TextParser._parse_macro_control", "mau/parsers/buffers/control_buffer.py:Control", "mau/parsers/condition_parser.py:ConditionParser"]}
