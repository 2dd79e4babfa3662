{"id": "C01", "title": "Plain text passes through unchanged", "statement": "Preprocessing a text that contains no '($' and no '(`' and only permitted characters (LF, CR, TAB, U+0020..U+00FF) with the C-output settings and comment skipping off yields exactly that text before the final clean-up pass; string and character literals, brackets and unbalanced quotes included.", "quantifier": "every finite text over the permitted alphabet without the two opening marks", "why_tests_cant": "tests sample a few texts; the claim must hold for every arrangement of quotes, backslashes, brackets and indentation", "anchors": ["pp/yugen.py:yuparse", "pp/yugen.py:ps_text", "pp/yugen.py:ps_plain", "pp/yugen.py:ps_quote", "pp/yugen.py:yueval (T)", "pp/yugen.py:_plain"]}
{"id": "C02", "title": "The parser always terminates with an AST or a reported error", "statement": "For every source text the parser stops and returns either an AST or an exception; no input without imports makes it loop or recurse forever, however deep the nesting.", "quantifier": "every finite source text, every nesting depth", "why_tests_cant": "non-termination on some input cannot be found by running finitely many inputs", "anchors": ["pp/yugen.py:yuparse", "pp/yugen.py:ps_text", "pp/yugen.py:ps_form", "pp/yugen.py:ps_application", "pp/yugen.py:ps_code"]}
{"id": "C03", "title": "Recorded source positions point at the text they claim", "statement": "Every fragment of the AST that carries a location (file, position) is literally the text found in that file at that position, so error messages and browse references lead to the right place.", "quantifier": "every source text and every located node of the AST the parser returns for it", "why_tests_cant": "positions are computed by chains of slicing over arbitrary inputs", "anchors": ["pp/yugen.py:SOURCE.__getitem__", "pp/yugen.py:ps_atom", "pp/yugen.py:ps_plain", "pp/yugen.py:ps_quote", "pp/yugen.py:ps_application"]}
{"id": "C04", "title": "Names are read by longest match", "statement": "A name is a letter or underscore followed by the longest run of letters, digits, underscores and hyphens; reading a name consumes exactly that run, and reading a gap or spacing consumes exactly the maximal run of white space.", "quantifier": "every text at every reading position", "why_tests_cant": "boundary characters and end-of-input form an unbounded set of contexts", "anchors": ["pp/yugen.py:ps_atom", "pp/yugen.py:ps_space", "pp/yugen.py:ps_eol", "pp/yugen.py:ps_gap"]}
{"id": "C05", "title": "Integer literals denote their value", "statement": "Each integer literal the reader accepts (decimal, hexadecimal, binary, octal, optional sign and L suffix) evaluates to the number it denotes in C/Python notation.", "quantifier": "every digit string of every base and length, signs and suffixes", "why_tests_cant": "infinitely many literals", "anchors": ["pp/yugen.py:re_INT", "pp/yugen.py:ps_number", "pp/yugen.py:INT"]}
{"id": "C06", "title": "A preprocessor comment disappears completely", "statement": "($! ... ) with a body whose parentheses are balanced is consumed up to exactly its own closing parenthesis, whatever the body contains, and contributes nothing to the generated text.", "quantifier": "every balanced body over the permitted alphabet and every following text", "why_tests_cant": "bodies of unbounded size and nesting", "anchors": ["pp/yugen.py:ps_comment", "pp/yugen.py:ps_plain", "pp/yugen.py:yueval (T -- COMMENT)"]}
{"id": "C07", "title": "Quoted text is reproduced verbatim", "statement": "(`body) and ($quote body) with a parenthesis-balanced body denote exactly the characters of body: nothing inside is interpreted and nothing is lost.", "quantifier": "every balanced body over the permitted alphabet and every following text", "why_tests_cant": "bodies of unbounded size and nesting", "anchors": ["pp/yugen.py:ps_quote", "pp/yugen.py:ps_plain"]}
{"id": "C08", "title": "A macro definition captures its body verbatim", "statement": "($macro name (p1 ... pn) body) with balanced body defines a macro with exactly that name, those parameters in that order and exactly that body text, and nothing after the closing parenthesis is touched.", "quantifier": "every name, parameter list, balanced body and following text", "why_tests_cant": "unbounded parameter lists and bodies", "anchors": ["pp/yugen.py:ps_macro"]}
{"id": "C09", "title": "Comments of the target language are left alone when skipping is on", "statement": "With comment skipping on, a C comment (// to end of line, /* to the first */) or a Python comment (# to end of line) is copied to the output verbatim, even if it contains preprocessor constructs; a /* that is never closed is an error.", "quantifier": "every comment text and every following text", "why_tests_cant": "comment bodies are arbitrary", "anchors": ["pp/yugen.py:ps_remark_c", "pp/yugen.py:ps_remark_python", "pp/yugen.py:ps_text"]}
{"id": "C10", "title": "Expressions are read as they are written", "statement": "Writing any expression (names, numbers, lists with spliced elements, applications with positional and named arguments, lambdas with defaults and late parameters, conditionals, local bindings, and texts in square brackets, braces, the lines of a block, two commas up to semicolons or the end of the surrounding construct, or the parentheses of code and infix constructs, themselves with literals, comments, quotations, definitions, macros, outputs of variables and constructs inside) in concrete syntax, with any white space between its parts, any numeral of its numbers, positional and named arguments mixed and optional closing tags, and parsing it gives that same expression and consumes exactly the text written.", "quantifier": "every expression tree of the fragment, of any size and depth, in every writing and every context", "why_tests_cant": "expression trees are unbounded; precedence and look-ahead interact", "anchors": ["pp/yugen.py:ps_form", "pp/yugen.py:ps_former", "pp/yugen.py:ps_lambda", "pp/yugen.py:ps_application", "pp/yugen.py:ps_list", "pp/yugen.py:ps_let", "pp/yugen.py:ps_variable"]}
{"id": "C11", "title": "Line endings are normalised", "statement": "After reading a source its text contains no carriage return, CRLF and CR both became LF, the number of lines is unchanged, texts without CR are unchanged, and normalising twice is the same as once.", "quantifier": "every text", "why_tests_cant": "all placements of CR and LF", "anchors": ["pp/yugen.py:_unify_eol", "pp/yugen.py:_import_source", "pp/yugen.py:yushell"]}
{"id": "C12", "title": "A library is imported at most once", "statement": "($import name) includes the library the first time it is reached in a run and contributes nothing afterwards, including when libraries import each other in a cycle, so importing by name always terminates.", "quantifier": "every set of library files with arbitrary (also cyclic) by-name imports", "why_tests_cant": "import graphs are unbounded", "anchors": ["pp/yugen.py:_import_source", "pp/yugen.py:ps_import", "pp/yugen.py:TEXT.enclose_import"]}
{"id": "C13", "title": "Environments are scoped, ordered maps", "statement": "Looking a name up yields the value of the innermost scope that binds it; assigning in a scope changes that name there and no other name anywhere; updating a variable changes the innermost binding only and never creates one; parameters are offered for assignment in declaration order.", "quantifier": "every chain of scopes and every sequence of assignments and updates", "why_tests_cant": "histories of assignments are unbounded", "anchors": ["pp/yugen.py:ENV"]}
{"id": "C14", "title": "Definitions do not leak out of their text block", "statement": "Evaluating any expression leaves the set and order of names of every enclosing scope as they were: ($set), ($macro), ($let) and parameters are visible only inside their block, and only ($emit) can change a value of an outer name.", "quantifier": "every expression, environment and evaluation length", "why_tests_cant": "arbitrary programs", "anchors": ["pp/yugen.py:yueval", "pp/yugen.py:ENV", "pp/yugen.py:SET_CLOSURE", "pp/yugen.py:L_CLOSURE"]}
{"id": "C15", "title": "The result does not depend on available resources", "statement": "If evaluating an expression finishes at all, giving it more recursion depth yields the same result and the same feedback; evaluation is deterministic.", "quantifier": "every expression, environment and budget", "why_tests_cant": "all budgets, all programs", "anchors": ["pp/yugen.py:yueval"]}
{"id": "C16", "title": "Arguments reach the parameters they are meant for", "statement": "Applying a function to positional and named arguments binds each named argument to the parameter of that name and the positional ones, in order, to the parameters left over in declaration order; remaining parameters take their default; an unknown name is an error. An expression given to a late-bound parameter is computed once for every call of that parameter, with the arguments of the call, in order, as the values of the late-bound names.", "quantifier": "every parameter list, every mix and number of positional and named arguments", "why_tests_cant": "combinations of arities are unbounded", "anchors": ["pp/yugen.py:yueval (APPLY -- LAMBDA_CLOSURE)", "pp/yugen.py:ENV.unassigned", "pp/yugen.py:_list_eval_1"]}
{"id": "C17", "title": "Applying a text template substitutes its parameters", "statement": "For a function whose body is a text made of literal pieces and parameter references, application to as many text arguments yields the body with each reference replaced by its argument and everything else unchanged.", "quantifier": "every template, parameter list and argument texts", "why_tests_cant": "templates and arguments are arbitrary", "anchors": ["pp/yugen.py:yueval", "pp/yugen.py:_plain"]}
{"id": "C18", "title": "A list applied to a function maps it in order", "statement": "($ list f) yields the results of applying f to the elements in order, one result per element except that elements whose result is nothing are dropped; several functions are composed left to right.", "quantifier": "every list length and every function whose applications finish", "why_tests_cant": "unbounded lists", "anchors": ["pp/yugen.py:yueval (APPLY -- list)"]}
{"id": "C19", "title": "Subscripting selects the right element or nothing", "statement": "A number n applied to a list yields its n-th element (negative n counts from the end) and nothing when n is beyond the end; applied to several arguments it selects among them.", "quantifier": "every number and every list", "why_tests_cant": "all index/length combinations", "anchors": ["pp/yugen.py:yueval (APPLY -- int)"]}
{"id": "C20", "title": "A conditional evaluates only the chosen branch", "statement": "a ? c | b yields a when c is true and b (or nothing) otherwise, and the branch not chosen is not evaluated, so its errors and effects do not happen.", "quantifier": "every condition value and every pair of branches, including failing ones", "why_tests_cant": "the unselected branch is arbitrary", "anchors": ["pp/yugen.py:yueval (COND)"]}
{"id": "C21", "title": "emit walks through a list", "statement": "Successive ($emit v) on a variable bound to a list return its elements in order and then nothing; other variables are untouched; ($emit v f) additionally replaces the variable by f of the rest.", "quantifier": "every list and every number of calls", "why_tests_cant": "call sequences are unbounded", "anchors": ["pp/yugen.py:yueval (EMIT)", "pp/yugen.py:ENV.update_variable"]}
{"id": "C22", "title": "skip ignores exactly the rest of its module", "statement": "After ($skip) everything up to the end of the current file is ignored, including whole files imported there, and evaluation resumes right after the import of the current file.", "quantifier": "every arrangement of nested imports and items", "why_tests_cant": "nesting of imports is unbounded", "anchors": ["pp/yugen.py:yueval (T -- SKIP)"]}
{"id": "C23", "title": "String formatting substitutes each argument once", "statement": "A string applied to arguments is the string with every ($i) replaced by the i-th argument and every ($name) by the named one, the inserted texts not being interpreted again.", "quantifier": "every format string and argument texts", "why_tests_cant": "arguments may themselves look like placeholders", "anchors": ["pp/yugen.py:yueval (APPLY -- str)"]}
{"id": "C24", "title": "Macro expansion substitutes parameters by the argument texts", "statement": "A macro call inserts the text of each argument at every ($par) of the body, simultaneously, and evaluates the resulting text.", "quantifier": "every macro body, parameter list and argument texts", "why_tests_cant": "arguments may themselves look like parameters", "anchors": ["pp/yugen.py:yueval (M_CLOSURE)"]}
{"id": "C25", "title": "List evaluation splices and keeps order", "statement": "Evaluating a list evaluates its elements left to right, splices *-marked lists in place, drops elements that evaluate to nothing and keeps the order of all others.", "quantifier": "every list of expressions", "why_tests_cant": "unbounded lists", "anchors": ["pp/yugen.py:yueval (list)"]}
{"id": "C26", "title": "List built-ins do what their names say", "statement": "index/rindex give the first/last position or -1, car/cdr split a list without loss, reversed reverses, unique keeps the first occurrence of each element in order on every call; ($getslice l a b s) walks from a to b in steps of s, forwards or backwards, with positions counted from the end if negative, moved into the list if outside it, and open if the argument is an empty text; ($mul l n) is n copies of l one after another and empty for n < 1, ($contains l v) is 1 exactly if an element equals v, ($getitem l i) is the element at position i from the front or, if i is negative, from the end, ($concat l m) and ($add l m) are the elements of l and then those of m.", "quantifier": "every list and every sequence of calls", "why_tests_cant": "lists and call histories are unbounded", "anchors": ["pp/yugen.py:builtin"]}
{"id": "C27", "title": "Blank-line reduction", "statement": "With emptiness reduction on, the generated text has no two successive blank lines and no trailing white space, ends in a newline, keeps every non-blank line in order up to trailing white space, and reducing again changes nothing.", "quantifier": "every generated text", "why_tests_cant": "all texts", "anchors": ["pp/yugen.py:reduce_emptiness"]}
{"id": "C28", "title": "Steady spaces are the only characters rewritten at the end", "statement": "The final replacement turns the markers produced by ($SPACE) and ($TAB) into a space and a tab, keeps the length and leaves every other character alone; the markers themselves do not count as blank while empty lines and line ends are cleaned.", "quantifier": "every generated text", "why_tests_cant": "all texts", "anchors": ["pp/yugen.py:replace_steady"]}
{"id": "C29", "title": "Substituted text follows the indentation of the application", "statement": "The lines of a substituted text lose their common leading white space and, from the second line on, get the indentation of the application; relative indentation and content of the lines are preserved.", "quantifier": "every text and every indentation", "why_tests_cant": "all texts", "anchors": ["pp/yugen.py:TRIM.trim"]}
{"id": "C30", "title": "Browse information does not change the generated text", "statement": "Generating with and without browse information gives the same text.", "quantifier": "every source text / every text being indented", "why_tests_cant": "all texts and indentations", "anchors": ["pp/yugen.py:TRIM.trim", "pp/yugen.py:TRIM.trim_with_browse", "pp/yugen.py:_plain", "pp/yugen.py:_plain_with_browse", "pp/yugen.py:reduce_emptiness"]}
{"id": "C31", "title": "Browse offsets lead back to the origin", "statement": "For every character of the output that stems from the evaluated text, its output position shifted by the recorded offset is its position before trimming and blank-line reduction; offset lists compose, and concatenation keeps both parts navigable.", "quantifier": "every text, every sequence of trimming, concatenation and reduction, every character position", "why_tests_cant": "positions and edit sequences are unbounded", "anchors": ["pp/yugen.py:_bisect", "pp/yugen.py:_merge_offset", "pp/yugen.py:TRIM.trim_with_browse", "pp/yugen.py:RESULT.add_text", "pp/yugen.py:reduce_emptiness", "sublime_text/Data/Packages/yupp/yupp.py"]}
{"id": "C32", "title": "AST beautifying only adds white space", "statement": "The readable dump of an AST contains exactly the characters of the dump in order, with only line breaks and indentation inserted.", "quantifier": "every string, balanced or not", "why_tests_cant": "all strings", "anchors": ["pp/yugen.py:_ast_pretty"]}
{"id": "C33", "title": "The output file is never the input file", "statement": "The name computed for the output of a source never equals the name of the source, and follows the documented rules (*.yu-E to *.E, *.E.yu to *.E, *.yu to *.yugen, *.E to *.yugen.E, * to *.yugen).", "quantifier": "every file name and output directory", "why_tests_cant": "all names", "anchors": ["pp/yup.py:_output_fn"]}
{"id": "C34", "title": "The previous output survives a crash", "statement": "At every point of writing an output file, including a crash in the middle, the complete previous content is still present under the output name or its .bak name, and after completion the new content is under the output name and the previous one under .bak.", "quantifier": "every crash point, every file-system state before", "why_tests_cant": "crash points and prior states", "anchors": ["pp/yup.py:shell_backup", "pp/yup.py:shell_savetofile", "pp/yup.py:_pp_stream"]}
{"id": "C35", "title": "A failed run does not touch the output", "statement": "If preprocessing fails, the existing output file and its backup are unchanged; only an .ast dump may be written.", "quantifier": "every file-system state and every failure", "why_tests_cant": "all prior states", "anchors": ["pp/yup.py:_pp_stream", "pp/yup.py:_pp"]}
{"id": "C36", "title": "The exit status reports failures", "statement": "The process exit status is zero exactly when every file was processed successfully.", "quantifier": "every list of files and every outcome per file", "why_tests_cant": "arbitrary numbers of files", "anchors": ["pp/yup.py:cli", "__main__.py:main"]}
{"id": "C37", "title": "One pass per element of the passage list", "statement": "A source that evaluates ($__PASSAGE__ list) is processed once per element, in order, pass k seeing element k; a source that does not is processed once; a failing pass stops further passes and counts as one failure.", "quantifier": "every list length, every position of the failing pass", "why_tests_cant": "unbounded pass counts", "anchors": ["pp/yup.py:cli", "pp/yugen.py:yueval (__PASSAGE__)"]}
{"id": "C38", "title": "A cached output is never stale", "statement": "When a Python source is served from its existing output, that output was generated from the current content of the source and of its declared dependencies.", "quantifier": "every history of edits and runs under a non-decreasing clock", "why_tests_cant": "histories are unbounded", "anchors": ["pp/yup.py:proc_stream"]}
{"id": "C39", "title": "Settings of one file do not leak into another", "statement": "The settings in force while processing a file are determined by the defaults, the directory settings and the file settings, in increasing priority, not by files processed earlier.", "quantifier": "every sequence of files and settings", "why_tests_cant": "histories are unbounded", "anchors": ["pp/yup.py:_pp_configure", "pp/yup.py:shell_parse_yuconfig", "pp/yugen.py:_update_builtin_from_config"]}
{"id": "C40", "title": "The codec answers to its documented names", "statement": "The codec lookup accepts exactly yupp and yupp.<known encoding>, in any letter case, and returns a usable codec for those.", "quantifier": "every encoding name", "why_tests_cant": "all names", "anchors": ["__init__.py:yupp_search_function"]}
{"id": "C41", "title": "Incremental decoding equals one-shot decoding", "statement": "Feeding a source to the incremental decoder in any chunks gives the same text as decoding it at once.", "quantifier": "every byte string and every way to cut it into chunks", "why_tests_cant": "all chunkings", "anchors": ["__init__.py:incremental_decoder_factory"]}
{"id": "C42", "title": "Traceback line numbers are the lines of the generated file", "statement": "Line numbers shown for preprocessed files account for the removed header lines, and frames of other files keep their line numbers.", "quantifier": "every line number and every header form, cached or not", "why_tests_cant": "all line numbers and histories", "anchors": ["pylib/yutraceback3.py:StackSummary.extract", "pp/yup.py:proc_stream", "pp/yugen.py:ps_header_python"]}
{"id": "C43", "title": "The magic comment is removed and nothing else", "statement": "For Python sources the coding line naming yupp is removed (or reduced to its encoding), a shebang before it is kept, and a source without it is left entirely alone.", "quantifier": "every source text", "why_tests_cant": "all texts", "anchors": ["pp/yugen.py:ps_header_python", "pp/yugen.py:yuparse"]}
{"id": "C44", "title": "Error messages name the right line", "statement": "The line number reported for a position is the number of the line containing that position. For a position in a text that a macro has made, the message names the places of the call, then those of the macro, then the line in the text of the macro, however deep macros call macros.", "quantifier": "every text and position, every chain of macro calls", "why_tests_cant": "all texts and positions", "anchors": ["pp/yugen.py:_loc", "pp/yugen.py:SOURCE"]}
{"id": "C45", "title": "The interactive loop evaluates exactly what was typed since the last run", "statement": "Each run command processes the concatenation of the lines entered since the previous run command, a block of white space only is skipped, and the exit command ends the loop without running anything.", "quantifier": "every sequence of input lines", "why_tests_cant": "sessions are unbounded", "anchors": ["pp/yup.py:cli (REPL)"]}
{"id": "C46", "title": "Success is only reported for a written output", "statement": "A run that reports success for a source has stored the complete generated text under the output name.", "quantifier": "every file-system state and every failing system call", "why_tests_cant": "every call may fail, in every prior state", "anchors": ["pp/yup.py:_pp_stream"]}
{"id": "C47", "title": "String and character literals of a C output are left alone", "statement": "For outputs other than Python, a string literal or character constant (a quote, characters and backslash pairs, the same quote) is copied to the output verbatim, even if it contains preprocessor constructs.", "quantifier": "every literal and every surrounding text", "why_tests_cant": "literals and their surroundings are arbitrary; escapes, other quotes and constructs interact", "anchors": ["pp/yugen.py:ps_quote", "pp/yugen.py:re_STR", "pp/yugen.py:re_CHR", "pp/yugen.py:ps_text"]}
{"id": "C48", "title": "A construct is recognised by its keyword as a whole word", "statement": "An application written as an opening parenthesis, a dollar sign and the name of a function applies that function for every name that is not itself a keyword, in particular for names that merely begin with the letters of a keyword.", "quantifier": "every function name, every list of arguments and every surrounding text", "why_tests_cant": "names are arbitrary; tests use names that do not begin with a keyword", "anchors": ["pp/yugen.py:ps_application", "pp/yugen.py:ps_set", "pp/yugen.py:ps_let", "pp/yugen.py:ps_SET", "pp/yugen.py:ps_LET"]}
{"id": "C49", "title": "Text functions do what their names say", "statement": "For every text and argument: ($split t sep) yields the parts between the occurrences of sep found from the left and ($join .. sep) of them is t again; ($split t) yields the words; ($replace t a b) puts b between the parts; ($count t a) is the number of non-overlapping occurrences; ($find ..) and ($rfind ..) are the first and last position or -1; strip, lstrip, rstrip remove exactly the outer characters of the set; ljust, rjust, zfill pad to the width; lower, upper, swapcase change exactly the ASCII letters; ($chr ($ord c)) is c; ($getslice t a b) is the part between the positions; lt, le, gt, ge and cmp compare texts in the order of a dictionary over the code points, which is one total order; ($mul t n) and ($mul n t) are n copies of t, ($contains t p) is 1 exactly if p occurs in t, ($getitem t i) is the character at a position, ($concat t u) puts u behind t.", "quantifier": "all texts, separators, widths, positions and contexts in which no variable hides the function", "why_tests_cant": "the functions must agree with their meaning on every text, including overlapping and empty parts; tests sample a few", "anchors": ["pp/yugen.py:builtin", "pp/yugen.py:yueval"]}
{"id": "C50", "title": "Number functions compute exactly", "statement": "For every integer: add, sub, mul, neg, abs, inc, dec, sum are exact at any size; floordiv and mod satisfy a = b*q + r with the remainder on the side of the divisor; and, or, xor, invert work bit by bit on two's complement; shifts multiply and divide by powers of two; comparisons yield 1 or 0; str, hex, oct write the digits without leading zeros; atoi reads them back; isdigit of a number tells whether it is not negative; truth is 0 for zero, the empty text and the empty list and 1 otherwise.", "quantifier": "all integers of any size, all bases from 2 to 16", "why_tests_cant": "arithmetic must be exact for every pair of integers, negative ones and big ones included", "anchors": ["pp/yugen.py:builtin", "pp/yugen.py:yueval"]}
{"id": "C51", "title": "A definition holds in the rest of its block", "statement": "After ($set name expr) the name stands for the value of expr in everything that follows in the same block and hides an outer definition of the name there; ($set (a b c) list) gives the names the elements in order, a name without element gets nothing, and a value that is not a list goes to every name. ($let ...) does the same for one expression, a macro definition and the definitions in the expansion of a macro behave alike. A name can be redefined from its previous value.", "quantifier": "every block, every list of distinct names, every expression and its effects, every rest of the block and every surrounding scope", "why_tests_cant": "Scope errors show only in particular combinations of shadowing, order and nesting; the claim relates the rest of an arbitrary block to the same text in an extended environment.", "anchors": ["/repo/pp/yugen.py:yueval (SET, LET, SET_CLOSURE, T, MACRO, EMBED)", "/repo/pp/yugen.py:ENV"]}
{"id": "C52", "title": "A run yields the text the source stands for", "statement": "For a source made of running text, literals, comments, quotations, ($set ...) of values, lists and functions, ($let ...), ($macro ...), ($code ...), texts to be evaluated, and applications of defined functions, macros, built-in functions, subscripts, conditionals, templates and Python expressions, the run succeeds and its result is, from the first to the last character, the text in which every definition is gone, every application is replaced by its value moved to the indentation of the application, and everything else stands unchanged and in order (then cleaned up as configured). A name stands for its latest definition in front of it; the body of a function sees its parameters and the definitions in front of the function; the text of a macro with its arguments put in, or a text to be evaluated, is read as a source in its place, and what it defines holds in the rest of the source. The source has only one such meaning.", "quantifier": "all sources of this grammar of any size and nesting, all configurations without browsing, all outside worlds (files, Python), all input and output names, all earlier runs in the process", "why_tests_cant": "The claim joins reading, scoping, application, indentation and clean-up for arbitrary combinations and nestings of the constructs.", "anchors": ["pp/yup.py:_pp", "pp/yugen.py:yuparse", "pp/yugen.py:yueval", "pp/yugen.py:TRIM", "pp/yugen.py:ENV"]}
{"id": "C53", "title": "String literals denote the text their escapes spell", "statement": "(unq x) of a quoted text yields the text the literal denotes under Python's rules: simple, octal, \\x, \\u and \\U escapes are replaced by their characters, a backslash before the end of the line joins lines, a backslash before any other character stays; unquoted ASCII text is decoded in the same way. (strlen \"...\") is the length of the denoted text. (q x) and (qs x) yield a literal of printable ASCII characters that denotes x, and unq undoes them. Applied to a number, str, unq, q, qs and strlen work on its decimal digits with a sign before a negative one.", "quantifier": "all literals of any length with any mixture of escapes and characters, all texts for q and qs", "why_tests_cant": "Escapes interact with what stands behind them (digits behind an octal escape, a backslash behind a backslash), so a finite list of literals does not cover the combinations.", "anchors": ["/repo/pp/yugen.py:_unq", "/repo/pp/yugen.py:builtin (q, qs, unq, strlen)"]}
{"id": "C54", "title": "What a name means", "statement": "A name stands for the value of the innermost definition around it; failing that for a function of an imported Python script; failing that for the constant a -D option of the command line defines (the last option for the name counts; an option without value gives the constant True; blanks around name and value do not count; an option whose name is no identifier defines nothing); failing that for a built-in function, where __FILE__ and __OUTPUT_FILE__ give the quoted names of the input and the output and __MODULE_NAME__ the name of the input file without directory and extension, in capitals and with underscores for hyphens; failing all of them for itself. With an explicit scope an undefined name is an error.", "quantifier": "all names, all nestings of scopes, all lists of -D options, all scripts and all configurations", "why_tests_cant": "The claim is about the precedence between five sources of meaning for every combination of them.", "anchors": ["/repo/pp/yugen.py:yueval (VAR, APPLY)", "/repo/pp/yugen.py:_update_builtin_from_config", "/repo/pp/yugen.py:builtin", "/repo/pp/yugen.py:ENV.lookup"]}
{"id": "C55", "title": "Comparisons, truth tests and reduce", "statement": "eq and ne yield 1 or 0 and are each other's negation, eq compares by value (texts by their characters, lists by their elements); not yields 1 exactly for zero, the empty text and the empty list; islist and isatom recognise lists and names; list collects its arguments; reduce combines the elements of a list with a built-in function from the left, starting from the third argument or the first element.", "quantifier": "all values, all lists of any length, all built-in functions of two arguments", "why_tests_cant": "Lists of any length and nesting; an order of combination that differs shows only for functions that are not associative.", "anchors": ["/repo/pp/yugen.py:builtin (eq, ne, not, islist, list)", "/repo/pp/yugen.py:yueval (BUILTIN_SPECIAL)"]}
{"id": "C56", "title": "String literals of a Python output are left alone", "statement": "When the output is a Python file, a string literal (single or double quotes, three quotes, with the prefixes u and r in either case, on one line or continued behind a backslash) is copied to the output as it is, whatever it contains: constructs inside it are not processed, and what follows it is processed as if the literal were ordinary text. (False for a literal in double quotes that is continued on the next line and has an apostrophe in its first line.)", "quantifier": "all literals of any length and content, all positions in any text or block, all texts around them", "why_tests_cant": "Where a literal ends depends on quotes, escapes and line ends in every combination; a wrong end lets constructs inside a literal be expanded or hides those behind it.", "anchors": ["/repo/pp/yugen.py:ps_string_python", "/repo/pp/yugen.py:ps_quote", "/repo/pp/yugen.py:yuinit"]}
{"id": "C57", "title": "Imported files stand in the places of the imports, each library once", "statement": "A run on a source with imports yields the text the source stands for when the contents of every imported file are put in the place of the import: the file of the name itself if there is one, otherwise the one in the first directory that has it. A library imported by name contributes only the first time, wherever in the tree of imports that is, and circular imports end. ($skip) leaves out the rest of its own file and nothing of the files that import it.", "quantifier": "all sources and libraries of any number, length and nesting, all directories, all definitions and applications in them", "why_tests_cant": "The tree of imports has any depth and shape; a library read twice or left out, or a skip that reaches too far, shows only for some shapes.", "anchors": ["/repo/pp/yugen.py:ps_import", "/repo/pp/yugen.py:_import_source", "/repo/pp/yugen.py:enclose_import", "/repo/pp/yugen.py:yueval (SKIP, IMPORT_BEGIN, IMPORT_END)", "/repo/pp/yup.py:_pp"]}
{"id": "C58", "title": "File names and options settle how a source is read", "statement": "The language whose comments and string literals are left alone is Python exactly when the file of the output has the extension .py in any case of letters, and the language of C otherwise; the option for comments selects those of C, those of Python, none, or those of the language of the output. Messages and locations name the source by its file without the directory. Libraries are looked for in the directory of the source, then in the directories of the option in their order, then in the directory of the libraries that come with the program.", "quantifier": "all paths of inputs and outputs (any number of slashes, no extension, hidden names), all settings", "why_tests_cant": "The paths are arbitrary texts; a wrong corner case of splitting a path (no directory, several slashes, a name that is all extension) silently reads a source as the wrong language or searches the wrong directory.", "anchors": ["/repo/pp/yup.py:_pp", "/repo/pp/yup.py:_pp_stream", "/repo/pp/yugen.py:config", "/repo/pp/yugen.py:yuinit"]}
{"id": "C59", "title": "Functions that call themselves", "statement": "A function of one parameter that chooses between two branches by a condition on the parameter may call itself, and two such functions may call each other. Wherever it is called, at whatever depth, the call yields what the chosen branch yields with the parameter standing for the value of the argument; the other branch is not evaluated, so the calls end when the condition chooses a branch without a call.", "quantifier": "all conditions, branches and arguments of such a function; all depths of the recursion (factorials, rows of pieces and mutual calls for every number)", "why_tests_cant": "Tests reach a few depths; that every depth works, with a stack of parameters of the same name and the definitions in force at the call, takes an induction. That a harmless looking use (a call from the body of another function) never ends cannot be observed by running it.", "anchors": ["/repo/pp/yugen.py:yueval", "/repo/pp/yugen.py:COND_CLOSURE", "/repo/pp/yugen.py:LAMBDA_CLOSURE", "/repo/pp/yugen.py:ENV"]}
{"id": "C60", "title": "Functions that call functions", "statement": "A function may call functions defined before it, and those may call others. A call of such a function yields its body with the values of the arguments for its parameters, where every call in the body is in turn the body of the function called; the names of the parameters of the functions involved do not matter.", "quantifier": "all lists of functions, each in terms of those before it; all bodies made of constants, names, lists, conditionals, built-in functions, Python expressions, texts and calls; all arguments; all depths of calls", "why_tests_cant": "The evaluator works on a body before its parameters have values and hands arguments on half evaluated, so the result of a call depends on every function on the way. Tests cover a few chains; that any chain gives the meaning, and which coincidences of names or shapes of bodies break it, takes an induction over the calls.", "anchors": ["/repo/pp/yugen.py:yueval", "/repo/pp/yugen.py:LAMBDA_CLOSURE", "/repo/pp/yugen.py:COND_CLOSURE", "/repo/pp/yugen.py:ENV"]}
{"id": "C61", "title": "The standard library defines what it documents", "statement": "A source that begins with ($import stdlib) means what it means behind the definitions of the library, and the import itself leaves nothing but line ends (nothing at all when white space is trimmed). There ($if c a b) is a if c is true and b if not, ($unless c a b) the other way round, with nothing for a leg that is not given; ($BIN ds) is the number with these binary digits; INT_MAX and INT_MIN are the bounds of Python's sizes; ($define s b) is a macro of C with every line but the last continued; ($do s) and ($foo s) are the statements s between do { and } while ( 0 ), or ({ and }), each on lines of their own; ($def N) and ($undef N) leave #define N and #undef N and make N 1 or 0 from then on. ($def-if c N) does what ($def N) does if the condition c is true; if not, it leaves nothing and makes N 0.", "quantifier": "all sources behind the import, all arguments, all further definitions, with and without trimming and reduction, all directories and passes", "why_tests_cant": "The library is code in the language of the preprocessor: that its functions do what they say for all arguments and in all sources needs the meaning of that language.", "anchors": ["/repo/lib/stdlib.yu", "/repo/pp/yugen.py:ps_import", "/repo/pp/yugen.py:yuparse", "/repo/pp/yugen.py:yueval", "/repo/pp/yup.py:_pp"]}
{"id": "C62", "title": "The codec hands the interpreter the preprocessed file", "statement": "When Python loads a file declared with the codec, the text that is preprocessed is the whole file as it is stored, with the declaration and what stands before it; the interpreter gets the result if that is Python and nothing if not, or if preprocessing fails, and tracebacks for the file are then (and only then) redirected to the output.", "quantifier": "all files, declarations in the first or the second line, all results of preprocessing", "why_tests_cant": "The interpreter hands the codec only what follows the declaration, and the codec puts the lines before it back by reading the file again; that nothing is lost or doubled must hold for every file.", "anchors": ["/repo/__init__.py:read_header", "/repo/__init__.py:decode_stream", "/repo/__init__.py:decoder_factory"]}
{"id": "C63", "title": "A run does not change its source", "statement": "Preprocessing a file leaves the file as it was, whether the run succeeds, fails, is interrupted or meets failing system calls: none of the files a run writes, moves or removes is the source.", "quantifier": "all file names and output directories, all results of preprocessing, all faults and crash points", "why_tests_cant": "the names and the crash points are unbounded", "anchors": ["/repo/pp/yup.py:_pp_file", "/repo/pp/yup.py:_pp_stream", "/repo/pp/yup.py:_output_fn", "/repo/pp/yup.py:shell_backup"]}
{"id": "C64", "title": "The generated title is a comment of the output's language", "statement": "($__TITLE__) leaves a comment in the language of the output file: lines that all begin with # for Python, one /* ... */ that does not end early for anything else. It tells the name of the output and of the source, and the time unless the argument is false.", "quantifier": "all names of sources and outputs, all arguments, all programs around the call, all states of the run", "why_tests_cant": "The names are put into the comment unescaped, and the language is told from a name the source can change later; a title that is not a comment breaks the generated program.", "anchors": ["/repo/pp/yugen.py:builtin", "/repo/pp/yugen.py:_title_template_c", "/repo/pp/yugen.py:_title_template_python", "/repo/pp/yugen.py:yushell"]}
{"id": "C65", "title": "The header library writes a guarded header", "statement": "A source that imports h-light and puts declarations between ($h-begin name) and ($h-end) gives exactly these declarations between the two halves of an include guard: every symbol of the guard is the name in capital letters with a fixed ending, and what the second half takes back or closes is what the first half has made or opened. A C preprocessor keeps the declarations at the first inclusion and nothing at later ones, and afterwards only the symbol of the guard is defined. ($var x), ($var-init x y) and ($inline) stand for the helpers of the header applied to these declarations, ($implement name) defines the symbol that makes the header define its variables; ($h-begin-named) and ($implement-named) take the name from the file; and ($extern-c-begin) and ($extern-c-end) enclose declarations of C for C++.", "quantifier": "all names that are not otherwise defined, all texts of declarations without strings and embedded constructs, all search paths that hold the library, all names of sources and outputs that are not Python", "why_tests_cant": "The guard is assembled by nested macros from a name that is only set during the run; a wrong name, a lost line or a shifted indentation for some name yields a header that C accepts once and breaks on the second inclusion.", "anchors": ["/repo/lib/h-light.yu", "/repo/pp/yugen.py:yueval", "/repo/pp/yugen.py:ps_macro", "/repo/pp/yugen.py:ps_import"]}
