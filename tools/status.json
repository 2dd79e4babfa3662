{
 "C05": [
  "proved",
  "Every well-formed decimal, hexadecimal, octal, binary literal; three texts the pattern accepts but int() rejects are a finding."
 ],
 "C06": [
  "proved",
  "Extent of the comment, and that evaluating it adds nothing; a comment at the start of a line also takes the white space after it (stated exactly)."
 ],
 "C35": [
  "partial",
  "False in general (finding): an output named *.ast is overwritten by the dump. Proved for every other output name."
 ],
 "C36": [
  "partial",
  "False in general (findings): the status is 4 * failures mod 256, and the console script always returns 0. Proved for fewer than 64 files and exactly characterised otherwise."
 ],
 "C37": [
  "proved",
  "The loop for every preprocessing function; joined with the run for every written source (see C52) whose passage list stands at its front or anywhere in its text. A process state may differ from pass to pass."
 ],
 "C38": [
  "partial",
  "Proved for histories of edits and completed runs when the output is determined by the source and the declared dependencies; false (findings) for undeclared libraries and after a crash."
 ],
 "C39": [
  "partial",
  "Proved for the 14 settings; false (findings) for defined constants, which persist, and for output_dir, which is dropped."
 ],
 "C40": [
  "partial",
  "False for yupp.<encoding> (finding): the lookup raises AttributeError. Proved for the other names."
 ],
 "C41": [
  "partial",
  "Proved for non-empty input; for empty input incremental decoding never calls the preprocessor (finding)."
 ],
 "C42": [
  "partial",
  "Exact formula for preprocessed files; other files are shown one line too low (finding)."
 ],
 "C44": [
  "partial",
  "Line numbers proved for positions on non-empty lines of texts with LF line ends; false on empty lines (finding). Places of macro calls under the same condition on the lines."
 ],
 "C46": [
  "partial",
  "False (finding): an I/O error while writing is logged and the run still counts as successful."
 ],
 "C19": [
  "partial",
  "Proved for every index from minus the length upwards; below that the code raises IndexError instead of yielding nothing (finding, proved)."
 ],
 "C16": [
  "partial",
  "Proved for bodies built from constants, parameters, names defined outside as data, lists, conditionals, calls of built-in functions, subscripts, infix expressions and texts, with data arguments (named, positional, default, rest, partial application); and for an expression given to a late-bound parameter that the function calls once for every row of a list of values. False in general: an argument that mentions a parameter of the caller is captured by a later parameter of the same name, a function called by a function loses its parameter in nested conditionals, and the default of the rest parameter is never used (findings, proved)."
 ],
 "C17": [
  "proved",
  "With browsing off; with and without indentation, and also for texts with arbitrary core expressions in them."
 ],
 "C29": [
  "partial",
  "Proved for every text whose line breaks are line feeds and every indentation; false for the other characters Python takes for line breaks (finding, proved)."
 ],
 "C30": [
  "partial",
  "Whole runs of every source agree when indentation and reduction are off and no Python function looks at the browse tables (all modelled built-in functions do not: proved; repr does: refuted). Indentation and reduction agree for full lines with even indentation and for tidy lines; false otherwise (three findings, proved)."
 ],
 "C31": [
  "partial",
  "Offsets proved for every sequence of pieces, concatenation, indentation and reduction and for the text of every evaluated tree; the editor's jump is exact except from the first located piece (finding, proved)."
 ],
 "C23": [
  "partial",
  "Proved when template and argument texts contain nothing that could start another place; otherwise an argument that looks like a place is substituted again (finding, proved). For every template and all argument texts the result is proved to be the replacement of one argument after the other."
 ],
 "C24": [
  "partial",
  "Proved for positional and named arguments, one per parameter, whose texts contain nothing that could start another place; otherwise replacement is not simultaneous (finding, proved). For all argument texts the result is proved to be the replacement of one parameter after the other."
 ],
 "C26": [
  "partial",
  "car, cdr, reversed, len, index, rindex, range, count, getslice (range with one, two and three arguments) proved for all lists; unique remembers elements of earlier calls in the same process (finding, proved)."
 ],
 "C02": [
  "proved",
  "For every text without imports the parse ends in a tree or an exception at any nesting; CPython recursion limit not modelled. With imports by name see C12."
 ],
 "C03": [
  "proved",
  "Holds when no library file has a number as its name; C03_numeral_file_refuted shows the clash with evaluated imports. Pieces without location (C string literals lose theirs) carry no claim."
 ],
 "C12": [
  "proved",
  "By-name imports. C12_quoted_import_refuted: a quoted import has no guard and a cycle of them never ends."
 ],
 "C01": [
  "proved",
  "The tree spells the text, and a whole run returns it with its line ends unified, with and without browse mode; the two marker characters U+00FE and U+00FF are excluded because the final pass turns them into blanks (C28)."
 ],
 "C43": [
  "partial",
  "The tree behind the header for every source; whole runs for sources without constructs and for every source C52 gives a meaning. False (findings) for a source of nothing but the comment, for capitals in yupp, and an empty first line is dropped too."
 ],
 "C09": [
  "proved",
  "Every comment at every position of the parser, and whole runs on texts whose constructs are all in comments or literals; an unclosed /* fails."
 ],
 "C48": [
  "partial",
  "False in general (finding): keywords are matched as prefixes, ($setup 1) binds the name up. Proved for every name that begins with no keyword."
 ],
 "C10": [
  "proved",
  "For every expression of the grammar in every writing: any white space between its parts, numerals in any base with sign and suffix, positional and named arguments mixed, closing tags, both quotation forms, Python strings, texts in square brackets, braces, block lines, behind two commas (closed by two semicolons, two commas or the end of the surrounding construct) and in ($code ...) and (${} ...), nested to any depth. One writing of every expression is exhibited. A lambda whose first parameter has a default cannot be a positional argument (finding), so it is excluded there. Whole sources made of text, literals, comments, quotations and written constructs are covered as well. Not in the grammar: imports (see C57), numbers with a fraction."
 ],
 "C49": [
  "proved",
  "For the forms modelled in Builtin2.v (no bounds for find; rsplit is not modelled); case changes for ASCII letters, other letters are a simplification of the model."
 ],
 "C50": [
  "proved",
  "Integer arguments; floating point is not modelled. zfill of a number uses repr (INT(7)) and is excluded."
 ],
 "C20": [
  "partial",
  "Proved for a conditional evaluated where its condition is known. False inside a function when a parameter declared before those of the condition is bound first: then both branches are evaluated (finding, proved)."
 ],
 "C51": [
  "partial",
  "Proved except for the last sentence, which is false: a name is already bound, without a value, while its definition is evaluated, so a definition that uses the previous value never yields a text (finding, proved)."
 ],
 "C52": [
  "proved",
  "Imports are covered by C57. Emit and late bound parameters are outside the grammar of the statement. Functions whose bodies apply functions defined before are inside it, unless a parameter has the name of one of a function that is being applied or a conditional stands in a branch of another (both false there: C60)."
 ],
 "C57": [
  "proved",
  "Scripts (files ending in .py), imports of evaluated text and imports of files from Python outputs are outside the grammar of the statement, and so is what C52 leaves out."
 ],
 "C53": [
  "partial",
  "False in general (finding): q and qs do not escape the quote itself, so a text with a quotation mark gives no literal. Proved for every text without the quote; unq and strlen for every literal (\\N{name} escapes excepted, which need the Unicode name table)."
 ],
 "C54": [
  "proved",
  "Each source of meaning in the order of precedence; the constants for every list of -D options."
 ],
 "C55": [
  "proved",
  "reduce for built-in functions (user functions are not accepted as its first argument)."
 ],
 "C56": [
  "partial",
  "Every literal at every position of the parser, and whole runs on texts whose constructs are all in literals or comments; literals are part of the sources of C10, C43 and C52. Refuted for a continued literal in double quotes with an apostrophe in its first line."
 ],
 "C59": [
  "partial",
  "As stated (wherever it is called) the property is false: C59_from_another_function_refuted shows that calling such a function in the body of another function that does not decide first never ends, since the body is evaluated when the function is defined, with the condition still open. Proved for calls in the text and in chosen branches, for functions of one parameter."
 ],
 "C60": [
  "partial",
  "As stated the property is false: C60_capture_refuted (a parameter of the caller with the name of a parameter of the called function) and C60_nested_conditional_refuted (a conditional in a branch of a conditional of a called function). Proved for functions without these two, called with as many arguments as they have parameters; definitions of such functions succeed and count."
 ],
 "C61": [
  "partial",
  "For runs without scripts, -D and browsing, not writing Python, where Python knows the three expressions of the library. As stated the property is false of def, undef and def-if: the argument is evaluated first, so a name that already has a value is replaced by it and the run fails (C61_undef_behind_def_refuted; a quoted name works), and a condition that is not defined counts as true (C61_undefined_is_false_refuted). Proved where the argument stands for the name. Nothing is said about what unfold, BB and def-fn-argv stand for; the macros dict, skip-if and skip-if-not are part of the definitions (their texts), without theorems of their own."
 ],
 "C62": [
  "partial",
  "Proved when the declaration is in the first line with \"coding:\" in it, or in the second line and the first has no \"coding:\"; the interpreter is assumed to pass what follows the line of the declaration. A declaration coding=yupp in the first line is not seen by the codec, so the second line is processed twice (finding)."
 ],
 "C63": [
  "partial",
  "Holds unless the source sets __OUTPUT_FILE__ itself; then false: a source naming itself is replaced by its output and survives as the backup only (finding)."
 ],
 "C64": [
  "partial",
  "Proved for names (of tool, version, source, output) on one line without a slash. False in general: the language is that of the output the run was started with, not of the name the source sets; and a name set with the end of a comment in it ends the title early (findings)."
 ],
 "C65": [
  "proved",
  "With trimming of indents on (the default); with the reduction of empty lines on, for declarations it leaves alone. What a C preprocessor keeps at the first and at later inclusions is proved over CppSpec, for declarations without directives of their own, and what the helpers of the header stand for, with and without implement, over CppSpec2; expressions after #if are a parameter. h-begin-named and implement-named for files whose name, in capital letters with _ for -, is an identifier without a meaning of its own."
 ]
}