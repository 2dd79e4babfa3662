# Formal model of yupp in Coq 8.16.1

The model covers the preprocessor `/repo/pp/yugen.py`, the command line shell
`/repo/pp/yup.py`, the Python codec `/repo/__init__.py` and `/repo/__main__.py`,
the traceback library `/repo/pylib/yutraceback3.py` and the jump of the Sublime
plug-in in `/repo/sublime_text`.  Python 3 behaviour is modelled throughout.

Everything is in `rocq/theories`.  `properties.jsonl` lists the properties,
`MANIFEST.json` (written by `tools/manifest.py` from the property files and
`tools/status.json`) maps them to theorems, `seeded/LOG.jsonl` records what the
theorems did with deliberately wrong versions of the model.

## Approach

* Every Python function becomes a total Gallina function that mirrors it branch
  by branch and carries a comment with the lines it models.  Exceptions are
  values (`Err e`); running out of the recursion budget is a separate value
  (`Fuel`) which no theorem confuses with a result.
* A Python `str` is a `list N` of code points, so all of `splitlines`, `strip`
  and characters above U+00FF can be expressed.
* `SOURCE` strings are records (text, file, position); slicing moves the position
  exactly as `SOURCE.__getitem__` does.
* The parser uses open recursion: each `ps_*` function is its own definition that
  receives the two recursive entry points (`ps_form`, and `next` of the `ps_text`
  generator); the knot is tied by a budget.  C02 proves that the length of the
  text is always budget enough.
* Generators are explicit states with a `next` function.
* The evaluator is one step function closed over its own recursive call, tied by
  a budget; C15 proves that the budget is not observable once a result exists.
* In-place mutation of tree nodes is modelled by returning the updated node.
  Environments are stacks of frames threaded through evaluation.
* Arbitrary Python (evaluating an infix expression, imported scripts, floating
  point, the clock, `repr`) is a record of oracle functions; the theorems
  quantify over it.
* The file system is an abstract disk; a crash is any prefix of the list of
  operations.

## Files

| model | models |
|-------|--------|
| `PyStr` | the Python string methods that are used, `os.path` |
| `Ast` | the node classes, `SOURCE`, `RESULT` values |
| `Lex` | terminals and lexical functions, yugen.py 755-829 and the `ps_*` leaves |
| `Parse` | the whole parser, imports, headers, `yuparse`; yugen.py 863-2400 |
| `Final` | `reduce_emptiness`, `replace_steady`, `_ast_pretty`, `TRIM`, `RESULT`, `_bisect`, `_merge_offset` |
| `Eval` | `ENV`, `yueval` and its helpers; yugen.py 2507-2617, 2803-3750 |
| `Builtin`, `Builtin2` | the table `builtin` 2701-2785: lists, comparisons, integers, texts, title |
| `Title` | the entry `__TITLE__` 2738-2742 with the names set by `yushell` |
| `Shell` | yup.py: naming of outputs, configuration, writing with backup, exit status, passes, cache, interactive loop |
| `Codec` | the codec, its registration, incremental decoding, traceback mapping |
| `Loc` | `_loc` and the messages built on it |
| `Browse` | the plug-in: from a position in the output back to the source |
| `Pp` | one whole run: `yushell`, parse, evaluate, final text; `_pp` |

`*Spec.v` files hold the independent specifications (they do not use the model's
helpers), `*Facts*.v` the proofs, `*Cases.v` concrete instances, and
`Properties_*.v` only the theorems, each with `Print Assumptions` and an example
that meets its hypotheses.

## How the model was checked against the code

The code cannot be run here, but the repository keeps expected results.

* `Kit.v`/`KitCases.v`: all 22 cases of `/repo/test_yup.py` (8 for the parser, 14
  for parser and evaluator).  `tools/kit.py` reads the test file as text and
  writes the sources, expected trees and expected texts; the model computes the
  same trees (up to locations, as the Python equality has it) and the same texts.
* `Eg.v`/`EgCases.v`: the examples of `/repo/eg` with the libraries of `/repo/lib`
  (standard library, coroutines, headers) run through `Pp.pp`, with and without
  browse information; the output equals the generated file kept in the
  repository, character for character.  (With browsing on, blanks at the ends of
  lines stay: finding C30.)

What Python itself computes there (a few floating point values, `sys.maxsize`) is
supplied by tables in these files.

## Not modelled

* CPython's recursion limit and memory: very deep nesting fails in the code with
  `RecursionError`, in the model it succeeds.
* The tracing and logging output, the text of messages other than the location.
* Python 2 branches, `Python` scripts imported by a source (their names are an
  oracle), names they leave in `builtin` for later runs.
* Floating point and the built-in functions that exist only for it; `re-split`,
  `crc32`, `translate`.
* Aliasing: `RESULT.add_text` mutates a list that other objects may share, and
  `EMIT` on a list that another name also holds; the model copies.
* Races between two processes on the same file, and edits that keep the
  modification time (the cache compares times only).

## Plan per property

| id | model | specification and proof |
|----|-------|-------------------------|
| C01 | Parse, Eval, Pp | tree spells the text (generator invariant), then a whole run |
| C02 | Parse | every step consumes; induction on the length |
| C03 | Parse | invariant: every located leaf is a slice of its file |
| C04 | Lex | longest prefix |
| C05 | Lex | independent numeral grammar with its value |
| C06-C08 | Parse | depth of parentheses over balanced bodies |
| C09, C47 | Parse, Pp | first terminator; documents of code, comments, literals (`ProtectSpec`) |
| C10 | Parse | a relation between expressions and the texts in which they can be written (`ExprSpec.spelled`, `DocSpec`), joint induction on expressions and the texts inside them |
| C11 | Parse | list induction |
| C12 | Parse | set of imported names grows; a cycle of quoted imports never ends |
| C13 | Eval | finite map with scopes |
| C14, C15 | Eval | induction on the budget |
| C16-C21, C25 | Eval | equations for each kind of application, list induction; for arbitrary bodies (`CoreSpec`) a meaning relation and a residual relation that every partial binding preserves; late-bound parameters (`LateSpec`): the residual of the argument keeps its late names free, and every call fills them |
| C22 | Parse, Eval | complete trees: brackets of imports are balanced in every file |
| C23, C24 | Eval | simultaneous substitution; counter-examples otherwise |
| C51 | Eval | equations for SET, LET, MACRO and the rest of a block |
| C52 | Parse, Eval, Builtin, Final, Pp | a relation between written source and its text (`RunSpec`: values behind definitions, pages); induction over it, with reading back (C10), functions with arbitrary bodies (C16) and the rest of a block (C51) |
| C57 | Parse, Eval, Pp | `SheetSpec.sheet`: contents of a source with imports, indexed by the files known before and after; induction over the depth of imports and over the text; then the pages of C52, which pass over the marks of imports |
| C58 | Pp | `ConfSpec`: the file and the directory of a path, Python file names and the option for comments as inductive relations; `os.path` functions shown to compute them; then the settings of a run and C09 with them |
| C59 | Parse, Eval, Builtin, Pp | functions that decide (`RunSpec.ECases`) are entries of their own in the meaning of pages (C52); induction over the number; the endless case: every amount of steps runs out, by induction over it |
| C60 | Eval, Builtin | meaning of calls by substitution of values (`UseSpec.umeans`) over functions in force (`UseSpec.in_force`); the half evaluated forms of a body are described by a relation (`UseFacts.ires`) that every evaluation step keeps, by induction over the expression with all calls unfolded; refutations by whole runs; joined with the meaning of pages (C52) by an entry of its own (`RunSpec.EChain`), so whole runs of such sources follow |
| C61 | Parse, Eval, Builtin, Pp, Eg | the text of lib/stdlib.yu is parsed by computation, with everything else abstract, and its 64 pieces are evaluated one by one (`StdFacts`) to an environment that holds `StdSpec.library_defs`; what follows has the meaning of C52 and C57 behind these definitions; then the functions of the library by the rules of that meaning, for all arguments |
| C53 | Parse (`unq`), Builtin2 (`q`, `qs`) | a relation between a literal and the text it denotes (`QuoteSpec`), induction over it; the quotation is inverted character by character |
| C54 | Pp (`run_ectx`), Eval | `NameSpec.configured`: what a list of -D options defines; one theorem per source of meaning |
| C55 | Builtin, Eval | `NameSpec.folds`: a left fold as a relation |
| C56 | Lex (`py_string_len`), Parse, Pp | `ProtectSpec.python_literal`: a grammar of literals; induction over it shows the reader stops at its end |
| C26, C49, C50 | Builtin, Builtin2 | lists and texts as mathematical objects |
| C27, C28 | Final | text as list of lines |
| C29-C31 | Final, Browse | annotated characters, alignment relation; for whole runs (`FlatSpec`) a simulation of the evaluator that erases the tables |
| C32 | Final | subsequence |
| C33 | Shell | case analysis on names |
| C34, C35, C46 | Shell | every prefix of the operations, with faults |
| C36, C37, C45 | Shell, Run | list induction; chain of passes, joined with whole runs of a written source (see C52): one pass per element of the passage list, in pass k the name stands for element k |
| C38 | Shell | invariant over histories of edits and runs |
| C39 | Shell | independence of the previous settings |
| C40-C42 | Codec | case analysis, chunk induction, arithmetic |
| C43, C44 | Parse, Loc | header grammar; lines and columns; the places of a macro text as an inductive relation (`LocSpec.places`), induction over it |
| C62 | Codec | `CodecSpec.declared`: where the declaration stands; the lines put back are the lines the interpreter has taken |
| C63 | Shell | the last dot of a name decides its extension; case analysis shows that no name written is that of the source; then the runs with faults of C34 |
| C64 | Title | `TitleSpec`: what a comment is; the template has its marks at the ends and the names have none |
| C65 | Guard | `GuardSpec`: the text of h-light.yu as a template with marks for the name; the calls are read and evaluated by the rules of C57 and C61, then the whole run by C57; `CppSpec`: lines, conditions and definitions of a C preprocessor, run over the header with the name left open; `CppSpec2`: what the macros of the header are defined as |
| C48 | Parse | first matching alternative |

Where the statement is false of the code, the counter-example is a theorem with
the suffix `_refuted` and the part that holds is proved beside it; where only a
part is proved the name ends in `_partial`.  `MANIFEST.json` says for every
property what is missing.

## Trusted base

* Coq's kernel (8.16.1), and `vm_compute` for the concrete cases.
* `Print Assumptions` under every property theorem prints "Closed under the global
  context": no axioms, neither ours nor the library's, are used.  (`coqchk -o`
  lists the three constants of `Coq.ssr.ssrunder.Under_rel`, which come in with the
  library files that are loaded; no theorem depends on them.)
* That the model says what the Python code does.  Each definition cites its
  lines, simplifications are stated there, and the two sets of conformance runs
  above compare the model with recorded behaviour.
* What is listed under "Not modelled", and the oracles: the theorems hold for
  every oracle, but say nothing about what Python computes there.

## Findings

The refuted statements, each with a proved counter-example:

| theorem | behaviour |
|---------|-----------|
| `C03_numeral_file_refuted` | a library named by a number clashes with the key of an evaluated import |
| `C05_all_accepted_literals_refuted` | three literal shapes are accepted by the pattern and then rejected by `int` |
| `C10_default_lambda_argument_refuted` | a lambda with a default cannot be a positional argument |
| `C12_quoted_import_refuted` | quoted imports are not guarded, a cycle never ends |
| `C16_default_of_the_rest_refuted` | a default for the rest parameter is never used |
| `C16_capture_refuted` | an argument that is a parameter of the caller is captured by a later parameter of the same name |
| `C16_nested_conditional_refuted` | a function called by another function loses its parameter in a conditional inside a conditional: the name is printed instead of the value |
| `C51_redefinition_refuted` | a definition that uses the value its name had before never yields a text |
| `C20_unchosen_branch_refuted` | inside a function the branch not chosen may be evaluated, depending on the order of the parameters |
| `C19_nothing_beyond_either_end_refuted` | a subscript below minus the length is an error, above the end it is nothing |
| `C23_substituted_once_refuted`, `C24_simultaneous_refuted` | replaced text is searched again |
| `C26_unique_refuted` | `unique` remembers the elements of earlier calls |
| `C29_other_breaks_refuted` | other line breaks (FF, VT, NEL...) are turned into line feeds |
| `C30_*_refuted` | browse mode changes the text: empty lines, mixed indentation, blanks at line ends, `repr` of a text |
| `C31_first_piece_refuted` | the jump from the first located piece misses |
| `C33_distinct_outputs_refuted` | two inputs may share one output |
| `C35_ast_output_refuted` | an output named `*.ast` is overwritten by the dump of a failed run |
| `C36_*_refuted` | the exit status wraps at 64 failures; the console script always returns 0 |
| `C38_*_refuted` | undeclared libraries and a crash leave a stale cached output |
| `C39_*_refuted` | constants persist into the next file; `output_dir` is dropped |
| `C40_dotted_name_refuted` | `yupp.<encoding>` raises `AttributeError` |
| `C41_empty_input_refuted` | incremental decoding of nothing does not preprocess |
| `C42_other_files_refuted` | ordinary files are shown one line off |
| `C43_*_refuted` | header-only sources, capitals, and an empty first line |
| `C44_empty_line_refuted` | positions on empty lines are reported on the next line |
| `C62_equals_sign_refuted`, `C62_second_line_doubled_refuted` | `# coding=yupp` in the first line: the second line is processed twice |
| `C63_source_is_kept_refuted` | a source that sets `__OUTPUT_FILE__` to its own name is replaced by its output |
| `C64_title_is_a_comment_refuted`, `C64_title_ends_early_refuted` | the title keeps the language the run was started with when the source names another output; a `*/` in that name ends it |
| `C46_reported_success_refuted` | an I/O error while writing still counts as success |
| `C53_quotation_marks_refuted` | `q` of a text with a quotation mark yields no string literal |
| `C56_continued_literal_refuted`, `C56_continued_literal_fails_refuted` | a continued literal in double quotes with an apostrophe in its first line ends at the next apostrophe, or the run fails |
| `C48_keyword_prefix_refuted` | `($setup 1)` binds `up` |

Observed by reading, not stated as theorems: a comment at the start of a line
deletes the spacing behind it; U+00FE and U+00FF in the input come out as blank
and tab; a text ending right after a construct inside an unclosed block raises
`UnboundLocalError`; text generated by an evaluated import is not bracketed, so a
`skip` in it ends the importer (`C22_generated_case`).
