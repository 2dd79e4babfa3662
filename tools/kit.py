#!/usr/bin/env python3
"""Write the sources, trees and results of /repo/test_yup.py (read as text) as Coq terms.

usage: kit.py REPO > Kit.v
"""
import ast, os, sys

def s(t):
    return '(lit "%s")' % t.replace('"', '""')
def src(t): return '(raw %s)' % s(t)
def lst(xs): return '[' + '; '.join(xs) + ']'
def fn(x): return x.func.id if isinstance(x, ast.Call) else None
def const(x):
    if isinstance(x, ast.UnaryOp): return -x.operand.value
    return x.value
def atom(x): return src(const(x.args[0]))
def reg(x): return 'RLate' if fn(x) == 'LATE_BOUND' else '(RList %s)' % lst(atom(a) for a in x.elts)
def opt(x): return 'NNone' if isinstance(x, ast.Constant) and x.value is None else node(x)
def lval(x): return '(LList %s)' % lst(atom(a) for a in x.elts) if isinstance(x, ast.List) else '(LAtom %s)' % atom(x)
def node(x):
    f, a = fn(x), x.args
    if f == 'TEXT': return '(NText %s %d %d)' % (lst(node(y) for y in a[0].elts), const(a[1]), const(a[2]))
    if f == 'PLAIN': return '(NPlain %s IndNone false)' % src(const(a[0]))
    if f == 'STR': return '(NStr %s)' % src(const(a[0]))
    if f == 'REMARK': return '(NRemark %s)' % src(const(a[0]))
    if f == 'INT': return '(NInt (%d))' % const(a[0])
    if f == 'FLOAT': return '(NFloat %s)' % s(repr(const(a[0])))
    if f == 'VAR': return '(NVar %s %s)' % (reg(a[0]), atom(a[1]))
    if f == 'LIST': return '(NList %s)' % lst(node(y) for y in a[0].elts)
    if f == 'EMBED': return '(NEmbed %s)' % node(a[0])
    if f == 'APPLY':
        named = lst('(%s, %s)' % (atom(t.elts[0]), node(t.elts[1])) for t in a[2].elts)
        return '(NApply %s %s %s None 0)' % (node(a[0]), lst(node(y) for y in a[1].elts), named)
    if f == 'EVAL': return '(NEval %s None None)' % node(a[0])
    if f == 'INFIX': return '(NInfix %s None 0)' % node(a[0])
    if f == 'SET': return '(NSet %s %s)' % (lval(a[0]), node(a[1]))
    if f == 'LET': return '(NLet %s %s %s)' % (lval(a[0]), node(a[1]), node(a[2]))
    if f == 'MACRO': return '(NMacro %s %s %s)' % (atom(a[0]), lst(atom(y) for y in a[1].elts), s(const(a[2])))
    if f == 'EMIT': return '(NEmit %s %s %s)' % (reg(a[0].args[0]), atom(a[0].args[1]), opt(a[1]))
    if f == 'LAMBDA':
        if isinstance(a[0], ast.List):
            return '(NLambda %s %s)' % (lst('(%s, %s, %s)' % (lst(atom(y) for y in t.elts[0].elts), atom(t.elts[1]), opt(t.elts[2])) for t in a[0].elts), node(a[1]))
        return '(NLambdaV %s %s %s)' % (reg(a[0].args[0]), atom(a[0].args[1]), node(a[1]))
    if f == 'COND': return '(NCond %s %s %s)' % (node(a[0]), node(a[1]), opt(a[2]))
    if f == 'COMMENT': return 'NComment'
    if f == 'IMPORT_BEGIN': return 'NImportBegin'
    if f == 'IMPORT_END': return 'NImportEnd'
    raise ValueError(ast.dump(x)[:200])

tree = ast.parse(open(os.path.join(sys.argv[1], 'test_yup.py')).read())
print('''(** * The project's own test cases

    Written by tools/kit.py from /repo/test_yup.py: of every case the source, the
    tree its authors expect and, where given, the text they expect. *)
From Coq Require Import List NArith ZArith String.
From Verif Require Import PyStr Ast.
Import ListNotations.
Open Scope list_scope.
Open Scope Z_scope.
''')
for x in tree.body:
    if isinstance(x, ast.Assign) and x.targets[0].id in ('t_parse_kit', 't_eval_kit'):
        kind = x.targets[0].id[2:-4]
        for i, t in enumerate(x.value.elts, 1):
            name = '%s_%02d' % (kind, i)
            _, text, want, result = t.elts
            try: w = node(want)
            except Exception as e:
                print('(* %s: %r *)' % (name, str(e)[:80])); continue
            print('Definition %s_source : text := %s.' % (name, s(text.value)))
            print('Definition %s_tree : node :=\n  %s.' % (name, w))
            if isinstance(result, ast.Constant) and result.value:
                print('Definition %s_result : text := %s.' % (name, s(result.value)))
            print()
