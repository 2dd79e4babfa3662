#!/usr/bin/env python3
"""Write the libraries of /repo/lib and the examples of /repo/eg with the outputs
that are kept beside them (all read as text) as Coq strings.

usage: eg.py REPO > Eg.v
"""
import os, sys
FILES = [('lib', x) for x in ['stdlib.yu', 'corolib.yu', 'coroutine.yu', 'coroutine-h.yu', 'coroutine-py.yu', 'hlib.yu', 'h.yu', 'h-light.yu']] + [('eg', x) for x in
    ['hello.yu-c', 'hello.c', 'unfold.yu-c', 'unfold.c', 'dict.yu-c', 'dict.c', 'argv.yu-c', 'argv.c', 'passage.yu-c', 'passage-a.c',
     'ulam.yu-c', 'ulam.c', 'gpio.yu-c', 'gpio.c', 'coro.yu-c', 'coro.c', 'dict.yu-py', 'dict.py', 'passage-b.c', 'passage-c.c',
     'glance/glance.yu-cpp', 'glance/glance.cpp', 'glance/glance.yu-py', 'glance/glance.py', 'app/app.yu', 'app/co-dict.yu', 'app/config.yu',
     'app/main.yu-c', 'app/main.c', 'app/co.yu-c', 'app/co.c']]
print("""(** * The libraries of /repo/lib and the examples of /repo/eg

    Written by tools/eg.py: each file of the list there, as text. *)
From Coq Require Import String.
Open Scope string_scope.
""")
for d, f in FILES:
    print('Definition %s : string := "%s".' % (f.split('/')[-1].replace('.', '_').replace('-', '_'), open(os.path.join(sys.argv[1], d, f), newline='').read().replace('"', '""')))
