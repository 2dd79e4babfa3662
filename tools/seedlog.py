#!/usr/bin/env python3
"""Append results of mutate.py to seeded/LOG.jsonl.

usage: seedlog.py OUT.jsonl [TIGHTENED.json]

TIGHTENED.json maps the id of a mutant to the theorems that were added or made
stronger because of it.
"""
import json, os, sys
here = os.path.dirname(os.path.dirname(os.path.abspath(__file__)))
tight = json.load(open(sys.argv[2])) if len(sys.argv) > 2 else {}
with open(os.path.join(here, 'seeded', 'LOG.jsonl'), 'a') as out:
    for l in open(sys.argv[1]):
        d = json.loads(l)
        if 'error' in d: continue
        out.write(json.dumps({'definition': d['definition'], 'edit': d['edit'],
                              'code': {'file': 'rocq/theories/' + d['file'], 'old': d['old'], 'new': d['new']},
                              'claim': d['claim'], 'failed': d.get('theorems', []),
                              'tightened': tight.get(d['id'], [])}) + '\n')
