#!/usr/bin/env python3
"""Repeat the statements of the L_* lemmas of a claims file in a property file.

usage: genprops.py <Claims.v> <Prop.v> "<header comment>"
"""
import re, sys

src, dst, head = sys.argv[1:4]
text = open(src).read()
mod = re.search(r'theories/(\w+)\.v$', src).group(1)
imports = re.search(r'^From Coq Require Import.*?^Open Scope \w+_scope\.', text, re.S | re.M).group(0)
imports = imports.replace('From Verif Require Import ', 'From Verif Require Import %s ' % mod, 1)
out = ['(** %s *)\n%s\n' % (head, imports)]
names = []
pat = re.compile(r'((?:^\(\*\*(?:(?!\*\)).)*\*\)\n)?)^Lemma L_(C\d+_\w+)(.*?)\nProof\.', re.S | re.M)
for m in pat.finditer(text):
    com, name, rest = m.groups()
    # split binders from the statement at the first " :" at bracket depth 0
    depth = 0
    for k, ch in enumerate(rest):
        if ch in '([{':
            depth += 1
        elif ch in ')]}':
            depth -= 1
        elif ch == ':' and depth == 0:
            break
    binders, stmt = rest[:k].strip(), rest[k + 1:].strip()
    if com.startswith('(** * '):
        com = com
    q = 'forall %s,\n  ' % binders if binders else ''
    out.append('%sTheorem %s :\n  %s%s\nProof. exact L_%s. Qed.\nPrint Assumptions %s.\n' % (com, name, q, stmt, name, name))
    names.append(name)
open(dst, 'w').write('\n'.join(out))
print(len(names), ' '.join(names))
