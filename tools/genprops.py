#!/usr/bin/env python3
"""Write Props_X.v from XFinal.v: every `Lemma NAME_pf : stmt.` of the Final file
becomes `Theorem NAME : stmt. Proof. exact NAME_pf. Qed. Print Assumptions NAME.`
together with the comment right above it.  Examples are kept in XFinal's
companion XExamples section between (*EXAMPLES*) markers and copied verbatim
after the theorem whose name they carry in a `(*@ NAME *)` tag."""
import re, sys
src, dst, imports = sys.argv[1], sys.argv[2], sys.argv[3]
s = open(src).read()
exfile = sys.argv[4] if len(sys.argv) > 4 else None
examples = {}
order = []
if exfile:
    e = open(exfile).read()
    parts = re.split(r'^\(\*@ (\w+) \*\)\n', e, flags=re.M)
    for n, body in zip(parts[1::2], parts[2::2]):
        examples.setdefault(n, []).append(body.rstrip() + "\n")
out = ["(** Generated by tools/genprops.py from %s; only statements,\n    each closed by the lemma of the same name with suffix _pf. *)" % src.split('/')[-1],
       "From Verif Require Import %s." % imports, ""]
if "Import Coq.Strings.String.StringSyntax." in s:
    out[-1:] = ["From Coq Require Strings.String.", "Import Coq.Strings.String.StringSyntax.",
                "Local Open Scope string_scope.", "Local Open Scope N_scope.", ""]
pat = re.compile(r'((?:\(\*\*(?:(?!\*\)).)*\*\)\s*)?)^Lemma (C\d+\w*)_pf :(.*?)\nProof\.', re.S | re.M)
seen = set()
for m in pat.finditer(s):
    doc, name, stmt = m.group(1).strip(), m.group(2), m.group(3)
    seen.add(name)
    if doc: out.append(doc)
    out.append("Theorem %s :%s\nProof. exact %s_pf. Qed." % (name, stmt, name))
    out.append("Print Assumptions %s.\n" % name)
    for b in examples.pop(name, []): out.append(b)
if examples:
    sys.exit("examples for unknown theorems: %s" % list(examples))
text = "\n".join(out)
import os
if not os.path.exists(dst) or open(dst).read() != text:
    open(dst, 'w').write(text)
print(dst, len(seen), "theorems")
