#!/usr/bin/env python3
"""Regenerates theories/Props_*.v, _CoqProject and MANIFEST.json from the proof files.

A proof file marks a property lemma with a comment starting with `@prop Cnn`; the lemma that follows
is restated in Props_<file>.v as theorem `Cnn_<lemma>`, closed by `exact`.  A comment starting with
`@example` contains an example that is copied next to the theorem.
Extra notes and statuses come from tools/notes.json.
"""
import json, os, re, sys
ROOT = os.path.dirname(os.path.dirname(os.path.abspath(__file__)))
TH = os.path.join(ROOT, 'rocq', 'theories')
order = [l.strip() for l in open(os.path.join(ROOT, 'tools', 'order.txt')) if l.strip()]
notes = json.load(open(os.path.join(ROOT, 'tools', 'notes.json')))
claims = {}
files = []
for name in order:
    files.append(name)
    src = open(os.path.join(TH, name + '.v')).read()
    if '@prop' not in src:
        continue
    out = []
    for m in re.finditer(r'\(\*\* @prop (C\d+)\s*(.*?)\*\)\s*(?:Lemma|Theorem)\s+(\w+)\s*:(.*?)\nProof\.|\(\*\* @example\n(.*?)\n\s*@end \*\)', src, re.S):
        if m.group(5) is not None:
            out.append(m.group(5) + '\n')
            continue
        cid, text, lem, stmt = m.group(1), m.group(2).strip(), m.group(3), m.group(4)
        thm = cid + '_' + lem
        claims.setdefault(cid, []).append(thm)
        out.append('(** %s.  %s *)\nTheorem %s :%s\nProof. exact %s. Qed.\nPrint Assumptions %s.\n'
                   % (cid, text, thm, stmt, lem, thm))
    head = re.search(r'\(\* @imports (.*?) \*\)', src)
    imports = head.group(1) if head else ''
    pname = 'Props_' + name.replace('Proofs', '')
    body = '(** Property theorems proved in %s.v (generated by tools/mkprops.py). *)\nFrom Verif Require Import %s%s.\n' % (name, (imports + ' ') if imports else '', name)
    opens = re.findall(r'^(?:Open Scope|Local Open Scope) .*$', src, re.M)
    body += '\n'.join(opens) + ('\n' if opens else '') + '\n' + '\n'.join(out)
    p = os.path.join(TH, pname + '.v')
    if not os.path.exists(p) or open(p).read() != body:
        open(p, 'w').write(body)
    files.append(pname)
open(os.path.join(ROOT, 'rocq', '_CoqProject'), 'w').write(
    '-Q theories Verif\n' + ''.join('theories/%s.v\n' % f for f in files))
props = [json.loads(l)['id'] for l in open(os.path.join(ROOT, 'properties.jsonl'))]
man = []
for c in props:
    n = notes.get(c, {})
    ths = claims.get(c, [])
    if not ths:
        status = n.get('status', 'not_applicable')
        note = n.get('note', 'Not formalised yet.')
    else:
        status = n.get('status', 'partial' if any(t.endswith(('_partial', '_refuted')) for t in ths) else 'proved')
        note = n.get('note', '')
    man.append({'property': c, 'status': status, 'theorems': ths, 'note': note})
json.dump({'claims': man}, open(os.path.join(ROOT, 'MANIFEST.json'), 'w'), indent=1)
print(len([1 for m in man if m['theorems']]), 'claims with theorems;',
      sum(len(m['theorems']) for m in man), 'theorems')
