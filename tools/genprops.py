#!/usr/bin/env python3
"""Collects the property lemmas (Lemma cNN_...) and examples (Example cNN_...) of
Proofs/*Props.v into Properties/*.v: each statement copied word for word, closed by
`exact`, with its Print Assumptions.  Also refreshes rocq/_CoqProject and MANIFEST.json
(statuses and notes come from tools/claims.json)."""
import re, os, json, sys
root = os.path.dirname(os.path.dirname(os.path.abspath(__file__)))
th = os.path.join(root, 'rocq', 'theories')
item = re.compile(r'((?:\(\*\*(?:(?!\*\)).)*?\*\)\s*\n)?)(Lemma|Example) (c\d\d_\w+)\s*:(.*?)\.\s*\nProof\b', re.S)
item2 = re.compile(r'((?:\(\*\*(?:(?!\*\)).)*?\*\)\s*\n)?)(Lemma|Example) (c\d\d_\w+)\s*:(.*?)\.\s+Proof\b', re.S)
names = {}
for f in sorted(os.listdir(os.path.join(th, 'Proofs'))):
    if not f.endswith('Props.v'): continue
    s = open(os.path.join(th, 'Proofs', f)).read()
    hdr = re.search(r'\A\(\*\*.*?\*\)\s*\n', s, re.S).group(0)
    imports = re.findall(r'^(?:From .*?\.|Import .*?\.|Open Scope .*?\.|Local Open Scope .*?\.)$', s, re.M | re.S)
    base = f[:-len('Props.v')]
    out = [hdr.rstrip(), '']
    out += imports
    out.append('From Verif.Proofs Require Import %sProps.' % base)
    out.append('')
    for m in item2.finditer(s):
        doc, kind, name, stmt = m.groups()
        if doc.startswith('(** ***'): doc = ''
        if kind == 'Lemma':
            t = 'C' + name[1:]
            out.append('%sTheorem %s :%s.\nProof. exact %s. Qed.\nPrint Assumptions %s.\n' % (doc, t, stmt, name, t))
            names.setdefault('C' + name[1:3], []).append(t)
        else:
            t = 'C' + name[1:]
            out.append('%sExample %s :%s.\nProof. exact %s. Qed.\n' % (doc, t, stmt, name))
    open(os.path.join(th, 'Properties', base + '.v'), 'w').write('\n'.join(out))
# _CoqProject
vs = []
for d in ['Math', 'Model', 'Spec', 'Proofs', 'Properties']:
    for f in sorted(os.listdir(os.path.join(th, d))):
        if f.endswith('.v'): vs.append('theories/%s/%s' % (d, f))
open(os.path.join(root, 'rocq', '_CoqProject'), 'w').write('-Q theories Verif\n' + '\n'.join(vs) + '\n')
# MANIFEST
cl = json.load(open(os.path.join(root, 'tools', 'claims.json')))
claims = []
for l in open(os.path.join(root, 'properties.jsonl')):
    i = json.loads(l)['id']
    c = cl.get(i)
    if c is None:
        if i in names: print('no entry in claims.json for', i)
        continue
    claims.append({'property': i, 'status': c['status'], 'theorems': names.get(i, []) , 'note': c['note']})
json.dump({'claims': claims}, open(os.path.join(root, 'MANIFEST.json'), 'w'), indent=1)
print({k: len(v) for k, v in names.items()})
