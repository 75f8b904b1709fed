"""Writes rocq/theories/P_X.v from rocq/theories/L_PropX.v: every lemma cNN_name of L_PropX.v is
restated as theorem CNN_name, closed by `exact`, with Print Assumptions beneath; every example
cNN_..example is restated beside it.  The files written are ordinary sources and are committed."""
import re, sys, json, glob, os
root = os.path.join(os.path.dirname(os.path.abspath(__file__)), '..')
titles = {}
for l in open(os.path.join(root, 'properties.jsonl')):
    p = json.loads(l); titles[p['id']] = p['title']
for f in sorted(glob.glob(os.path.join(root, 'rocq/theories/L_Prop*.v'))):
    s = open(f).read()
    base = os.path.basename(f)[2:-2]
    name = base[4:]
    req = re.findall(r'^From [^\n]*?Require[^.]*?\.(?=\s)', s, re.M | re.S)
    head = '\n'.join(req)
    scopes = re.findall(r'^(?:Local )?Open Scope [^\n]*\.$', s, re.M)
    out = ['(** Property theorems (generated by tools/gen_props.py from L_%s.v, where the proofs are). *)' % base,
           head, 'From Verif Require Import L_%s.' % base] + scopes
    ctx = re.findall(r'^(?:Unset|Set|Generalizable|Context|Implicit)[^\n]*\.$', s, re.M)
    seen = None
    for m in re.finditer(r'^(Lemma|Example) (c(\d\d+)_\w+)(.*?)\nProof', s, re.M | re.S):
        kind, nm, num, stmt = m.groups()
        pid = 'C' + num
        if seen != pid:
            out.append('\n(** * %s: %s *)' % (pid, titles.get(pid, '?')))
            seen = pid
        big = 'C' + nm[1:]
        if kind == 'Lemma':
            out.append('Theorem %s%s\nProof. exact %s. Qed.\nPrint Assumptions %s.' % (big, stmt, nm, big))
        else:
            out.append('Example %s%s\nProof. exact %s. Qed.' % (big, stmt, nm))
    open(os.path.join(root, 'rocq/theories/P_%s.v' % name), 'w').write('\n'.join(out) + '\n')
    print(name)
