#!/usr/bin/env python3
"""Writes /verif/AXIOMS.md: what Print Assumptions lists for every theorem of MANIFEST.json
and every Example of the Prop*.v files.  Needs the compiled files in rocq/theories."""
import json, re, subprocess, glob, os, tempfile
T = '/verif/rocq/theories'
where = {}
for f in sorted(glob.glob(T + '/Prop*.v')):
    for m in re.finditer(r'^\s*(Theorem|Example)\s+(C\d\d_\w+)', open(f).read(), re.M):
        where[m.group(2)] = (os.path.basename(f)[:-2], m.group(1))
names = sorted(where)
d = tempfile.mkdtemp()
src = ''.join('From Verif Require %s.\n' % m for m in sorted({w[0] for w in where.values()}))
for n in names:
    src += 'Goal True. idtac "@@ %s". Abort.\nPrint Assumptions %s.%s.\n' % (n, where[n][0], n)
open(d + '/a.v', 'w').write(src)
out = subprocess.run(['coqc', '-Q', T, 'Verif', d + '/a.v'], capture_output=True, text=True)
assert out.returncode == 0, out.stderr[:2000]
res = {}
for part in out.stdout.split('@@ ')[1:]:
    n, body = part.split('\n', 1)
    res[n.strip()] = tuple(sorted(set(re.findall(r'^([A-Z]\w*(?:\.\w+)+)\s*(?::|$)', body, re.M))))
by = {}
for n in names:
    by.setdefault(res[n], []).append(n)
o = ['# Axioms', '', 'Output of `Print Assumptions`, grouped by the set of axioms listed (generated by tools/gen_axioms.py).',
     'All are axioms of the Coq standard library.', '']
for ax in sorted(by, key=lambda a: (len(a), a)):
    o.append('## ' + (', '.join('`%s`' % a for a in ax) if ax else 'none (closed under the global context)'))
    o.append('')
    for n in by[ax]:
        o.append('* %s%s (%s.v)' % (n, ' (example)' if where[n][1] == 'Example' else '', where[n][0]))
    o.append('')
open('/verif/AXIOMS.md', 'w').write('\n'.join(o))
for ax in by: print(len(by[ax]), ax)
