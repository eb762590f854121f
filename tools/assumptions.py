"""Writes the last section of DESIGN.md: the axioms Print Assumptions lists for
every theorem of MANIFEST.json.  Needs a finished build in rocq/.  With --new
only theorems not yet in the section are looked at, the others are kept."""
import json, os, re, subprocess, sys
ROOT = '/verif'
want = [t for c in json.load(open(ROOT + '/MANIFEST.json'))['claims'] for t in c['theorems']]
old = {}
if '--new' in sys.argv:
    sec = open(ROOT + '/DESIGN.md').read().split('## 7. Axioms per theorem')[1]
    for head, names in re.findall(r'^\*\*(.*)\*\* \(\d+ theorems\):\n(.*)$', sec, re.M):
        for n in re.findall(r'`([^`]+)`', names):
            old[n] = tuple(re.findall(r'`([^`]+)`', head))
every, want = want, [t for t in want if t not in old]
where = {}
for l in open(ROOT + '/rocq/_CoqProject'):
    l = l.strip()
    if l.endswith('.v'):
        for m in re.finditer(r'^\s*(?:Theorem|Lemma|Corollary|Proposition|Fact|Remark)\s+([A-Za-z0-9_\']+)', open(ROOT + '/rocq/' + l).read(), re.M):
            where.setdefault(m.group(1), []).append(os.path.basename(l)[:-2])
probe = []
for m in sorted({where[t][0] for t in want}):
    probe.append('From Verif Require %s.' % m)
for t in want:
    probe.append('Goal True. idtac "@@%s". exact I. Qed.' % t)
    probe.append('Print Assumptions %s.%s.' % (where[t][0], t))
os.makedirs('/tmp/assume', exist_ok=True)
open('/tmp/assume/probe.v', 'w').write('\n'.join(probe))
out = subprocess.run('coqc -Q theories Verif /tmp/assume/probe.v', shell=True, cwd=ROOT + '/rocq', capture_output=True, text=True).stdout
found = {t: old[t] for t in every if t in old}
for blk in out.split('@@')[1:]:
    n = blk.split()[0]
    ax = tuple(sorted(set(re.findall(r'^([A-Za-z0-9_\'.]+)\s*:', blk + '\n', re.M)) | set(re.findall(r'^([A-Za-z0-9_\'.]+)\n\s+:', blk, re.M))))
    ax = tuple(a for a in ax if a != 'Axioms')
    found[n] = ax
groups = {}
for t in every:
    groups.setdefault(found[t], []).append(t)
txt = ['## 7. Axioms per theorem (generated by tools/assumptions.py from `Print Assumptions`)', '']
for ax, names in sorted(groups.items()):
    txt.append('**%s** (%d theorems):' % ('No axioms (closed under the global context)' if not ax else ', '.join('`%s`' % a for a in ax), len(names)))
    txt.append(', '.join('`%s`' % n for n in names) + '.')
    txt.append('')
s = open(ROOT + '/DESIGN.md').read()
i = s.find('## 7. Axioms per theorem')
s = (s if i < 0 else s[:i]).rstrip() + '\n\n' + '\n'.join(txt)
open(ROOT + '/DESIGN.md', 'w').write(s)
print({k: len(v) for k, v in groups.items()})
