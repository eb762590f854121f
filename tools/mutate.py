"""Seeded-bug experiments.  Usage: mutate.py FILE.json...
Each file holds a list of {"def", "file", "old", "new", "edit", "breaks"}.
For each: copy rocq/ to a scratch directory, apply the edit, rebuild; every
lemma that no longer compiles is admitted (in the scratch copy only) so that
the build continues; a theorem counts as failed if its proof fails or it
depends on an admitted lemma.  A lemma whose proof only ran out of time is
recorded under "timed_out" as well, because it may still hold.
Results are appended to seeded/LOG.jsonl;
edits already logged are skipped."""
import json, os, re, shutil, subprocess, sys, time

SRC = os.environ.get('MUT_SRC', '/verif/rocq')  # a finished build of the sources
DST = os.environ.get('MUT_DST', '/tmp/mutant') + '/rocq'  # scratch copy
LOG = '/verif/seeded/LOG.jsonl'
TIMED_OUT = []
START = re.compile(r'^\s*(?:#\[[^\]]*\]\s*)?(Lemma|Theorem|Corollary|Example|Remark|Fact|Proposition|Definition|Instance)\s+([A-Za-z0-9_\']+)', re.M)


def admit(path, line):
    s = open(path).read()
    off = sum(len(l) + 1 for l in s.split('\n')[:line - 1])
    # the enclosing sentence start: last START at or before the error line
    ms = [m for m in START.finditer(s) if s.count('\n', 0, m.start(1)) + 1 <= line]
    if not ms:
        return None
    m = ms[-1]
    kind, name = m.group(1), m.group(2)
    if name.endswith('_passed'):  # a test of RepoTests.v
        s = s[:m.end()] + re.sub(r'ltac:\(.*?exact tt\)', 'tt', s[m.end():], count=1, flags=re.S)
        open(path, 'w').write(s)
        return name
    p = re.compile(r'\bProof(?:\s+using[^.]*)?\.').search(s, m.end())
    if not p:
        return None
    q = re.compile(r'\b(Qed|Defined)\.').search(s, p.end())
    if kind in ('Definition', 'Instance'):
        return None
    s = s[:p.start()] + 'Admitted.' + '\n' * s.count('\n', p.start(), q.end()) + s[q.end():]
    open(path, 'w').write(s)
    return name


def build():
    r = subprocess.run('ulimit -v 8000000; coq_makefile -f _CoqProject -o Makefile && make -j2 -k COQEXTRAFLAGS=\'-set "Default Timeout=240"\'', shell=True, cwd=DST,
                       capture_output=True, text=True, timeout=3600)
    return r.returncode, r.stdout + r.stderr


def run(mut):
    shutil.rmtree(os.path.dirname(DST), ignore_errors=True)
    shutil.copytree(SRC, DST, copy_function=shutil.copy2)
    for n in os.listdir(DST + '/theories'):  # only what depends on the edit is rebuilt
        t = 1.5e9 if n.endswith('.v') else 1.5e9 + 1
        os.utime(DST + '/theories/' + n, (t, t))
    edits = mut.get('edits') or [mut]
    for e in edits:
        p = DST + '/theories/' + (e.get('file') or mut['file'])
        s = open(p).read()
        assert s.count(e['old']) >= 1, ('edit not found', e)
        if e.get('all'):
            s = s.replace(e['old'], e['new'])
        else:
            assert s.count(e['old']) == 1, ('edit ambiguous', s.count(e['old']), e)
            s = s.replace(e['old'], e['new'])
        open(p, 'w').write(s)
    admitted = []
    TIMED_OUT.clear()
    start = time.time()
    for _ in range(120):
        code, out = build()
        if code == 0:
            break
        errs = re.findall(r'File "\./(theories/[^"]+)", line (\d+), characters [\d-]+:\nError([^\n]*\n?[^\n]*)', out)
        if not errs:
            return None, admitted, out[-3000:]
        done = set()
        for f, l, msg in errs:
            if f in done:
                continue
            done.add(f)
            n = admit(DST + '/' + f, int(l))
            if n is None:
                return None, admitted, out[-3000:]
            admitted.append(n)
            if 'Timeout' in msg:
                TIMED_OUT.append(n)
    # dependence on admitted lemmas, theorem by theorem
    if not admitted:
        return [], [], ''
    failed = []
    probe = ['From Coq Require Import List.']
    names = []
    for l in open(DST + '/_CoqProject'):
        l = l.strip()
        if l.endswith('_props.v') and os.path.getmtime(DST + '/' + l[:-2] + '.vo') > start:
            mod = os.path.basename(l)[:-2]
            probe.append('From Verif Require %s.' % mod)
            for m in START.finditer(open(DST + '/' + l).read()):
                if m.group(1) in ('Theorem', 'Example'):
                    names.append((mod, m.group(2)))
    for mod, n in names:
        probe.append('Goal True. idtac "@@%s". exact I. Qed.' % n)
        probe.append('Print Assumptions %s.%s.' % (mod, n))
    open(os.path.dirname(DST) + '/probe.v', 'w').write('\n'.join(probe))
    out = subprocess.run('coqc -Q theories Verif ' + os.path.dirname(DST) + '/probe.v', shell=True, cwd=DST, capture_output=True, text=True).stdout
    for blk in out.split('@@')[1:]:
        n = blk.split()[0]
        ass = set(re.findall(r'^([A-Za-z0-9_\'.]+)\s*:', blk, re.M))
        ass = {a.split('.')[-1] for a in ass}
        if ass & set(admitted) or n in admitted:
            failed.append(n)
    return failed, admitted, ''


seen = {(r['definition'], r['edit']) for r in map(json.loads, open(LOG))} if os.path.exists(LOG) else set()
for fn in sys.argv[1:]:
    for mut in json.load(open(fn)):
        if (mut['def'], mut['edit']) in seen:
            continue
        failed, admitted, err = run(mut)
        print('==', mut['def'], '|', mut['edit'])
        if failed is None:
            print('   DOES NOT BUILD', err)
            continue
        th = [f for f in failed if not f.endswith('_case') and '_case' not in f]
        print('   theorems:', th)
        print('   examples:', [f for f in failed if f not in th])
        print('   lemmas:', admitted, flush=True)
        rec = {'definition': mut['def'], 'file': 'rocq/theories/' + (mut.get('file') or mut['edits'][0]['file']), 'edit': mut['edit'],
               'claim_broken': mut['breaks'], 'theorems_failed': th, 'examples_failed': [f for f in failed if f not in th] + [f for f in admitted if f.endswith('_passed')],
               'theorems_tightened': mut.get('tightened', [])}
        if TIMED_OUT:
            print('   timed out:', TIMED_OUT, flush=True)
            rec['timed_out'] = list(TIMED_OUT)
        if mut.get('note'):
            rec['note'] = mut['note']
        with open(LOG, 'a') as g:
            g.write(json.dumps(rec) + '\n')
