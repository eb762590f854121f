"""Generate rocq/theories/Itu_table.v from the literals in k_R_relation.py (read as text)."""
import re
src = open('/repo/pycomlink/processing/k_R_relation.py').read()

def rows(name):
    body = src[src.index(name + ' = np.array('):]
    body = body[body.index('['):]
    depth = 0
    for i, ch in enumerate(body):
        depth += (ch == '[') - (ch == ']')
        if depth == 0:
            break
    body = body[1:i]
    return [re.findall(r'[0-9.]+e[+-]?[0-9]+', r) for r in re.findall(r'\[([^\]]*)\]', body)]

def lit(t):
    m, e = t.split('e')
    ip, fp = m.split('.')
    m, e = int(ip + fp), len(fp) - int(e)
    while e > 0 and m % 10 == 0:
        m, e = m // 10, e - 1
    while e < 0:
        m, e = m * 10, e + 1
    return m, e

out = ['(** * The ITU tables, /repo/pycomlink/processing/k_R_relation.py:271-389',
       '',
       '    Generated by tools/gen_itu.py from the literals of the source.  [(m, e)]',
       '    stands for the decimal m * 10^-e.  Rows: frequency, k_H, k_V, alpha_H,',
       '    alpha_V. *)',
       'From Coq Require Import List ZArith.', 'Import ListNotations.', '']
for name, cite in (('ITU_table_2005', '271-379'), ('ITU_table_2003', '381-389')):
    rs = rows(name)
    assert len(rs) == 5 and len({len(r) for r in rs}) == 1
    for r, nm in zip(rs, ('freq', 'k_H', 'k_V', 'alpha_H', 'alpha_V')):
        out.append('(** k_R_relation.py:%s, row %s *)' % (cite, nm))
        out.append('Definition %s_%s : list (Z * nat) := [' % (name, nm))
        cells = ['(%d%%Z, %d)' % lit(t) for t in r]
        for i in range(0, len(cells), 7):
            out.append('  ' + '; '.join(cells[i:i + 7]) + (';' if i + 7 < len(cells) else ''))
        out.append('].')
    out.append('Definition %s : list (list (Z * nat)) :=' % name)
    out.append('  [%s].' % '; '.join('%s_%s' % (name, nm) for nm in ('freq', 'k_H', 'k_V', 'alpha_H', 'alpha_V')))
    out.append('')
open('/verif/rocq/theories/Itu_table.v', 'w').write('\n'.join(out))
