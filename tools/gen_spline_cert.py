"""Generate rocq/theories/Spline_data.v: approximate second derivatives at the nodes of the
not-a-knot splines through the ITU tables.  Nothing about them is trusted: Spline_cert.v
checks the residuals."""
import sys
from fractions import Fraction as F
sys.path.insert(0, '/verif/tools')
import gen_itu


def dec(t):
    m, e = gen_itu.lit(t)
    return F(m, 10 ** e)


def solve(x, y):
    n = len(x)
    h = [x[i + 1] - x[i] for i in range(n - 1)]
    a, b, c, d = ([F(0)] * n for _ in range(4))
    for i in range(1, n - 1):
        a[i], b[i], c[i] = h[i - 1], 2 * (h[i - 1] + h[i]), h[i]
        d[i] = 6 * ((y[i + 1] - y[i]) / h[i] - (y[i] - y[i - 1]) / h[i - 1])
    r, s = h[0] / h[1], h[-1] / h[-2]
    b[1] += h[0] * (1 + r); c[1] -= h[0] * r
    b[n - 2] += h[-1] * (1 + s); a[n - 2] -= h[-1] * s
    a, b, c, d = ([float(v) for v in l] for l in (a, b, c, d))
    for i in range(2, n - 1):
        w = a[i] / b[i - 1]
        b[i] -= w * c[i - 1]
        d[i] -= w * d[i - 1]
    M = [0.0] * n
    M[n - 2] = d[n - 2] / b[n - 2]
    for i in range(n - 3, 0, -1):
        M[i] = (d[i] - c[i] * M[i + 1]) / b[i]
    M = [F(round(v * 10 ** 10), 10 ** 10) for v in M]
    M[0] = (1 + r) * M[1] - r * M[2]
    M[-1] = (1 + s) * M[-2] - s * M[-3]
    return M


out = ['(** * Certificate data for Spline_cert.v, generated by tools/gen_spline_cert.py *)',
       'From Coq Require Import List QArith.', 'Import ListNotations.', 'Local Open Scope Q_scope.', '']
for name in ('ITU_table_2005', 'ITU_table_2003'):
    rs = [[dec(t) for t in r] for r in gen_itu.rows(name)]
    for k, nm in ((1, 'k_H'), (2, 'k_V'), (3, 'alpha_H'), (4, 'alpha_V')):
        M = solve(rs[0], rs[k])
        out.append('Definition cert_%s_%s : list Q := [' % (name[-4:], nm))
        cells = ['%s # %d' % (('(%d)' if v < 0 else '%d') % v.numerator, v.denominator) for v in M]
        for i in range(0, len(cells), 6):
            out.append('  ' + '; '.join(cells[i:i + 6]) + (';' if i + 6 < len(cells) else ''))
        out.append('].')
open('/verif/rocq/theories/Spline_data.v', 'w').write('\n'.join(out) + '\n')
