#!/usr/bin/env python3
"""Write Proofs/Cert_Order.v: the computations behind the number of points of the shipped curves."""
import os, json
here = os.path.dirname(os.path.abspath(__file__))
d = json.load(open(os.path.join(here, 'order.json')))
p255 = 2**255 - 19; p448 = 2**448 - 2**224 - 1
pb = 0x1a0111ea397fe69a4b1ba7b6434bacd764774b84f38512bf6730d2a0f6b0f6241eabfffeb153ffffb9feffffffffaaab
a11 = 0x144698a3b8e9433d693a02c96d4982b0ea985383ee66a8d8e8981aefd881ac98936f8da0e0f97f5cf428082d584c1d
b11 = 0x12e2908d11688030018b12e8753eee3b2016c1f0f24f4070a0b9c14fcef35ef55a23215a316ceaa5d1cc48e98e172be0
w = d['w']
o = ['''(** Generated by tools/genorder.py: computations behind the number of points of the shipped curves. *)
From Coq Require Import ZArith Bool List.
From Verif.Spec Require Import Isogeny.
From Verif.Proofs Require Import InstP OrderP OrderTo IsogP.
Import ListNotations.
Open Scope Z_scope.
''']
n_ = lambda v: str(v) if v >= 0 else '(%d)' % v
def lem(name, stmt): o.append('Lemma %s : %s = true.\nProof. vm_cast_no_check (eq_refl true). Qed.' % (name, stmt))
def defn(name, v, ty='Z'): o.append('Definition %s : %s := %s.' % (name, ty, v))
def chain_m(p, a, T):
    x, y = T; l = []
    while (x, y) != (0, 0):
        s = (3*x*x + 2*a*x + 1) * pow(2*y, -1, p) % p
        X = (s*s - a - 2*x) % p; Y = (s*(x - X) - y) % p
        l.append((s, X, Y)); x, y = X, Y
    return '[' + '; '.join('(%d, %d, %d)' % t for t in l) + ']'
def chain_e(p, a, dd, T):
    x, y = T; l = []
    while (x, y) != (0, p - 1):
        e = dd*x*x*y*y
        x, y = 2*x*y*pow(1 + e, -1, p) % p, (y*y - a*x*x)*pow(1 - e, -1, p) % p
        l.append((x, y))
    return '[' + '; '.join('(%d, %d)' % t for t in l) + ']'
M = [('CURVE25519', p255, 486662, (325606250916557431795983626356110631294008115727848805560023387167927233504, 32026303591712962751241307547882981359278212717910236697706316503764922500307)),
     ('CURVE448', p448, 156326, (p448 - 1, 197888467295464439538354009753858038256835152591059802148199779196087404232002515713604263127793030747855424464185691766453844835192428))]
for n, p, a, T in M:
    defn('x_' + n, T[0]); defn('y_' + n, T[1]); defn('l_' + n, chain_m(p, a, T), 'list (Z * Z * Z)')
    lem('double_' + n, 'mdch %d %d x_%s y_%s l_%s' % (p, a, n, n, n))
    lem('nonsq_x_' + n, 'nonsq_check %d x_%s 8' % (p, n))
    lem('nonsq_a_' + n, 'nonsq_check %d (%d * %d - 4) 8' % (p, a, a))
E = [('EDWARDS25519', p255, -1, 37095705934669439343138083508754565189542113879843219016388785533085940283555, (43496726750457979451437558183816721346016168361625936758514574428539776020131, 55188659117513257062467267217118295137698188065244968500265048394206261417927)),
     ('EDWARDS448', p448, 1, -39081, (1, 0))]
for n, p, a, dd, T in E:
    defn('x_' + n, T[0]); defn('y_' + n, T[1]); defn('l_' + n, chain_e(p, a, dd, T), 'list (Z * Z)')
    lem('double_' + n, 'edch %d %s %s x_%s y_%s l_%s' % (p, n_(a), n_(dd), n, n, n))
    lem('nonsq_y_' + n, 'nonsq_check %d ((1 - y_%s * y_%s) * (%s - %s)) 8' % (p, n, n, n_(a), n_(dd)))
defn('w_bls', w)
def wc(name, a, b, P, q): lem(name, 'wcheck %d %d %d %s %s %d 8 16' % (pb, a, b, P[0], P[1], q))
def wt(name, a, b, P, k, X, Y): lem(name, 'wto_check %d %d %d %s %s %d %s %s 8 16' % (pb, a, b, P[0], P[1], k, X, Y))
wc('bls_3', 0, 4, ('0', '2'), 3)
for q in ('11', '10177', '859267', '52437899'):
    n = 1 if len(d[q]) == 1 else 2
    for i in range(n):
        c = 'AB'[i]; P = d[q][i]
        defn('x%s_%s' % (c, q), P[0]); defn('y%s_%s' % (c, q), P[1])
        wc('bls_%s_%s' % (q, c), 0, 4, ('x%s_%s' % (c, q), 'y%s_%s' % (c, q)), int(q))
    if n == 2:
        for i in range(2):
            c = 'AB'[i]
            wt('bls_%s_%s_rot' % (q, c), 0, 4, ('x%s_%s' % (c, q), 'y%s_%s' % (c, q)), d[q][2 + i], '(w_bls * x%s_%s)' % (c, q), 'y%s_%s' % (c, q))
# the 11-isogenous curve
for nm, P in (('T3', d['T3']), ('T121', d['T121'][0]), ('T11', d['T121'][1])):
    defn('x_' + nm, P[0]); defn('y_' + nm, P[1])
wc('iso_3', a11, b11, ('x_T3', 'y_T3'), 3)
wc('iso_121', a11, b11, ('x_T121', 'y_T121'), 121)
wt('iso_11', a11, b11, ('x_T121', 'y_T121'), 11, 'x_T11', 'y_T11')
for q in ('10177', '859267', '52437899'):
    for i in range(2):
        c = 'AB'[i]; P = d['pre' + q][i]; I = d['inv' + q][i]; Q = d['img' + q][i]
        defn('x%s1_%s' % (c, q), P[0]); defn('y%s1_%s' % (c, q), P[1])
        wc('iso_%s_%s' % (q, c), a11, b11, ('x%s1_%s' % (c, q), 'y%s1_%s' % (c, q)), int(q))
        if q == '52437899' and i == 1:
            defn('xB_52437899', Q[0]); X, Y = 'xB_52437899', 'yA_52437899'
        else: X, Y = 'x%s_%s' % (c, q), 'y%s_%s' % (c, q)
        lem('img_%s_%s' % (q, c), 'image_check %d 14 iso11_bls12381g1 x%s1_%s y%s1_%s %s %s %d %d' % (pb, c, q, c, q, X, Y, I[0], I[1]))
open(os.path.join(here, '..', 'rocq', 'theories', 'Proofs', 'Cert_Order.v'), 'w').write('\n'.join(o) + '\n')
