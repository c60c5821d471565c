#!/usr/bin/env python3
"""Write Math/Prime_<name>.v: primality certificates for the primes in tools/primes.json.
primes.json maps a name to {n: {"f": {q: e}}}: known prime factors of n-1 (Pocklington), or
{n: {"ec": [a, b, x, y, q]}}: a point of prime order q on y^2 = x^3 + a x + b modulo n, recursively."""
import json, os, itertools, sys
from math import gcd, isqrt
here = os.path.dirname(os.path.abspath(__file__))
out = os.path.join(here, '..', 'rocq', 'theories', 'Math')
data = json.load(open(os.path.join(here, 'primes.json')))

def run(name, tab):
    ec = {int(n): [int(z) for z in v['ec']] for n, v in tab.items() if 'ec' in v}
    tab = {int(n): {int(q): e for q, e in v['f'].items()} for n, v in tab.items() if 'f' in v}
    memo = {}
    def cost(n):
        if n < 10**6: return 1, None
        if n in memo: return memo[n]
        if n in ec: return 12 * n.bit_length() * (n.bit_length() // 30 + 1) ** 2 + cost(ec[n][4])[0], None
        fs = [(q, e) for q, e in tab[n].items()]
        L = (n.bit_length() // 30 + 1) ** 2
        def cst(sub):
            F = 1
            for q, e in sub: F *= q**e
            if F * F <= n: return None
            return (n.bit_length() + F.bit_length() * len(sub)) * L + sum(cost(q)[0] for q, _ in sub)
        best = None
        if len(fs) <= 11:
            subs = (s for k in range(1, len(fs) + 1) for s in itertools.combinations(fs, k))
        else:
            g = sorted(fs, key=lambda t: (n.bit_length() * L / 2 + cost(t[0])[0]) / (t[0]**t[1]).bit_length())
            subs = [g[:k] for k in range(1, len(g) + 1)]
        for s in subs:
            c = cst(s)
            if c is not None and (best is None or c < best[0]): best = (c, list(s))
        # drop what is not needed
        s = sorted(best[1])
        for t in list(s):
            s2 = [u for u in s if u != t]
            if s2 and cst(s2) is not None: s = s2
        memo[n] = (cst(s), s)
        return memo[n]
    top = max(list(tab) + list(ec)); cost(top)
    lines, done = [], {}
    def emit(n):
        if n in done: return done[n]
        if n < 10**6:
            nm = 'q_%d' % n
            lines.append('Lemma %s : prime %d.\nProof. apply (trial_prime %d %d). vm_compute. reflexivity. Qed.' % (nm, n, n, isqrt(n) - 1))
        elif n in ec:
            a, b, x, y, q = ec[n]; sub = emit(q); assert (q - 3) ** 2 > 4 * n
            nm = 'prime_' + name if n == top else 'r_%d' % len(done)
            lines.append('Lemma %s : prime %d.\nProof.\n  apply (ec_prime %d %d %d %d %d %d 10 16).\n  - vm_cast_no_check (eq_refl true).\n  - exact %s.\nQed.' % (
                nm, n, n, a, b, x, y, q, sub))
        else:
            s = sorted(memo[n][1]); subs = [(q, e, emit(q)) for q, e in s]
            F = 1
            for q, e in s: F *= q**e
            assert F * F >= n and (n - 1) % F == 0
            a = 2
            while True:
                b = pow(a, (n - 1) // F, n)
                if pow(b, F, n) != 1: raise Exception('composite %d' % n)
                if all(gcd(pow(b, F // q, n) - 1, n) == 1 for q, _ in s): break
                a += 1
            nm = 'prime_' + name if n == top else 'r_%d' % len(done)
            lines.append('Lemma %s : prime %d.\nProof.\n  apply (pock_prime %d %d %d [%s]).\n  - vm_cast_no_check (eq_refl true).\n  - in_list; [%s].\nQed.' % (
                nm, n, n, F, a, '; '.join('(%d, %d%%positive)' % (q, e) for q, e in s), '|'.join('exact ' + m for _, _, m in subs)))
        done[n] = nm
        return nm
    emit(top)
    with open(os.path.join(out, 'Prime_%s.v' % name), 'w') as f:
        f.write('(** Generated by tools/genprimes.py: a primality certificate. *)\nFrom Coq Require Import ZArith Znumtheory List.\nFrom Verif.Math Require Import Pock.\n%sImport ListNotations.\nOpen Scope Z_scope.\n\n' % ('From Verif.Proofs Require Import ECPrime.\n' if ec else ''))
        f.write('\n'.join(lines) + '\n')
for name, tab in data.items(): run(name, tab)
