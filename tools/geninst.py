#!/usr/bin/env python3
"""Write Proofs/Inst_<name>.v: the computations about the shipped curves."""
import os
here = os.path.dirname(os.path.abspath(__file__))
out = os.path.join(here, '..', 'rocq', 'theories', 'Proofs')

def trim(a):
    while a and a[-1] == 0: a = a[:-1]
    return a
def mul(a, b, p):
    r = [0] * (len(a) + len(b) - 1) if a and b else []
    for i, x in enumerate(a):
        for j, y in enumerate(b): r[i + j] = (r[i + j] + x * y) % p
    return trim(r)
def divmod_(a, b, p):
    a = a[:]; q = [0] * max(0, len(a) - len(b) + 1); iv = pow(b[-1], -1, p)
    for i in range(len(a) - len(b), -1, -1):
        c = a[i + len(b) - 1] * iv % p; q[i] = c
        for j, y in enumerate(b): a[i + j] = (a[i + j] - c * y) % p
    return trim(q), trim(a)
def sub(a, b, p):
    n = max(len(a), len(b)); a = a + [0] * (n - len(a)); b = b + [0] * (n - len(b))
    return trim([(x - y) % p for x, y in zip(a, b)])
def powx(f, p):
    r = [1]
    for c in bin(p)[2:]:
        r = divmod_(mul(r, r, p), f, p)[1]
        if c == '1': r = divmod_([0] + r, f, p)[1]
    return r
def inv(g, f, p):
    r0, r1, s0, s1 = f, g, [], [1]
    while r1:
        q, r = divmod_(r0, r1, p)
        r0, r1, s0, s1 = r1, r, s1, sub(s0, mul(q, s1, p), p)
    assert len(r0) == 1, 'has a root'
    c = pow(r0[0], -1, p)
    return [x * c % p for x in s0]
def rootfree(a2, a4, a6, p):
    f = [a6 % p, a4 % p, a2 % p, 1]
    u = inv(sub(powx(f, p), [0, 1], p), f, p)
    return u + [0] * (3 - len(u))

p25519 = 2**255 - 19
p448 = 2**448 - 2**224 - 1
W = [  # name, p, a, b, r, gx, gy
 ('P256', 2**256 - 2**224 + 2**192 + 2**96 - 1, -3,
  0x5ac635d8aa3a93e7b3ebbd55769886bc651d06b0cc53b0f63bce3c3e27d2604b,
  0xffffffff00000000ffffffffffffffffbce6faada7179e84f3b9cac2fc632551,
  0x6b17d1f2e12c4247f8bce6e563a440f277037d812deb33a0f4a13945d898c296,
  0x4fe342e2fe1a7f9b8ee7eb4a7c0f9e162bce33576b315ececbb6406837bf51f5),
 ('P384', 2**384 - 2**128 - 2**96 + 2**32 - 1, -3,
  0xb3312fa7e23ee7e4988e056be3f82d19181d9c6efe8141120314088f5013875ac656398d8a2ed19d2a85c8edd3ec2aef,
  0xffffffffffffffffffffffffffffffffffffffffffffffffc7634d81f4372ddf581a0db248b0a77aecec196accc52973,
  0xaa87ca22be8b05378eb1c71ef320ad746e1d3b628ba79b9859f741e082542a385502f25dbf55296c3a545e3872760ab7,
  0x3617de4a96262c6f5d9e98bf9292dc29f8f41dbd289a147ce9da3113b5f0b8c00a60b1ce1d7e819d7a431d7c90ea0e5f),
 ('P521', 2**521 - 1, -3,
  0x51953eb9618e1c9a1f929a21a0b68540eea2da725b99b315f3b8b489918ef109e156193951ec7e937b1652c0bd3bb1bf073573df883d2c34f1ef451fd46b503f00,
  0x1fffffffffffffffffffffffffffffffffffffffffffffffffffffffffffffffffa51868783bf2f966b7fcc0148f709a5d03bb5c9b8899c47aebb6fb71e91386409,
  0xc6858e06b70404e9cd9e3ecb662395b4429c648139053fb521f828af606b4d3dbaa14b5e77efe75928fe1dc127a2ffa8de3348b3c1856a429bf97e7e31c2e5bd66,
  0x11839296a789a3bc0045c8a5fb42c7d1bd998f54449579b446817afbd17273e662c97ee72995ef42640c550b9013fad0761353c7086a272c24088be94769fd16650),
 ('SECP256K1', 2**256 - 2**32 - 977, 0, 7,
  0xfffffffffffffffffffffffffffffffebaaedce6af48a03bbfd25e8cd0364141,
  0x79be667ef9dcbbac55a06295ce870b07029bfcdb2dce28d959f2815b16f81798,
  0x483ada7726a3c4655da4fbfc0e1108a8fd17b448a68554199c47d08ffb10d4b8),
 ('SECP256K1_3ISO', 2**256 - 2**32 - 977,
  0x3f8731abdd661adca08a5558f0f5d272e953d363cb6f0e5d405447c01a444533, 1771,
  0xfffffffffffffffffffffffffffffffebaaedce6af48a03bbfd25e8cd0364141,
  75295888890003590383366995344834012177557063699577440394299653383124903397514,
  82553647407850972504999846303729620951309077682374043495922869307182479212755),
 ('BLS12381G1', 0x1a0111ea397fe69a4b1ba7b6434bacd764774b84f38512bf6730d2a0f6b0f6241eabfffeb153ffffb9feffffffffaaab, 0, 4,
  0x73eda753299d7d483339d80809a1d80553bda402fffe5bfeffffffff00000001,
  0x17f1d3a73197d7942695638c4fa9ac0fc3688c4f9774b905a14e3a3f171bac586c55e83ff97a1aeffb3af00adb22c6bb,
  0x8b3f481e3aaa0f1a09e30ed741d8ae4fcf5e095d5d00af600db18cb2c04b3edd03cc744a2888ae40caa232946c5e7e1),
 ('BLS12381G1_11ISO', 0x1a0111ea397fe69a4b1ba7b6434bacd764774b84f38512bf6730d2a0f6b0f6241eabfffeb153ffffb9feffffffffaaab,
  0x144698a3b8e9433d693a02c96d4982b0ea985383ee66a8d8e8981aefd881ac98936f8da0e0f97f5cf428082d584c1d,
  0x12e2908d11688030018b12e8753eee3b2016c1f0f24f4070a0b9c14fcef35ef55a23215a316ceaa5d1cc48e98e172be0,
  0x73eda753299d7d483339d80809a1d80553bda402fffe5bfeffffffff00000001,
  0x6a0ead062ba73a09984eb7351a2d851bc817625345ce033a6eb7d78242b6466c877e022dda626a79ddb85bce57997e2,
  0x3b89d8bb9326270e46b6b74e19f7b3f10082fbf1a46df72da50c6571b969afc570d6529350b1b9b05ab4fe5c29920b4),
]
r25519 = 2**252 + 27742317777372353535851937790883648493
r448 = 2**446 - 13818066809895115352007386748515426880336692474882178609894547503885
M = [  # name, p, a, s, r, gx, gy
 ('CURVE25519', p25519, 486662, 1, r25519, 9, 43114425171068552920764898935933967039370386198203806730763910166200978582548),
 ('CURVE448', p448, 156326, 3, r448, 5,
  355293926785568175264127502063783334808976399387714271831880898435169088786967410002932673765864550910142774147268105838985595290606362),
]
E = [  # name, p, a, d, r, gx, gy
 ('EDWARDS25519', p25519, -1, (-121665 * pow(121666, -1, p25519)) % p25519, r25519,
  15112221349535400772501151409588531511454012693041857206046113283949847762202,
  4 * pow(5, -1, p25519) % p25519),
 ('EDWARDS448', p448, 1, -39081, r448,
  224580040295924300187604334099896036246789641632564134246125461686950415467406032909029192869357953282578032075146446173674602635247710,
  298819210078481492676017930443930673437544040154080242095928241372331506189835876003536878655418784733982303233503462500531545062832660),
]
HEAD = '''(** Generated by tools/geninst.py: computations about one shipped curve. *)
From Coq Require Import ZArith Bool List.
From Verif.Proofs Require Import InstP.
Import ListNotations.
Open Scope Z_scope.

'''
def zs(x): return str(x) if x >= 0 else '(%d)' % x
def lem(name, stmt): return 'Lemma %s : %s = true.\nProof. vm_cast_no_check (eq_refl true). Qed.\n' % (name, stmt)
def write(name, txt):
    fn = os.path.join(out, 'Inst_%s.v' % name)
    if not (os.path.exists(fn) and open(fn).read() == HEAD + txt): open(fn, 'w').write(HEAD + txt)
def main():
    for n, p, a, b, r, gx, gy in W:
        assert (gy * gy - gx**3 - a * gx - b) % p == 0, n
        u = rootfree(0, a, b, p)
        write(n, lem('noroot_' + n, 'noroot_check %d 0 %s %s 8 [%s]' % (p, zs(a), zs(b), '; '.join(map(str, u))))
            + lem('order_' + n, 'wcheck %d %s %s %d %d %d 8 16' % (p, zs(a), zs(b), gx, gy, r)))
    for n, p, a, s, r, gx, gy in M:
        assert (gy * gy - gx**3 - a * gx * gx - gx) % p == 0, n
        u = rootfree(a, 1, -s * s, p)
        write(n, lem('noroot_' + n, 'noroot_check %d %s 1 %s 8 [%s]' % (p, zs(a), zs(-s * s), '; '.join(map(str, u))))
            + lem('order_' + n, 'mcheck %d %s %s %d %d %d 8 16' % (p, zs(a), zs(s), gx, gy, r)))
    for n, p, a, d, r, gx, gy in E:
        assert (a * gx * gx + gy * gy - 1 - d * gx * gx * gy * gy) % p == 0, n
        write(n, lem('nonsq_' + n, 'nonsq_check %d %s 8' % (p, zs(d)))
            + lem('order_' + n, 'echeck %d %s %s %d %d %d 8 16' % (p, zs(a), zs(d), gx, gy, r)))
if __name__ == '__main__': main()
