(** The standard parameters of the shipped curves, written from the standards (closed forms and
    hexadecimal), independently of the decimal texts in the source. *)
From Coq Require Import ZArith.
Open Scope Z_scope.

(** y^2 = x^3 + a x + b modulo p; base point (gx, gy) of order r; cofactor h *)
Record weierstrass := mkW { w_p : Z; w_a : Z; w_b : Z; w_r : Z; w_h : Z; w_gx : Z; w_gy : Z }.
(** y^2 = x^3 + a x^2 + x modulo p; s is the field element of the code's complete addition *)
Record montgomery := mkM { m_p : Z; m_a : Z; m_s : Z; m_r : Z; m_h : Z; m_gx : Z; m_gy : Z }.
(** a x^2 + y^2 = 1 + d x^2 y^2 modulo p *)
Record edwards := mkE { e_p : Z; e_a : Z; e_d : Z; e_r : Z; e_h : Z; e_gx : Z; e_gy : Z }.

(** FIPS 186-4, D.1.2.3 *)
Definition std_P256 : weierstrass := mkW
  (2^256 - 2^224 + 2^192 + 2^96 - 1)
  (-3)
  0x5ac635d8aa3a93e7b3ebbd55769886bc651d06b0cc53b0f63bce3c3e27d2604b
  0xffffffff00000000ffffffffffffffffbce6faada7179e84f3b9cac2fc632551
  1
  0x6b17d1f2e12c4247f8bce6e563a440f277037d812deb33a0f4a13945d898c296
  0x4fe342e2fe1a7f9b8ee7eb4a7c0f9e162bce33576b315ececbb6406837bf51f5.
(** FIPS 186-4, D.1.2.4 *)
Definition std_P384 : weierstrass := mkW
  (2^384 - 2^128 - 2^96 + 2^32 - 1)
  (-3)
  0xb3312fa7e23ee7e4988e056be3f82d19181d9c6efe8141120314088f5013875ac656398d8a2ed19d2a85c8edd3ec2aef
  0xffffffffffffffffffffffffffffffffffffffffffffffffc7634d81f4372ddf581a0db248b0a77aecec196accc52973
  1
  0xaa87ca22be8b05378eb1c71ef320ad746e1d3b628ba79b9859f741e082542a385502f25dbf55296c3a545e3872760ab7
  0x3617de4a96262c6f5d9e98bf9292dc29f8f41dbd289a147ce9da3113b5f0b8c00a60b1ce1d7e819d7a431d7c90ea0e5f.
(** FIPS 186-4, D.1.2.5 *)
Definition std_P521 : weierstrass := mkW
  (2^521 - 1)
  (-3)
  0x51953eb9618e1c9a1f929a21a0b68540eea2da725b99b315f3b8b489918ef109e156193951ec7e937b1652c0bd3bb1bf073573df883d2c34f1ef451fd46b503f00
  0x1fffffffffffffffffffffffffffffffffffffffffffffffffffffffffffffffffa51868783bf2f966b7fcc0148f709a5d03bb5c9b8899c47aebb6fb71e91386409
  1
  0xc6858e06b70404e9cd9e3ecb662395b4429c648139053fb521f828af606b4d3dbaa14b5e77efe75928fe1dc127a2ffa8de3348b3c1856a429bf97e7e31c2e5bd66
  0x11839296a789a3bc0045c8a5fb42c7d1bd998f54449579b446817afbd17273e662c97ee72995ef42640c550b9013fad0761353c7086a272c24088be94769fd16650.
(** SEC 2, 2.4.1 *)
Definition std_SECP256K1 : weierstrass := mkW
  (2^256 - 2^32 - 977)
  0
  7
  0xfffffffffffffffffffffffffffffffebaaedce6af48a03bbfd25e8cd0364141
  1
  0x79be667ef9dcbbac55a06295ce870b07029bfcdb2dce28d959f2815b16f81798
  0x483ada7726a3c4655da4fbfc0e1108a8fd17b448a68554199c47d08ffb10d4b8.
(** RFC 9380, 8.7 (the curve E'); the base point has no standard: it is the one of the source *)
Definition std_SECP256K1_3ISO : weierstrass := mkW
  (2^256 - 2^32 - 977)
  0x3f8731abdd661adca08a5558f0f5d272e953d363cb6f0e5d405447c01a444533
  1771
  0xfffffffffffffffffffffffffffffffebaaedce6af48a03bbfd25e8cd0364141
  1
  0xa677f67dec3b4e958267664f4bead0c300959b89cdfae2fbb7563af10a26088a
  0xb683b56744d1140cbda41b9853bb2fb7cc44b06dc61406db73c387aea4e680d3.
(** the pairing-friendly curves draft, BLS12-381 G1; the cofactor is RFC 9380's h_eff *)
Definition std_BLS12381G1 : weierstrass := mkW
  0x1a0111ea397fe69a4b1ba7b6434bacd764774b84f38512bf6730d2a0f6b0f6241eabfffeb153ffffb9feffffffffaaab
  0
  4
  0x73eda753299d7d483339d80809a1d80553bda402fffe5bfeffffffff00000001
  0xd201000000010001
  0x17f1d3a73197d7942695638c4fa9ac0fc3688c4f9774b905a14e3a3f171bac586c55e83ff97a1aeffb3af00adb22c6bb
  0x8b3f481e3aaa0f1a09e30ed741d8ae4fcf5e095d5d00af600db18cb2c04b3edd03cc744a2888ae40caa232946c5e7e1.
(** RFC 9380, 8.8.1 (the curve E'); the base point has no standard: it is the one of the source *)
Definition std_BLS12381G1_11ISO : weierstrass := mkW
  0x1a0111ea397fe69a4b1ba7b6434bacd764774b84f38512bf6730d2a0f6b0f6241eabfffeb153ffffb9feffffffffaaab
  0x144698a3b8e9433d693a02c96d4982b0ea985383ee66a8d8e8981aefd881ac98936f8da0e0f97f5cf428082d584c1d
  0x12e2908d11688030018b12e8753eee3b2016c1f0f24f4070a0b9c14fcef35ef55a23215a316ceaa5d1cc48e98e172be0
  0x73eda753299d7d483339d80809a1d80553bda402fffe5bfeffffffff00000001
  0xd201000000010001
  0x6a0ead062ba73a09984eb7351a2d851bc817625345ce033a6eb7d78242b6466c877e022dda626a79ddb85bce57997e2
  0x3b89d8bb9326270e46b6b74e19f7b3f10082fbf1a46df72da50c6571b969afc570d6529350b1b9b05ab4fe5c29920b4.
(** RFC 7748, 4.1 *)
Definition std_CURVE25519 : montgomery := mkM
  (2^255 - 19)
  486662
  1
  (2^252 + 27742317777372353535851937790883648493)
  8
  9
  0x5f51e65e475f794b1fe122d388b72eb36dc2b28192839e4dd6163a5d81312c14.
(** RFC 7748, 4.2 *)
Definition std_CURVE448 : montgomery := mkM
  (2^448 - 2^224 - 1)
  156326
  3
  (2^446 - 13818066809895115352007386748515426880336692474882178609894547503885)
  4
  5
  0x7d235d1295f5b1f66c98ab6e58326fcecbae5d34f55545d060f75dc28df3f6edb8027e2346430d211312c4b150677af76fd7223d457b5b1a.
(** RFC 8032, 5.1 *)
Definition std_EDWARDS25519 : edwards := mkE
  (2^255 - 19)
  (-1)
  0x52036cee2b6ffe738cc740797779e89800700a4d4141d8ab75eb4dca135978a3
  (2^252 + 27742317777372353535851937790883648493)
  8
  0x216936d3cd6e53fec0a4e231fdd6dc5c692cc7609525a7b2c9562d608f25d51a
  0x6666666666666666666666666666666666666666666666666666666666666658.
(** RFC 8032, 5.2 *)
Definition std_EDWARDS448 : edwards := mkE
  (2^448 - 2^224 - 1)
  1
  (-39081)
  (2^446 - 13818066809895115352007386748515426880336692474882178609894547503885)
  4
  0x4f1970c66bed0ded221d15a622bf36da9e146570470f1767ea6de324a3d3a46412ae1af72ab66511433b80e18b00938e2626a82bc70cc05e
  0x693f46716eb6bc248876203756c9c7624bea73736ca3984087789c1e05a0c2d73ad3ff1ce67c39c4fdbd132c4ed7c8ad9808795bf230fa14.
