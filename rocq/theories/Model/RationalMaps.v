(** src/instances/rational_maps.rs *)
From Coq Require Import ZArith String Bool List.
From Verif.Model Require Import Out BigInt PrimeField Instances.
From Verif.Model Require WCurve MCurve ECurve Maps.
Import ListNotations.
Open Scope Z_scope.
Open Scope out_scope.

(** lines 26-30 *)
Record Ed2Mt25519 := mkEd2Mt25519 {
  ed_e0 : ECurve.Curve; ed_e1 : MCurve.Curve; ed_invsqr_d : FpElt }.

(** lines 17-24 *)
Definition edwards25519_to_curve25519 : out Ed2Mt25519 :=
  e0 <- EDWARDS25519 ;;
  e1 <- CURVE25519 ;;
  c <- from_str (ECurve.c_f e0)
    "6853475219497561581579357271197624642482790079785650197046958215289687604742" ;;
  Ret (mkEd2Mt25519 e0 e1 c).

(** lines 42-57 *)
Definition ed25519_push (m : Ed2Mt25519) (p : ECurve.Point) : out MCurve.Point :=
  if ECurve.pt_is_zero p then MCurve.identity (ed_e1 m)
  else (
    let x := ECurve.px (ECurve.pc p) in
    let y := ECurve.py (ECurve.pc p) in
    let z := ECurve.pz (ECurve.pc p) in
    t0 <- add z y ;;
    xx <- mul x t0 ;;
    yy <- mul (ed_invsqr_d m) z ;; yy <- mul yy t0 ;;
    zy <- sub z y ;; zz <- mul x zy ;;
    MCurve.new_proy_point (ed_e1 m) (MCurve.mkProy xx yy zz)).

(** lines 58-84 *)
Definition ed25519_pull (m : Ed2Mt25519) (p : MCurve.Point) : out ECurve.Point :=
  if MCurve.pt_is_zero p then ECurve.identity (ed_e0 m)
  else if MCurve.is_two_torsion p then (
    let ff := ECurve.c_f (ed_e0 m) in
    x <- zero ff ;; o <- one ff ;; y <- neg o ;; t <- zero ff ;; z <- one ff ;;
    ECurve.new_proy_point (ed_e0 m) (ECurve.mkProy x y t z))
  else (
    let x := MCurve.px (MCurve.pc p) in
    let y := MCurve.py (MCurve.pc p) in
    let z := MCurve.pz (MCurve.pc p) in
    a <- add x z ;;
    s <- sub x z ;;
    xx <- mul (ed_invsqr_d m) x ;; xx <- mul xx a ;;
    yy <- mul y s ;;
    tt <- mul (ed_invsqr_d m) x ;; tt <- mul tt s ;;
    zz <- mul y a ;;
    ECurve.new_proy_point (ed_e0 m) (ECurve.mkProy xx yy tt zz)).

(** lines 93-96 *)
Record Ed4isoMt448 := mkEd4isoMt448 { e4_e0 : ECurve.Curve; e4_e1 : MCurve.Curve }.

(** lines 87-91 *)
Definition edwards448_to_curve448 : out Ed4isoMt448 :=
  e0 <- EDWARDS448 ;; e1 <- CURVE448 ;; Ret (mkEd4isoMt448 e0 e1).

(** lines 108-127 *)
Definition ed448_push (m : Ed4isoMt448) (p : ECurve.Point) : out MCurve.Point :=
  if ECurve.pt_is_zero p then MCurve.identity (e4_e1 m)
  else (
    let x := ECurve.px (ECurve.pc p) in
    let y := ECurve.py (ECurve.pc p) in
    let z := ECurve.pz (ECurve.pc p) in
    f2 <- from_int (MCurve.c_f (e4_e1 m)) 2 ;;
    x2 <- sqr x ;;
    y2 <- sqr y ;;
    z2 <- sqr z ;;
    zz <- mul x x2 ;;
    xx <- mul x y2 ;;
    w <- mul f2 z2 ;; w <- sub w y2 ;; w <- sub w x2 ;; yy <- mul y w ;;
    MCurve.new_proy_point (e4_e1 m) (MCurve.mkProy xx yy zz)).

(** lines 128-158 *)
Definition ed448_pull (m : Ed4isoMt448) (p : MCurve.Point) : out ECurve.Point :=
  if MCurve.pt_is_zero p then ECurve.identity (e4_e0 m)
  else (
    let ff := ECurve.c_f (e4_e0 m) in
    f2 <- from_int ff 2 ;; f4 <- from_int ff 4 ;;
    let x := MCurve.px (MCurve.pc p) in
    let y := MCurve.py (MCurve.pc p) in
    let z := MCurve.pz (MCurve.pc p) in
    x2 <- sqr x ;;
    x3 <- mul x2 x ;;
    x4 <- sqr x2 ;;
    x5 <- mul x3 x2 ;;
    y2 <- sqr y ;;
    z2 <- sqr z ;;
    z3 <- mul z2 z ;;
    z4 <- sqr z2 ;;
    (* xx = f4 * y * z * (x2 - z2) *)
    w <- mul f4 y ;; w <- mul w z ;; d <- sub x2 z2 ;; xx <- mul w d ;;
    (* z0 = x4 - f2 * x2 * z2 + z4 + f4 * y2 * z2 *)
    w <- mul f2 x2 ;; w <- mul w z2 ;; z0 <- sub x4 w ;; z0 <- add z0 z4 ;;
    w <- mul f4 y2 ;; w <- mul w z2 ;; z0 <- add z0 w ;;
    (* yy = -(x5 - f2 * x3 * z2 + x * z4 - f4 * x * y2 * z2) *)
    w <- mul f2 x3 ;; w <- mul w z2 ;; yy <- sub x5 w ;;
    w <- mul x z4 ;; yy <- add yy w ;;
    w <- mul f4 x ;; w <- mul w y2 ;; w <- mul w z2 ;; yy <- sub yy w ;;
    yy <- neg yy ;;
    (* z1 = x5 - f2 * x3 * z2 + x * z4 - f2 * x2 * y2 * z - f2 * y2 * z3 *)
    w <- mul f2 x3 ;; w <- mul w z2 ;; z1 <- sub x5 w ;;
    w <- mul x z4 ;; z1 <- add z1 w ;;
    w <- mul f2 x2 ;; w <- mul w y2 ;; w <- mul w z ;; z1 <- sub z1 w ;;
    w <- mul f2 y2 ;; w <- mul w z3 ;; z1 <- sub z1 w ;;
    tt <- mul xx yy ;;
    xx <- mul xx z1 ;;
    yy <- mul yy z0 ;;
    zz <- mul z0 z1 ;;
    ECurve.new_proy_point (e4_e0 m) (ECurve.mkProy xx yy tt zz)).

(** lines 161-168 and 234-241: both isogeny structs *)
Record Iso := mkIso {
  iso_e0 : WCurve.Curve; iso_e1 : WCurve.Curve;
  iso_x_num : list FpElt; iso_x_den : list FpElt;
  iso_y_num : list FpElt; iso_y_den : list FpElt }.

(** a [vec![f.from(..), .., f.one(), f.zero()]] *)
Inductive coef := CStr (s : string) | COne | CZero.
Fixpoint build (F : Fp) (l : list coef) : out (list FpElt) :=
  match l with
  | [] => Ret []
  | c :: l' =>
      x <- (match c with CStr s => from_str F s | COne => one F | CZero => zero F end) ;;
      r <- build F l' ;;
      Ret (x :: r)
  end.

(** lines 175-180 *)
Definition secp_x_num : list coef :=
  [ CStr "0x8e38e38e38e38e38e38e38e38e38e38e38e38e38e38e38e38e38e38daaaaa8c7"
  ; CStr "0x07d3d4c80bc321d5b9f315cea7fd44c5d595d2fc0bf63b92dfff1044f17c6581"
  ; CStr "0x534c328d23f234e6e2a413deca25caece4506144037c40314ecbd0b53d9dd262"
  ; CStr "0x8e38e38e38e38e38e38e38e38e38e38e38e38e38e38e38e38e38e38daaaaa88c" ].
(** lines 181-186 *)
Definition secp_x_den : list coef :=
  [ CStr "0xd35771193d94918a9ca34ccbb7b640dd86cd409542f8487d9fe6b745781eb49b"
  ; CStr "0xedadc6f64383dc1df7c4b2d51b54225406d36b641f5e41bbc52a56612a8c6d14"
  ; COne
  ; CZero ].
(** lines 187-192 *)
Definition secp_y_num : list coef :=
  [ CStr "0x4bda12f684bda12f684bda12f684bda12f684bda12f684bda12f684b8e38e23c"
  ; CStr "0xc75e0c32d5cb7c0fa9d0a54b12a0a6d5647ab046d686da6fdffc90fc201d71a3"
  ; CStr "0x29a6194691f91a73715209ef6512e576722830a201be2018a765e85a9ecee931"
  ; CStr "0x2f684bda12f684bda12f684bda12f684bda12f684bda12f684bda12f38e38d84" ].
(** lines 193-198 *)
Definition secp_y_den : list coef :=
  [ CStr "0xfffffffffffffffffffffffffffffffffffffffffffffffffffffffefffff93b"
  ; CStr "0x7a06534bb8bdb49fd5e9e6632722c2989467c1bfc8e8d978dfb425d2685c2573"
  ; CStr "0x6484aa716545ca2cf3a70c3fa8fe337e0a3d21162f0d6299a7bf8192bfd2a76f"
  ; COne ].
(** lines 171-202 *)
Definition get_isogeny_secp256k1 : out Iso :=
  curve <- SECP256K1 ;;
  let F := WCurve.c_f curve in
  x_num <- build F secp_x_num ;; x_den <- build F secp_x_den ;;
  y_num <- build F secp_y_num ;; y_den <- build F secp_y_den ;;
  e0 <- SECP256K1_3ISO ;;
  Ret (mkIso e0 curve x_num x_den y_num y_den).

(** lines 248-261 *)
Definition bls_x_num : list coef :=
  [ CStr "0x11a05f2b1e833340b809101dd99815856b303e88a2d7005ff2627b56cdb4e2c85610c2d5f2e62d6eaeac1662734649b7"
  ; CStr "0x17294ed3e943ab2f0588bab22147a81c7c17e75b2f6a8417f565e33c70d1e86b4838f2a6f318c356e834eef1b3cb83bb"
  ; CStr "0xd54005db97678ec1d1048c5d10a9a1bce032473295983e56878e501ec68e25c958c3e3d2a09729fe0179f9dac9edcb0"
  ; CStr "0x1778e7166fcc6db74e0609d307e55412d7f5e4656a8dbf25f1b33289f1b330835336e25ce3107193c5b388641d9b6861"
  ; CStr "0xe99726a3199f4436642b4b3e4118e5499db995a1257fb3f086eeb65982fac18985a286f301e77c451154ce9ac8895d9"
  ; CStr "0x1630c3250d7313ff01d1201bf7a74ab5db3cb17dd952799b9ed3ab9097e68f90a0870d2dcae73d19cd13c1c66f652983"
  ; CStr "0xd6ed6553fe44d296a3726c38ae652bfb11586264f0f8ce19008e218f9c86b2a8da25128c1052ecaddd7f225a139ed84"
  ; CStr "0x17b81e7701abdbe2e8743884d1117e53356de5ab275b4db1a682c62ef0f2753339b7c8f8c8f475af9ccb5618e3f0c88e"
  ; CStr "0x80d3cf1f9a78fc47b90b33563be990dc43b756ce79f5574a2c596c928c5d1de4fa295f296b74e956d71986a8497e317"
  ; CStr "0x169b1f8e1bcfa7c42e0c37515d138f22dd2ecb803a0c5c99676314baf4bb1b7fa3190b2edc0327797f241067be390c9e"
  ; CStr "0x10321da079ce07e272d8ec09d2565b0dfa7dccdde6787f96d50af36003b14866f69b771f8c285decca67df3f1605fb7b"
  ; CStr "0x6e08c248e260e70bd1e962381edee3d31d79d7e22c837bc23c0bf1bc24c6b68c24b1b80b64d391fa9c8ba2e8ba2d229" ].
(** lines 262-275 *)
Definition bls_x_den : list coef :=
  [ CStr "0x8ca8d548cff19ae18b2e62f4bd3fa6f01d5ef4ba35b48ba9c9588617fc8ac62b558d681be343df8993cf9fa40d21b1c"
  ; CStr "0x12561a5deb559c4348b4711298e536367041e8ca0cf0800c0126c2588c48bf5713daa8846cb026e9e5c8276ec82b3bff"
  ; CStr "0xb2962fe57a3225e8137e629bff2991f6f89416f5a718cd1fca64e00b11aceacd6a3d0967c94fedcfcc239ba5cb83e19"
  ; CStr "0x3425581a58ae2fec83aafef7c40eb545b08243f16b1655154cca8abc28d6fd04976d5243eecf5c4130de8938dc62cd8"
  ; CStr "0x13a8e162022914a80a6f1d5f43e7a07dffdfc759a12062bb8d6b44e833b306da9bd29ba81f35781d539d395b3532a21e"
  ; CStr "0xe7355f8e4e667b955390f7f0506c6e9395735e9ce9cad4d0a43bcef24b8982f7400d24bc4228f11c02df9a29f6304a5"
  ; CStr "0x772caacf16936190f3e0c63e0596721570f5799af53a1894e2e073062aede9cea73b3538f0de06cec2574496ee84a3a"
  ; CStr "0x14a7ac2a9d64a8b230b3f5b074cf01996e7f63c21bca68a81996e1cdf9822c580fa5b9489d11e2d311f7d99bbdcc5a5e"
  ; CStr "0xa10ecf6ada54f825e920b3dafc7a3cce07f8d1d7161366b74100da67f39883503826692abba43704776ec3a79a1d641"
  ; CStr "0x95fc13ab9e92ad4476d6e3eb3a56680f682b4ee96f7d03776df533978f31c1593174e4b4b7865002d6384d168ecdd0a"
  ; COne
  ; CZero ].
(** lines 276-293 *)
Definition bls_y_num : list coef :=
  [ CStr "0x90d97c81ba24ee0259d1f094980dcfa11ad138e48a869522b52af6c956543d3cd0c7aee9b3ba3c2be9845719707bb33"
  ; CStr "0x134996a104ee5811d51036d776fb46831223e96c254f383d0f906343eb67ad34d6c56711962fa8bfe097e75a2e41c696"
  ; CStr "0xcc786baa966e66f4a384c86a3b49942552e2d658a31ce2c344be4b91400da7d26d521628b00523b8dfe240c72de1f6"
  ; CStr "0x1f86376e8981c217898751ad8746757d42aa7b90eeb791c09e4a3ec03251cf9de405aba9ec61deca6355c77b0e5f4cb"
  ; CStr "0x8cc03fdefe0ff135caf4fe2a21529c4195536fbe3ce50b879833fd221351adc2ee7f8dc099040a841b6daecf2e8fedb"
  ; CStr "0x16603fca40634b6a2211e11db8f0a6a074a7d0d4afadb7bd76505c3d3ad5544e203f6326c95a807299b23ab13633a5f0"
  ; CStr "0x4ab0b9bcfac1bbcb2c977d027796b3ce75bb8ca2be184cb5231413c4d634f3747a87ac2460f415ec961f8855fe9d6f2"
  ; CStr "0x987c8d5333ab86fde9926bd2ca6c674170a05bfe3bdd81ffd038da6c26c842642f64550fedfe935a15e4ca31870fb29"
  ; CStr "0x9fc4018bd96684be88c9e221e4da1bb8f3abd16679dc26c1e8b6e6a1f20cabe69d65201c78607a360370e577bdba587"
  ; CStr "0xe1bba7a1186bdb5223abde7ada14a23c42a0ca7915af6fe06985e7ed1e4d43b9b3f7055dd4eba6f2bafaaebca731c30"
  ; CStr "0x19713e47937cd1be0dfd0b8f1d43fb93cd2fcbcb6caf493fd1183e416389e61031bf3a5cce3fbafce813711ad011c132"
  ; CStr "0x18b46a908f36f6deb918c143fed2edcc523559b8aaf0c2462e6bfe7f911f643249d9cdf41b44d606ce07c8a4d0074d8e"
  ; CStr "0xb182cac101b9399d155096004f53f447aa7b12a3426b08ec02710e807b4633f06c851c1919211f20d4c04f00b971ef8"
  ; CStr "0x245a394ad1eca9b72fc00ae7be315dc757b3b080d4c158013e6632d3c40659cc6cf90ad1c232a6442d9d3f5db980133"
  ; CStr "0x5c129645e44cf1102a159f748c4a3fc5e673d81d7e86568d9ab0f5d396a7ce46ba1049b6579afb7866b1e715475224b"
  ; CStr "0x15e6be4e990f03ce4ea50b3b42df2eb5cb181d8f84965a3957add4fa95af01b2b665027efec01c7704b456be69c8b604" ].
(** lines 294-311 *)
Definition bls_y_den : list coef :=
  [ CStr "0x16112c4c3a9c98b252181140fad0eae9601a6de578980be6eec3232b5be72e7a07f3688ef60c206d01479253b03663c1"
  ; CStr "0x1962d75c2381201e1a0cbd6c43c348b885c84ff731c4d59ca4a10356f453e01f78a4260763529e3532f6102c2e49a03d"
  ; CStr "0x58df3306640da276faaae7d6e8eb15778c4855551ae7f310c35a5dd279cd2eca6757cd636f96f891e2538b53dbf67f2"
  ; CStr "0x16b7d288798e5395f20d23bf89edb4d1d115c5dbddbcd30e123da489e726af41727364f2c28297ada8d26d98445f5416"
  ; CStr "0xbe0e079545f43e4b00cc912f8228ddcc6d19c9f0f69bbb0542eda0fc9dec916a20b15dc0fd2ededda39142311a5001d"
  ; CStr "0x8d9e5297186db2d9fb266eaac783182b70152c65550d881c5ecd87b6f0f5a6449f38db9dfa9cce202c6477faaf9b7ac"
  ; CStr "0x166007c08a99db2fc3ba8734ace9824b5eecfdfa8d0cf8ef5dd365bc400a0051d5fa9c01a58b1fb93d1a1399126a775c"
  ; CStr "0x16a3ef08be3ea7ea03bcddfabba6ff6ee5a4375efa1f4fd7feb34fd206357132b920f5b00801dee460ee415a15812ed9"
  ; CStr "0x1866c8ed336c61231a1be54fd1d74cc4f9fb0ce4c6af5920abc5750c4bf39b4852cfe2f7bb9248836b233d9d55535d4a"
  ; CStr "0x167a55cda70a6e1cea820597d94a84903216f763e13d87bb5308592e7ea7d4fbc7385ea3d529b35e346ef48bb8913f55"
  ; CStr "0x4d2f259eea405bd48f010a01ad2911d9c6dd039bb61a6290e591b36e636a5c871a5c29f4f83060400f8b49cba8f6aa8"
  ; CStr "0xaccbb67481d033ff5852c1e48c50c477f94ff8aefce42d28c0f9a88cea7913516f968986f7ebbea9684b529e2561092"
  ; CStr "0xad6b9514c767fe3c3613144b45f1496543346d98adf02267d5ceef9a00d9b8693000763e3b90ac11e99b138573345cc"
  ; CStr "0x2660400eb2e4f3b628bdd0d53cd76f2bf565b94e72927c1cb748df27942480e420517bd8714cc80d1fadc1326ed06f7"
  ; CStr "0xe0fa1d816ddc03e6b24255e0d7819c171c40f65e273b853324efcd6356caa205ca2f570f13497804415473a1d634b8f"
  ; COne ].
(** lines 244-315 *)
Definition get_isogeny_bls12381g1 : out Iso :=
  curve <- BLS12381G1 ;;
  let F := WCurve.c_f curve in
  x_num <- build F bls_x_num ;; x_den <- build F bls_x_den ;;
  y_num <- build F bls_y_num ;; y_den <- build F bls_y_den ;;
  e0 <- BLS12381G1_11ISO ;;
  Ret (mkIso e0 curve x_num x_den y_num y_den).

(** Horner evaluation, one polynomial: the loop body [acc = acc * x + c[i]], i descending
    (lines 222-227 and 335-342; the loops there interleave two or four such evaluations, which
    only share x) *)
Fixpoint horner (F : Fp) (l : list FpElt) (x : FpElt) : out FpElt :=
  match l with
  | [] => zero F
  | c :: l' => acc <- horner F l' x ;; m <- mul acc x ;; add m c
  end.

(** lines 213-231 and 326-347; the projective z of the argument is not used *)
Definition iso_push (m : Iso) (p : WCurve.Point) : out WCurve.Point :=
  let F := WCurve.c_f (iso_e0 m) in
  let x := WCurve.px (WCurve.pc p) in
  let y := WCurve.py (WCurve.pc p) in
  x_num <- horner F (iso_x_num m) x ;;
  x_den <- horner F (iso_x_den m) x ;;
  y_num <- horner F (iso_y_num m) x ;;
  y_den <- horner F (iso_y_den m) x ;;
  xx <- div x_num x_den ;;
  q <- div y_num y_den ;; yy <- mul y q ;;
  WCurve.new_point (iso_e1 m) xx yy.

(** src/weierstrass/sswuab0.rs:8-12; the boxed trait objects are the isogeny above and SSWU *)
Record SSWUAB0 := mkSSWUAB0 { s0_iso : Iso; s0_sswu : Maps.SSWU }.

(** sswuab0.rs:15-28 *)
Definition sswuab0_new (e : WCurve.Curve) (z : FpElt) (iso : Iso) : out SSWUAB0 :=
  let cond0 := WCurve.curve_eqb e (iso_e1 iso) in
  let cond1 := is_zero (WCurve.c_a e) in
  let cond2 := is_zero (WCurve.c_b e) in
  if negb (cond0 && xorb cond1 cond2) then Panic Maps.ERR_PARAMS
  else (s <- Maps.sswu_new (iso_e0 iso) z ;; Ret (mkSSWUAB0 iso s)).

(** sswuab0.rs:33-38 *)
Definition sswuab0_map (m : SSWUAB0) (u : FpElt) : out WCurve.Point :=
  P <- Maps.sswu_map (s0_sswu m) u ;; iso_push (s0_iso m) P.

(** src/edwards/elligator2.rs:8-11, with either shipped rational map *)
Inductive ratmap := R25519 (m : Ed2Mt25519) | R448 (m : Ed4isoMt448).
(** rational_maps.rs:36-41, 102-107 (domain and codomain); for the isogenies, lines 207-212 and 320-325, they are [iso_e0] and [iso_e1] *)
Definition rat_domain (r : ratmap) : ECurve.Curve :=
  match r with R25519 m => ed_e0 m | R448 m => e4_e0 m end.
Definition rat_codomain (r : ratmap) : MCurve.Curve :=
  match r with R25519 m => ed_e1 m | R448 m => e4_e1 m end.
Definition rat_push (r : ratmap) : ECurve.Point -> out MCurve.Point :=
  match r with R25519 m => ed25519_push m | R448 m => ed448_push m end.
Definition rat_pull (r : ratmap) : MCurve.Point -> out ECurve.Point :=
  match r with R25519 m => ed25519_pull m | R448 m => ed448_pull m end.

Record EdEll2 := mkEdEll2 { ee_ratmap : ratmap; ee_map : Maps.Ell2 }.

(** edwards/elligator2.rs:14-36 *)
Definition ed_ell2_new (e : ECurve.Curve) (z : FpElt) (r : option ratmap) : out EdEll2 :=
  match r with
  | None => Panic "not yet implemented"
  | Some r =>
      if negb (ECurve.curve_eqb (rat_domain r) e)
      then Panic "Domain of rational map is incompatible with curve"
      else (m <- Maps.ell2_new (rat_codomain r) z ;; Ret (mkEdEll2 r m))
  end.

(** edwards/elligator2.rs:41-46 *)
Definition ed_ell2_map (m : EdEll2) (u : FpElt) : out ECurve.Point :=
  P <- Maps.ell2_map (ee_map m) u ;; rat_pull (ee_ratmap m) P.
