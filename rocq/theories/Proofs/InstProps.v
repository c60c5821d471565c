(** The shipped curves have the standard parameters, and those satisfy everything the general theorems ask for. *)
From Coq Require Import ZArith Znumtheory Lia String Ascii Bool List.
From Verif.Math Require Import Fld Zp.
From Verif.Math Require Import Prime_p25519 Prime_p256 Prime_p384 Prime_p448 Prime_p521 Prime_pbls Prime_psecp Prime_r25519 Prime_r256 Prime_r384 Prime_r448 Prime_r521 Prime_rbls Prime_rsecp.
From Verif.Spec Require Import Arith Curve Instances.
From Verif.Model Require Import Out BigInt PrimeField Instances.
From Verif.Model Require WCurve MCurve ECurve.
From Verif.Proofs Require Import FieldP FieldProps InstShip.
From Verif.Proofs Require Import Inst_P256 Inst_P384 Inst_P521 Inst_SECP256K1 Inst_SECP256K1_3ISO Inst_BLS12381G1 Inst_BLS12381G1_11ISO Inst_CURVE25519 Inst_CURVE448 Inst_EDWARDS25519 Inst_EDWARDS448.
From Verif.Proofs Require WeierProps MontProps EdwProps.
Import ListNotations.
Open Scope Z_scope.

Ltac rng := split; [vm_compute; discriminate|vm_compute; reflexivity].
Lemma c48_P256 : w_shipped P256 std_P256.
Proof.
  replace std_P256 with (mkW 115792089210356248762697446949407573530086143415290314195533631308867097853951 (-3) 41058363725152142129326129780047268409114441015993725554835256314039467401291 115792089210356248762697446949407573529996955224135760342422259061068512044369 1 48439561293906451759052585252797914202762949526041747995844080717082404635286 36134250956749795798585127919587881956611106672985015071877198253568414405109) by (vm_compute; reflexivity).
  eapply w_inst; [exact prime_p256|exact prime_r256|left; vm_compute; reflexivity|rng|rng|vm_compute; reflexivity|vm_compute; reflexivity|exact noroot_P256|exact order_P256].
Qed.
Lemma c48_P384 : w_shipped P384 std_P384.
Proof.
  replace std_P384 with (mkW 39402006196394479212279040100143613805079739270465446667948293404245721771496870329047266088258938001861606973112319 (-3) 27580193559959705877849011840389048093056905856361568521428707301988689241309860865136260764883745107765439761230575 39402006196394479212279040100143613805079739270465446667946905279627659399113263569398956308152294913554433653942643 1 26247035095799689268623156744566981891852923491109213387815615900925518854738050089022388053975719786650872476732087 8325710961489029985546751289520108179287853048861315594709205902480503199884419224438643760392947333078086511627871) by (vm_compute; reflexivity).
  eapply w_inst; [exact prime_p384|exact prime_r384|left; vm_compute; reflexivity|rng|rng|vm_compute; reflexivity|vm_compute; reflexivity|exact noroot_P384|exact order_P384].
Qed.
Lemma c48_P521 : w_shipped P521 std_P521.
Proof.
  replace std_P521 with (mkW 6864797660130609714981900799081393217269435300143305409394463459185543183397656052122559640661454554977296311391480858037121987999716643812574028291115057151 (-3) 1093849038073734274511112390766805569936207598951683748994586394495953116150735016013708737573759623248592132296706313309438452531591012912142327488478985984 6864797660130609714981900799081393217269435300143305409394463459185543183397655394245057746333217197532963996371363321113864768612440380340372808892707005449 1 2661740802050217063228768716723360960729859168756973147706671368418802944996427808491545080627771902352094241225065558662157113545570916814161637315895999846 3757180025770020463545507224491183603594455134769762486694567779615544477440556316691234405012945539562144444537289428522585666729196580810124344277578376784) by (vm_compute; reflexivity).
  eapply w_inst; [exact prime_p521|exact prime_r521|left; vm_compute; reflexivity|rng|rng|vm_compute; reflexivity|vm_compute; reflexivity|exact noroot_P521|exact order_P521].
Qed.
Lemma c48_SECP256K1 : w_shipped SECP256K1 std_SECP256K1.
Proof.
  replace std_SECP256K1 with (mkW 115792089237316195423570985008687907853269984665640564039457584007908834671663 0 7 115792089237316195423570985008687907852837564279074904382605163141518161494337 1 55066263022277343669578718895168534326250603453777594175500187360389116729240 32670510020758816978083085130507043184471273380659243275938904335757337482424) by (vm_compute; reflexivity).
  eapply w_inst; [exact prime_psecp|exact prime_rsecp|left; vm_compute; reflexivity|rng|rng|vm_compute; reflexivity|vm_compute; reflexivity|exact noroot_SECP256K1|exact order_SECP256K1].
Qed.
Lemma c48_SECP256K1_3ISO : w_shipped SECP256K1_3ISO std_SECP256K1_3ISO.
Proof.
  replace std_SECP256K1_3ISO with (mkW 115792089237316195423570985008687907853269984665640564039457584007908834671663 28734576633528757162648956269730739219262246272443394170905244663053633733939 1771 115792089237316195423570985008687907852837564279074904382605163141518161494337 1 75295888890003590383366995344834012177557063699577440394299653383124903397514 82553647407850972504999846303729620951309077682374043495922869307182479212755) by (vm_compute; reflexivity).
  eapply w_inst; [exact prime_psecp|exact prime_rsecp|left; vm_compute; reflexivity|rng|rng|vm_compute; reflexivity|vm_compute; reflexivity|exact noroot_SECP256K1_3ISO|exact order_SECP256K1_3ISO].
Qed.
Lemma c48_BLS12381G1 : w_shipped BLS12381G1 std_BLS12381G1.
Proof.
  replace std_BLS12381G1 with (mkW 4002409555221667393417789825735904156556882819939007885332058136124031650490837864442687629129015664037894272559787 0 4 52435875175126190479447740508185965837690552500527637822603658699938581184513 15132376222941642753 3685416753713387016781088315183077757961620795782546409894578378688607592378376318836054947676345821548104185464507 1339506544944476473020471379941921221584933875938349620426543736416511423956333506472724655353366534992391756441569) by (vm_compute; reflexivity).
  eapply w_inst; [exact prime_pbls|exact prime_rbls|left; vm_compute; reflexivity|rng|rng|vm_compute; reflexivity|vm_compute; reflexivity|exact noroot_BLS12381G1|exact order_BLS12381G1].
Qed.
Lemma c48_BLS12381G1_11ISO : w_shipped BLS12381G1_11ISO std_BLS12381G1_11ISO.
Proof.
  replace std_BLS12381G1_11ISO with (mkW 4002409555221667393417789825735904156556882819939007885332058136124031650490837864442687629129015664037894272559787 12190336318893619529228877361869031420615612348429846051986726275283378313155663745811710833465465981901188123677 2906670324641927570491258158026293881577086121416628140204402091718288198173574630967936031029026176254968826637280 52435875175126190479447740508185965837690552500527637822603658699938581184513 15132376222941642753 1020232295111649411126762359530270833151925872915888263107080350435116244445972822132949957555221231229957568042978 572738012940399893876716047881377207991025392386390068007901896139525257801331726850963609787517204283814804267188) by (vm_compute; reflexivity).
  eapply w_inst; [exact prime_pbls|exact prime_rbls|left; vm_compute; reflexivity|rng|rng|vm_compute; reflexivity|vm_compute; reflexivity|exact noroot_BLS12381G1_11ISO|exact order_BLS12381G1_11ISO].
Qed.
Lemma c48_CURVE25519 : m_shipped CURVE25519 std_CURVE25519.
Proof.
  replace std_CURVE25519 with (mkM 57896044618658097711785492504343953926634992332820282019728792003956564819949 486662 1 7237005577332262213973186563042994240857116359379907606001950938285454250989 8 9 43114425171068552920764898935933967039370386198203806730763910166200978582548) by (vm_compute; reflexivity).
  eapply m_inst; [exact prime_p25519|exact prime_r25519|right; vm_compute; reflexivity|rng|rng|vm_compute; reflexivity|vm_compute; discriminate|vm_compute; reflexivity|exact noroot_CURVE25519|exact order_CURVE25519].
Qed.
Lemma c48_CURVE448 : m_shipped CURVE448 std_CURVE448.
Proof.
  replace std_CURVE448 with (mkM 726838724295606890549323807888004534353641360687318060281490199180612328166730772686396383698676545930088884461843637361053498018365439 156326 3 181709681073901722637330951972001133588410340171829515070372549795146003961539585716195755291692375963310293709091662304773755859649779 4 5 355293926785568175264127502063783334808976399387714271831880898435169088786967410002932673765864550910142774147268105838985595290606362) by (vm_compute; reflexivity).
  eapply m_inst; [exact prime_p448|exact prime_r448|left; vm_compute; reflexivity|rng|rng|vm_compute; reflexivity|vm_compute; discriminate|vm_compute; reflexivity|exact noroot_CURVE448|exact order_CURVE448].
Qed.
Lemma c48_EDWARDS25519 : e_shipped EDWARDS25519 std_EDWARDS25519.
Proof.
  replace std_EDWARDS25519 with (mkE 57896044618658097711785492504343953926634992332820282019728792003956564819949 (-1) 37095705934669439343138083508754565189542113879843219016388785533085940283555 7237005577332262213973186563042994240857116359379907606001950938285454250989 8 15112221349535400772501151409588531511454012693041857206046113283949847762202 46316835694926478169428394003475163141307993866256225615783033603165251855960) by (vm_compute; reflexivity).
  eapply e_inst with (s := 19681161376707505956807079304988542015446066515923890162744021073123829784752); [exact prime_p25519|exact prime_r25519|right; vm_compute; reflexivity|rng|rng|vm_compute; reflexivity|vm_compute; discriminate|vm_compute; reflexivity|discriminate|vm_compute; reflexivity|exact nonsq_EDWARDS25519|exact order_EDWARDS25519].
Qed.
Lemma c48_EDWARDS448 : e_shipped EDWARDS448 std_EDWARDS448.
Proof.
  replace std_EDWARDS448 with (mkE 726838724295606890549323807888004534353641360687318060281490199180612328166730772686396383698676545930088884461843637361053498018365439 1 (-39081) 181709681073901722637330951972001133588410340171829515070372549795146003961539585716195755291692375963310293709091662304773755859649779 4 224580040295924300187604334099896036246789641632564134246125461686950415467406032909029192869357953282578032075146446173674602635247710 298819210078481492676017930443930673437544040154080242095928241372331506189835876003536878655418784733982303233503462500531545062832660) by (vm_compute; reflexivity).
  eapply e_inst with (s := 1); [exact prime_p448|exact prime_r448|left; vm_compute; reflexivity|rng|rng|vm_compute; reflexivity|vm_compute; discriminate|vm_compute; reflexivity|discriminate|vm_compute; reflexivity|exact nonsq_EDWARDS448|exact order_EDWARDS448].
Qed.

(** the source's double of the P-256 base point is the published one (NIST/SEC test vector for k = 2) *)
Open Scope out_scope.
Example c48_ex : (e <- P256 ;; G <- WCurve.get_generator e ;; D <- WCurve.core_doubling G ;; N <- WCurve.normalize D ;;
  Ret (val (WCurve.px (WCurve.pc N)), val (WCurve.py (WCurve.pc N)))) =
  Ret (0x7cf27b188d034f7e8a52380304b51ac3c08969e277f21b35a60b48fc47669978, 0x07775510db8ed040293d9ac69f7430dbba7dade63ce982299e04b79d227873d1).
Proof. vm_compute. reflexivity. Qed.
