(** src/instances/weier.rs, mont.rs, edw.rs: the shipped curves. The parameter texts are
    copied verbatim; [X.get()] (weier.rs:7-13, mont.rs:7-13, edw.rs:7-13) is the model's
    [curve_from X_PARAMS], which parses them like the code does. *)
From Coq Require Import ZArith String.
From Verif.Model Require Import Out.
From Verif.Model Require WCurve MCurve ECurve.
Open Scope string_scope.

(** weier.rs:36-45 *)
Definition P256_PARAMS : WCurve.Params := WCurve.mkParams
  "P256"
  "115792089210356248762697446949407573530086143415290314195533631308867097853951"
  "-3"
  "41058363725152142129326129780047268409114441015993725554835256314039467401291"
  "115792089210356248762697446949407573529996955224135760342422259061068512044369"
  "1"
  "48439561293906451759052585252797914202762949526041747995844080717082404635286"
  "36134250956749795798585127919587881956611106672985015071877198253568414405109".
Definition P256 : out WCurve.Curve := WCurve.curve_from P256_PARAMS.

(** weier.rs:46-55 *)
Definition P384_PARAMS : WCurve.Params := WCurve.mkParams
  "P384"
  "39402006196394479212279040100143613805079739270465446667948293404245721771496870329047266088258938001861606973112319"
  "-3"
  "27580193559959705877849011840389048093056905856361568521428707301988689241309860865136260764883745107765439761230575"
  "39402006196394479212279040100143613805079739270465446667946905279627659399113263569398956308152294913554433653942643"
  "1"
  "26247035095799689268623156744566981891852923491109213387815615900925518854738050089022388053975719786650872476732087"
  "8325710961489029985546751289520108179287853048861315594709205902480503199884419224438643760392947333078086511627871".
Definition P384 : out WCurve.Curve := WCurve.curve_from P384_PARAMS.

(** weier.rs:56-65 *)
Definition P521_PARAMS : WCurve.Params := WCurve.mkParams
  "P521"
  "6864797660130609714981900799081393217269435300143305409394463459185543183397656052122559640661454554977296311391480858037121987999716643812574028291115057151"
  "-3"
  "1093849038073734274511112390766805569936207598951683748994586394495953116150735016013708737573759623248592132296706313309438452531591012912142327488478985984"
  "6864797660130609714981900799081393217269435300143305409394463459185543183397655394245057746333217197532963996371363321113864768612440380340372808892707005449"
  "1"
  "2661740802050217063228768716723360960729859168756973147706671368418802944996427808491545080627771902352094241225065558662157113545570916814161637315895999846"
  "3757180025770020463545507224491183603594455134769762486694567779615544477440556316691234405012945539562144444537289428522585666729196580810124344277578376784".
Definition P521 : out WCurve.Curve := WCurve.curve_from P521_PARAMS.

(** weier.rs:66-75 *)
Definition SECP256K1_PARAMS : WCurve.Params := WCurve.mkParams
  "secp256k1"
  "115792089237316195423570985008687907853269984665640564039457584007908834671663"
  "0"
  "7"
  "115792089237316195423570985008687907852837564279074904382605163141518161494337"
  "1"
  "55066263022277343669578718895168534326250603453777594175500187360389116729240"
  "32670510020758816978083085130507043184471273380659243275938904335757337482424".
Definition SECP256K1 : out WCurve.Curve := WCurve.curve_from SECP256K1_PARAMS.

(** weier.rs:76-85 *)
Definition SECP256K1_3ISO_PARAMS : WCurve.Params := WCurve.mkParams
  "secp256k1_3iso"
  "115792089237316195423570985008687907853269984665640564039457584007908834671663"
  "28734576633528757162648956269730739219262246272443394170905244663053633733939"
  "1771"
  "115792089237316195423570985008687907852837564279074904382605163141518161494337"
  "1"
  "75295888890003590383366995344834012177557063699577440394299653383124903397514"
  "82553647407850972504999846303729620951309077682374043495922869307182479212755".
Definition SECP256K1_3ISO : out WCurve.Curve := WCurve.curve_from SECP256K1_3ISO_PARAMS.

(** weier.rs:87-96 *)
Definition BLS12381G1_PARAMS : WCurve.Params := WCurve.mkParams
  "bls12381_g1"
  "4002409555221667393417789825735904156556882819939007885332058136124031650490837864442687629129015664037894272559787"
  "0"
  "4"
  "52435875175126190479447740508185965837690552500527637822603658699938581184513"
  "15132376222941642753"
  "0x17f1d3a73197d7942695638c4fa9ac0fc3688c4f9774b905a14e3a3f171bac586c55e83ff97a1aeffb3af00adb22c6bb"
  "0x8b3f481e3aaa0f1a09e30ed741d8ae4fcf5e095d5d00af600db18cb2c04b3edd03cc744a2888ae40caa232946c5e7e1".
Definition BLS12381G1 : out WCurve.Curve := WCurve.curve_from BLS12381G1_PARAMS.

(** weier.rs:97-106 *)
Definition BLS12381G1_11ISO_PARAMS : WCurve.Params := WCurve.mkParams
  "bls12381_g1_11iso"
  "4002409555221667393417789825735904156556882819939007885332058136124031650490837864442687629129015664037894272559787"
  "0x144698a3b8e9433d693a02c96d4982b0ea985383ee66a8d8e8981aefd881ac98936f8da0e0f97f5cf428082d584c1d"
  "0x12e2908d11688030018b12e8753eee3b2016c1f0f24f4070a0b9c14fcef35ef55a23215a316ceaa5d1cc48e98e172be0"
  "52435875175126190479447740508185965837690552500527637822603658699938581184513"
  "15132376222941642753"
  "0x6a0ead062ba73a09984eb7351a2d851bc817625345ce033a6eb7d78242b6466c877e022dda626a79ddb85bce57997e2"
  "0x3b89d8bb9326270e46b6b74e19f7b3f10082fbf1a46df72da50c6571b969afc570d6529350b1b9b05ab4fe5c29920b4".
Definition BLS12381G1_11ISO : out WCurve.Curve := WCurve.curve_from BLS12381G1_11ISO_PARAMS.

(** mont.rs:26-36 *)
Definition CURVE25519_PARAMS : MCurve.Params := MCurve.mkParams
  "curve25519"
  "57896044618658097711785492504343953926634992332820282019728792003956564819949"
  "486662"
  "1"
  "1"
  "7237005577332262213973186563042994240857116359379907606001950938285454250989"
  "8"
  "9"
  "43114425171068552920764898935933967039370386198203806730763910166200978582548".
Definition CURVE25519 : out MCurve.Curve := MCurve.curve_from CURVE25519_PARAMS.

(** mont.rs:38-48 *)
Definition CURVE448_PARAMS : MCurve.Params := MCurve.mkParams
  "curve448"
  "726838724295606890549323807888004534353641360687318060281490199180612328166730772686396383698676545930088884461843637361053498018365439"
  "156326"
  "1"
  "3"
  "181709681073901722637330951972001133588410340171829515070372549795146003961539585716195755291692375963310293709091662304773755859649779"
  "4"
  "5"
  "355293926785568175264127502063783334808976399387714271831880898435169088786967410002932673765864550910142774147268105838985595290606362".
Definition CURVE448 : out MCurve.Curve := MCurve.curve_from CURVE448_PARAMS.

(** edw.rs:26-35 *)
Definition EDWARDS25519_PARAMS : ECurve.Params := ECurve.mkParams
  "edwards25519"
  "57896044618658097711785492504343953926634992332820282019728792003956564819949"
  "-1"
  "37095705934669439343138083508754565189542113879843219016388785533085940283555"
  "7237005577332262213973186563042994240857116359379907606001950938285454250989"
  "8"
  "15112221349535400772501151409588531511454012693041857206046113283949847762202"
  "46316835694926478169428394003475163141307993866256225615783033603165251855960".
Definition EDWARDS25519 : out ECurve.Curve := ECurve.curve_from EDWARDS25519_PARAMS.

(** edw.rs:37-46 *)
Definition EDWARDS448_PARAMS : ECurve.Params := ECurve.mkParams
  "edwards448"
  "726838724295606890549323807888004534353641360687318060281490199180612328166730772686396383698676545930088884461843637361053498018365439"
  "1"
  "-39081"
  "181709681073901722637330951972001133588410340171829515070372549795146003961539585716195755291692375963310293709091662304773755859649779"
  "4"
  "224580040295924300187604334099896036246789641632564134246125461686950415467406032909029192869357953282578032075146446173674602635247710"
  "298819210078481492676017930443930673437544040154080242095928241372331506189835876003536878655418784733982303233503462500531545062832660".
Definition EDWARDS448 : out ECurve.Curve := ECurve.curve_from EDWARDS448_PARAMS.

