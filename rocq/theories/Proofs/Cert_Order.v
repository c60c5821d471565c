(** Generated by tools/genorder.py: computations behind the number of points of the shipped curves. *)
From Coq Require Import ZArith Bool List.
From Verif.Spec Require Import Isogeny.
From Verif.Proofs Require Import InstP OrderP OrderTo IsogP.
Import ListNotations.
Open Scope Z_scope.

Definition x_CURVE25519 : Z := 325606250916557431795983626356110631294008115727848805560023387167927233504.
Definition y_CURVE25519 : Z := 32026303591712962751241307547882981359278212717910236697706316503764922500307.
Definition l_CURVE25519 : list (Z * Z * Z) := [(9419646817042520280929207674573521722699544364553716324202964768580523173816, 1, 48802004052532134862652268456126542835229456083994414501085850622543968879637); (48802004052532134862652268456126542835229456083994414501085850622543968879637, 0, 0)].
Lemma double_CURVE25519 : mdch 57896044618658097711785492504343953926634992332820282019728792003956564819949 486662 x_CURVE25519 y_CURVE25519 l_CURVE25519 = true.
Proof. vm_cast_no_check (eq_refl true). Qed.
Lemma nonsq_x_CURVE25519 : nonsq_check 57896044618658097711785492504343953926634992332820282019728792003956564819949 x_CURVE25519 8 = true.
Proof. vm_cast_no_check (eq_refl true). Qed.
Lemma nonsq_a_CURVE25519 : nonsq_check 57896044618658097711785492504343953926634992332820282019728792003956564819949 (486662 * 486662 - 4) 8 = true.
Proof. vm_cast_no_check (eq_refl true). Qed.
Definition x_CURVE448 : Z := 726838724295606890549323807888004534353641360687318060281490199180612328166730772686396383698676545930088884461843637361053498018365438.
Definition y_CURVE448 : Z := 197888467295464439538354009753858038256835152591059802148199779196087404232002515713604263127793030747855424464185691766453844835192428.
Definition l_CURVE448 : list (Z * Z * Z) := [(528950257000142451010969798134146496096806208096258258133290419984524923934728256972792120570883515182233459997657945594599653183173011, 0, 0)].
Lemma double_CURVE448 : mdch 726838724295606890549323807888004534353641360687318060281490199180612328166730772686396383698676545930088884461843637361053498018365439 156326 x_CURVE448 y_CURVE448 l_CURVE448 = true.
Proof. vm_cast_no_check (eq_refl true). Qed.
Lemma nonsq_x_CURVE448 : nonsq_check 726838724295606890549323807888004534353641360687318060281490199180612328166730772686396383698676545930088884461843637361053498018365439 x_CURVE448 8 = true.
Proof. vm_cast_no_check (eq_refl true). Qed.
Lemma nonsq_a_CURVE448 : nonsq_check 726838724295606890549323807888004534353641360687318060281490199180612328166730772686396383698676545930088884461843637361053498018365439 (156326 * 156326 - 4) 8 = true.
Proof. vm_cast_no_check (eq_refl true). Qed.
Definition x_EDWARDS25519 : Z := 43496726750457979451437558183816721346016168361625936758514574428539776020131.
Definition y_EDWARDS25519 : Z := 55188659117513257062467267217118295137698188065244968500265048394206261417927.
Definition l_EDWARDS25519 : list (Z * Z) := [(19681161376707505956807079304988542015446066515923890162744021073123829784752, 0); (0, 57896044618658097711785492504343953926634992332820282019728792003956564819948)].
Lemma double_EDWARDS25519 : edch 57896044618658097711785492504343953926634992332820282019728792003956564819949 (-1) 37095705934669439343138083508754565189542113879843219016388785533085940283555 x_EDWARDS25519 y_EDWARDS25519 l_EDWARDS25519 = true.
Proof. vm_cast_no_check (eq_refl true). Qed.
Lemma nonsq_y_EDWARDS25519 : nonsq_check 57896044618658097711785492504343953926634992332820282019728792003956564819949 ((1 - y_EDWARDS25519 * y_EDWARDS25519) * ((-1) - 37095705934669439343138083508754565189542113879843219016388785533085940283555)) 8 = true.
Proof. vm_cast_no_check (eq_refl true). Qed.
Definition x_EDWARDS448 : Z := 1.
Definition y_EDWARDS448 : Z := 0.
Definition l_EDWARDS448 : list (Z * Z) := [(0, 726838724295606890549323807888004534353641360687318060281490199180612328166730772686396383698676545930088884461843637361053498018365438)].
Lemma double_EDWARDS448 : edch 726838724295606890549323807888004534353641360687318060281490199180612328166730772686396383698676545930088884461843637361053498018365439 1 (-39081) x_EDWARDS448 y_EDWARDS448 l_EDWARDS448 = true.
Proof. vm_cast_no_check (eq_refl true). Qed.
Lemma nonsq_y_EDWARDS448 : nonsq_check 726838724295606890549323807888004534353641360687318060281490199180612328166730772686396383698676545930088884461843637361053498018365439 ((1 - y_EDWARDS448 * y_EDWARDS448) * (1 - (-39081))) 8 = true.
Proof. vm_cast_no_check (eq_refl true). Qed.
Definition w_bls : Z := 793479390729215512621379701633421447060886740281060493010456487427281649075476305620758731620350.
Lemma bls_3 : wcheck 4002409555221667393417789825735904156556882819939007885332058136124031650490837864442687629129015664037894272559787 0 4 0 2 3 8 16 = true.
Proof. vm_cast_no_check (eq_refl true). Qed.
Definition xA_11 : Z := 3253033608071528083035230876039060131863417245602626450272171491216781211333398580351097532742936901381794441219000.
Definition yA_11 : Z := 263717933183042481211907471272957902390808639416329260656514385772218419238902503396669143705143038367400411614672.
Lemma bls_11_A : wcheck 4002409555221667393417789825735904156556882819939007885332058136124031650490837864442687629129015664037894272559787 0 4 xA_11 yA_11 11 8 16 = true.
Proof. vm_cast_no_check (eq_refl true). Qed.
Definition xA_10177 : Z := 3464389332827480937766014807435057935044852285110522933711016410514899835411211605230079290208829978543920141494719.
Definition yA_10177 : Z := 1929631645315477825454153000812541246262833234120002174523522998812260413651216513811227884705055946777142193737236.
Lemma bls_10177_A : wcheck 4002409555221667393417789825735904156556882819939007885332058136124031650490837864442687629129015664037894272559787 0 4 xA_10177 yA_10177 10177 8 16 = true.
Proof. vm_cast_no_check (eq_refl true). Qed.
Definition xB_10177 : Z := 229318449062663125008435815419158443358515277268714039586293332239830918986996785666495176072017203742233702416140.
Definition yB_10177 : Z := 2291933416383817474496927490140954361177797168479228281646793604636857342921995303551064639161749942969029665526304.
Lemma bls_10177_B : wcheck 4002409555221667393417789825735904156556882819939007885332058136124031650490837864442687629129015664037894272559787 0 4 xB_10177 yB_10177 10177 8 16 = true.
Proof. vm_cast_no_check (eq_refl true). Qed.
Lemma bls_10177_A_rot : wto_check 4002409555221667393417789825735904156556882819939007885332058136124031650490837864442687629129015664037894272559787 0 4 xA_10177 yA_10177 4773 (w_bls * xA_10177) yA_10177 8 16 = true.
Proof. vm_cast_no_check (eq_refl true). Qed.
Lemma bls_10177_B_rot : wto_check 4002409555221667393417789825735904156556882819939007885332058136124031650490837864442687629129015664037894272559787 0 4 xB_10177 yB_10177 5403 (w_bls * xB_10177) yB_10177 8 16 = true.
Proof. vm_cast_no_check (eq_refl true). Qed.
Definition xA_859267 : Z := 1013437851997219362449058724444168051008808714612037916795866805388830762616803638075830259758651008176945436548060.
Definition yA_859267 : Z := 3684426916834314490081888048681018087856952103078477465475275990533897313313610019560496158740015643134173930385093.
Lemma bls_859267_A : wcheck 4002409555221667393417789825735904156556882819939007885332058136124031650490837864442687629129015664037894272559787 0 4 xA_859267 yA_859267 859267 8 16 = true.
Proof. vm_cast_no_check (eq_refl true). Qed.
Definition xB_859267 : Z := 3478585190485290016123130862199762546699334829685264480056569872967615194940442575067511662220079607850524751567378.
Definition yB_859267 : Z := 3650537652720193349198509883114256977088299191288573223522026115171769516232573759885336530296148388517585755782136.
Lemma bls_859267_B : wcheck 4002409555221667393417789825735904156556882819939007885332058136124031650490837864442687629129015664037894272559787 0 4 xB_859267 yB_859267 859267 8 16 = true.
Proof. vm_cast_no_check (eq_refl true). Qed.
Lemma bls_859267_A_rot : wto_check 4002409555221667393417789825735904156556882819939007885332058136124031650490837864442687629129015664037894272559787 0 4 xA_859267 yA_859267 119571 (w_bls * xA_859267) yA_859267 8 16 = true.
Proof. vm_cast_no_check (eq_refl true). Qed.
Lemma bls_859267_B_rot : wto_check 4002409555221667393417789825735904156556882819939007885332058136124031650490837864442687629129015664037894272559787 0 4 xB_859267 yB_859267 739695 (w_bls * xB_859267) yB_859267 8 16 = true.
Proof. vm_cast_no_check (eq_refl true). Qed.
Definition xA_52437899 : Z := 2194283070177897942663790879820221169502290667910818641076796913171220397840329832269196634938524295899145666697259.
Definition yA_52437899 : Z := 1312904805961652911662134242578975939958491860963327903079056025200457627334895757975843423737639057794084328498794.
Lemma bls_52437899_A : wcheck 4002409555221667393417789825735904156556882819939007885332058136124031650490837864442687629129015664037894272559787 0 4 xA_52437899 yA_52437899 52437899 8 16 = true.
Proof. vm_cast_no_check (eq_refl true). Qed.
Definition x_T3 : Z := 120511285767916088733488444073658405736303806691529241888908097198013692928316544176832797037077148781885242038628.
Definition y_T3 : Z := 1207833824615830448340035499911984548964524621888171042044280418139442455847270641238267907187141716186022205448547.
Definition x_T121 : Z := 1762524152433862126569194335954993078291321201714691555160908960927642911464392878538989291464492147357103836554695.
Definition y_T121 : Z := 1388003132592570146599559263094574627505033499423172197864334809536682917715418814860066678382502458180097498441450.
Definition x_T11 : Z := 3447232547282837364692125741875673748077489238391001187748258124039623697289612052402753422028380156396811587142615.
Definition y_T11 : Z := 3688585499472755032730432035883680548858770893929671076807014316279509609106630354924898937615818832057595203212607.
Lemma iso_3 : wcheck 4002409555221667393417789825735904156556882819939007885332058136124031650490837864442687629129015664037894272559787 12190336318893619529228877361869031420615612348429846051986726275283378313155663745811710833465465981901188123677 2906670324641927570491258158026293881577086121416628140204402091718288198173574630967936031029026176254968826637280 x_T3 y_T3 3 8 16 = true.
Proof. vm_cast_no_check (eq_refl true). Qed.
Lemma iso_121 : wcheck 4002409555221667393417789825735904156556882819939007885332058136124031650490837864442687629129015664037894272559787 12190336318893619529228877361869031420615612348429846051986726275283378313155663745811710833465465981901188123677 2906670324641927570491258158026293881577086121416628140204402091718288198173574630967936031029026176254968826637280 x_T121 y_T121 121 8 16 = true.
Proof. vm_cast_no_check (eq_refl true). Qed.
Lemma iso_11 : wto_check 4002409555221667393417789825735904156556882819939007885332058136124031650490837864442687629129015664037894272559787 12190336318893619529228877361869031420615612348429846051986726275283378313155663745811710833465465981901188123677 2906670324641927570491258158026293881577086121416628140204402091718288198173574630967936031029026176254968826637280 x_T121 y_T121 11 x_T11 y_T11 8 16 = true.
Proof. vm_cast_no_check (eq_refl true). Qed.
Definition xA1_10177 : Z := 3158136851675199223627891513632028055966504672676215398903681663672638889197342907076818605627233197827045120433461.
Definition yA1_10177 : Z := 2002377800172134951064396949387172892202081304438607598805703425652407183346334692992754708629457273119146174293868.
Lemma iso_10177_A : wcheck 4002409555221667393417789825735904156556882819939007885332058136124031650490837864442687629129015664037894272559787 12190336318893619529228877361869031420615612348429846051986726275283378313155663745811710833465465981901188123677 2906670324641927570491258158026293881577086121416628140204402091718288198173574630967936031029026176254968826637280 xA1_10177 yA1_10177 10177 8 16 = true.
Proof. vm_cast_no_check (eq_refl true). Qed.
Lemma img_10177_A : image_check 4002409555221667393417789825735904156556882819939007885332058136124031650490837864442687629129015664037894272559787 14 iso11_bls12381g1 xA1_10177 yA1_10177 xA_10177 yA_10177 1522857818608032909569480449976150421215173938337545423987022653234259381900490701646928527263216038339836466496647 3869708127041127002563968472513469847036584108254388198710516560896355080912715890483967628978189151569480945342810 = true.
Proof. vm_cast_no_check (eq_refl true). Qed.
Definition xB1_10177 : Z := 3605433819409909412637656816093971734296770217925303786165834998214116937804499333294416821580234453818609472615550.
Definition yB1_10177 : Z := 3303789538760243712199874158447212553613192493964794484644645726097423550646669606585695913295853947522998142239238.
Lemma iso_10177_B : wcheck 4002409555221667393417789825735904156556882819939007885332058136124031650490837864442687629129015664037894272559787 12190336318893619529228877361869031420615612348429846051986726275283378313155663745811710833465465981901188123677 2906670324641927570491258158026293881577086121416628140204402091718288198173574630967936031029026176254968826637280 xB1_10177 yB1_10177 10177 8 16 = true.
Proof. vm_cast_no_check (eq_refl true). Qed.
Lemma img_10177_B : image_check 4002409555221667393417789825735904156556882819939007885332058136124031650490837864442687629129015664037894272559787 14 iso11_bls12381g1 xB1_10177 yB1_10177 xB_10177 yB_10177 1061112648648622013985250927584645565879906470751752666063624749168128112002046361544394956404215073556681761586947 2722254026014145360831549375049789033361567781140067411163795039212617047681452305499878800321338751056942262248749 = true.
Proof. vm_cast_no_check (eq_refl true). Qed.
Definition xA1_859267 : Z := 2063111111867032781566320372261142702010511184129642730693028111081554704782261026202531293889481905750609323840501.
Definition yA1_859267 : Z := 2849151620303852012729531379036622248411494144049922707519311147590029244913775220245366818283325589001173516169797.
Lemma iso_859267_A : wcheck 4002409555221667393417789825735904156556882819939007885332058136124031650490837864442687629129015664037894272559787 12190336318893619529228877361869031420615612348429846051986726275283378313155663745811710833465465981901188123677 2906670324641927570491258158026293881577086121416628140204402091718288198173574630967936031029026176254968826637280 xA1_859267 yA1_859267 859267 8 16 = true.
Proof. vm_cast_no_check (eq_refl true). Qed.
Lemma img_859267_A : image_check 4002409555221667393417789825735904156556882819939007885332058136124031650490837864442687629129015664037894272559787 14 iso11_bls12381g1 xA1_859267 yA1_859267 xA_859267 yA_859267 2245105973707328780507064309317678361020267863440415761659749514795510552677990596933637382469604422731473156567988 2275178312919267938182324012516538397172281523123930965506490701705705527407563715856382674427988578913214995512407 = true.
Proof. vm_cast_no_check (eq_refl true). Qed.
Definition xB1_859267 : Z := 1516223624751374828326456882613875429743626157282401730464513587067249818886149979960335533333558398331038925526519.
Definition yB1_859267 : Z := 1162356089824479624234477604394811008078022276057951418705882051972965806618286699875645893851706074484370023666970.
Lemma iso_859267_B : wcheck 4002409555221667393417789825735904156556882819939007885332058136124031650490837864442687629129015664037894272559787 12190336318893619529228877361869031420615612348429846051986726275283378313155663745811710833465465981901188123677 2906670324641927570491258158026293881577086121416628140204402091718288198173574630967936031029026176254968826637280 xB1_859267 yB1_859267 859267 8 16 = true.
Proof. vm_cast_no_check (eq_refl true). Qed.
Lemma img_859267_B : image_check 4002409555221667393417789825735904156556882819939007885332058136124031650490837864442687629129015664037894272559787 14 iso11_bls12381g1 xB1_859267 yB1_859267 xB_859267 yB_859267 494876652486075065293914023872810424593384391378477946243621160742595615587280724813053774590918497330471490977588 2572465013966269220369851866246979438285302787750913939207813858759146006011623078294608871396112357840072055247041 = true.
Proof. vm_cast_no_check (eq_refl true). Qed.
Definition xA1_52437899 : Z := 2831948630229104264253477925991998602645246409196437377450585438649414667644213985307544447321319320116010897986531.
Definition yA1_52437899 : Z := 3300517588017356543961474821413748804612885190568965380634833982162150389288947935292646641389441311713902640314174.
Lemma iso_52437899_A : wcheck 4002409555221667393417789825735904156556882819939007885332058136124031650490837864442687629129015664037894272559787 12190336318893619529228877361869031420615612348429846051986726275283378313155663745811710833465465981901188123677 2906670324641927570491258158026293881577086121416628140204402091718288198173574630967936031029026176254968826637280 xA1_52437899 yA1_52437899 52437899 8 16 = true.
Proof. vm_cast_no_check (eq_refl true). Qed.
Lemma img_52437899_A : image_check 4002409555221667393417789825735904156556882819939007885332058136124031650490837864442687629129015664037894272559787 14 iso11_bls12381g1 xA1_52437899 yA1_52437899 xA_52437899 yA_52437899 3881517794672890813216425752882872424736542574586487149378192276365818912464328805214986690679715554703580538749874 2828295774565071788915737536559782899702930582710703305003515560208447933578668555663691001080956487312456452543160 = true.
Proof. vm_cast_no_check (eq_refl true). Qed.
Definition xB1_52437899 : Z := 3140240144795994312269725189532123139887181564434768571348884125814244999524472868267406473512796218415617688418109.
Definition yB1_52437899 : Z := 3224104206716464139294458142442976400372997796694811545428387794394617598817802336842533447061528588060293107419540.
Lemma iso_52437899_B : wcheck 4002409555221667393417789825735904156556882819939007885332058136124031650490837864442687629129015664037894272559787 12190336318893619529228877361869031420615612348429846051986726275283378313155663745811710833465465981901188123677 2906670324641927570491258158026293881577086121416628140204402091718288198173574630967936031029026176254968826637280 xB1_52437899 yB1_52437899 52437899 8 16 = true.
Proof. vm_cast_no_check (eq_refl true). Qed.
Definition xB_52437899 : Z := 1533136587837564579748324776378349503808514702309443997645527829262697118136027651960565151793342427015256933857913.
Lemma img_52437899_B : image_check 4002409555221667393417789825735904156556882819939007885332058136124031650490837864442687629129015664037894272559787 14 iso11_bls12381g1 xB1_52437899 yB1_52437899 xB_52437899 yA_52437899 1811654115995504920713056827640994983696277278905778626322463847395421111896483103123593051673194785581246801180133 627994609156494281920523470661543219970670823502034005758841184471450787728222440075216759690066281251512701609536 = true.
Proof. vm_cast_no_check (eq_refl true). Qed.
