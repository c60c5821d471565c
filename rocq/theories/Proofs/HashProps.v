(** C58: from a field element to the subgroup: the maps followed by the multiplication by the cofactor. *)
From Coq Require Import ZArith Znumtheory Lia String Ascii Bool List.
From Verif.Math Require Import Fld Zp Residue.
From Verif.Spec Require Import Arith Curve Isogeny.
From Verif.Spec Require Instances Maps.
From Verif.Model Require Import Out BigInt PrimeField Scalar RationalMaps CurveExtras.
From Verif.Model Require Instances Maps.
From Verif.Model Require WCurve MCurve ECurve.
From Verif.Proofs Require Import FieldP FieldProps CurveP.
From Verif.Proofs Require WeierProps MontProps EdwProps MapsProps InstShip InstProps IsogProps RatProps Rat4Props EdEllProps OrderRun OrderProps Cert_Hash Cert_Ell.
From Verif.Math Require Prime_p25519 Prime_p448.
From Verif.Spec Require Export Shipped.
Import Spec.Instances Model.Instances Model.Maps.
Import ListNotations.
Open Scope Z_scope.

Lemma w_land X s e P A : Shipped.w_cleared X s -> X = Ret e -> WPoints.wpoint e P A -> w_lands e (Ret P).
Proof.
  intros (e' & G & k & HX & Er & _ & EG & Ek & H) HX' HP. rewrite HX in HX'. injection HX' as <-. exists P, G, k.
  split; [reflexivity|]. split; [exists A; exact HP|]. split; [exact EG|]. split; [exact Ek|]. intro oc. rewrite Er. exact (H oc P A HP).
Qed.
Lemma m_land X s e P A : Shipped.m_cleared X s -> X = Ret e -> MPoints.mpoint e P A -> m_lands e (Ret P).
Proof.
  intros (e' & G & k & HX & Er & _ & EG & Ek & H) HX' HP. rewrite HX in HX'. injection HX' as <-. exists P, G, k.
  split; [reflexivity|]. split; [exists A; exact HP|]. split; [exact EG|]. split; [exact Ek|]. intro oc. rewrite Er. exact (H oc P A HP).
Qed.
Lemma e_land X s e P A : Shipped.e_cleared X s -> X = Ret e -> EPoints.epoint e P A -> e_lands e (Ret P).
Proof.
  intros (e' & G & k & HX & Er & _ & EG & Ek & H) HX' HP. rewrite HX in HX'. injection HX' as <-. exists P, G, k.
  split; [reflexivity|]. split; [exists A; exact HP|]. split; [exact EG|]. split; [exact Ek|]. intro oc. rewrite Er. exact (H oc P A HP).
Qed.
Lemma wfield_of e : WPoints.wgroup e -> Morphisms.wfield e.
Proof. intros ((Hp & H2 & Va & Vb & _) & S & _). exact (conj Hp (conj H2 (conj S (conj Va Vb)))). Qed.
Lemma mfield_of e : MPoints.mgroup e -> Morphisms.mfield e.
Proof. intros ((Hp & H2 & Va & Vb & _) & S & _). exact (conj Hp (conj H2 (conj S (conj Va Vb)))). Qed.
Lemma hashes_of X s : Shipped.w_shipped X s -> Shipped.w_cleared X s -> w_hashes X.
Proof.
  intros (e & HX & _ & _ & _ & _ & _ & _ & _ & W & _) HC. exists e. split; [exact HX|]. intros z u p Vz Vu. split; intros m Em.
  - destruct (MapsProps.c40_on_curve e z u m (wfield_of e W) Vz Vu Em) as (P & x & y & -> & HP & _). exact (w_land X s e P _ HC HX HP).
  - destruct (MapsProps.c41_on_curve e z u m (wfield_of e W) Vz Vu Em) as (P & x & y & -> & HP & _). exact (w_land X s e P _ HC HX HP).
Qed.
Lemma from_int_is F k : 0 < modulus F -> from_int F k = Ret (mkFpElt (k mod modulus F) F).
Proof. intro H. unfold from_int, elt, mod_floor. destruct (Z.eqb_spec (modulus F) 0); [lia|]. reflexivity. Qed.
Lemma valid_in F v : 0 <= v < modulus F -> valid (modulus F) (mkFpElt v F).
Proof. intro H. split; [cbn; destruct F; reflexivity|exact H]. Qed.
Lemma from_int_valid F k : 0 < modulus F -> valid (modulus F) (mkFpElt (k mod modulus F) F).
Proof. intro H. split; [cbn; destruct F; reflexivity|]. cbn [val]. apply Z.mod_pos_bound, H. Qed.
Lemma sswu_accept X s z p a b zl : Shipped.w_shipped X s -> Shipped.w_cleared X s ->
  w_p s = p -> w_a s mod p = a -> w_b s mod p = b -> z mod p = zl ->
  (prime p -> Verif.Spec.Maps.sswu_params p a b zl) -> sswu_ok X z.
Proof.
  intros HS HC Ep Ea Eb Ez H. pose proof HS as (e & HX & p0 & a0 & b0 & _ & _ & Hp & _ & W & _).
  destruct (hashes_of X s HS HC) as (e' & HX' & HH). rewrite HX in HX'. injection HX' as <-.
  rewrite Ep in *. specialize (H Hp). assert (P0 : 0 < modulus (WCurve.c_f e)) by (rewrite p0; destruct Hp; lia).
  pose proof (from_int_valid (WCurve.c_f e) z P0) as V.
  destruct (proj1 (MapsProps.c40_new e _ (wfield_of e W) V)) as (m & Em).
  { cbn [val]. rewrite p0, a0, b0, Ea, Eb, Ez. exact H. }
  exists e, (mkFpElt (z mod modulus (WCurve.c_f e)) (WCurve.c_f e)), m. split; [exact HX|]. split; [apply from_int_is, P0|]. split; [exact Em|].
  intros u Vu. exact (proj1 (HH _ u V Vu) m Em).
Qed.
Lemma svdw_accept X s z p a b zl : Shipped.w_shipped X s -> Shipped.w_cleared X s ->
  w_p s = p -> w_a s mod p = a -> w_b s mod p = b -> z mod p = zl ->
  (prime p -> Verif.Spec.Maps.svdw_params p a b zl) -> svdw_ok X z.
Proof.
  intros HS HC Ep Ea Eb Ez H. pose proof HS as (e & HX & p0 & a0 & b0 & _ & _ & Hp & _ & W & _).
  destruct (hashes_of X s HS HC) as (e' & HX' & HH). rewrite HX in HX'. injection HX' as <-.
  rewrite Ep in *. specialize (H Hp). assert (P0 : 0 < modulus (WCurve.c_f e)) by (rewrite p0; destruct Hp; lia).
  pose proof (from_int_valid (WCurve.c_f e) z P0) as V.
  destruct (proj1 (MapsProps.c41_new e _ (wfield_of e W) V)) as (m & Em).
  { cbn [val]. rewrite p0, a0, b0, Ea, Eb, Ez. exact H. }
  exists e, (mkFpElt (z mod modulus (WCurve.c_f e)) (WCurve.c_f e)), m. split; [exact HX|]. split; [apply from_int_is, P0|]. split; [exact Em|].
  intros u Vu. exact (proj2 (HH _ u V Vu) m Em).
Qed.
(** congruent coefficients *)
Lemma cubic_congr p a b z a' z' : (p | a - a') -> (p | z - z') -> (p | Verif.Spec.Maps.cubic a b z - Verif.Spec.Maps.cubic a' b z').
Proof.
  intros Da Dz. unfold Verif.Spec.Maps.cubic. replace (z * z * z + a * z + b - (z' * z' * z' + a' * z' + b)) with ((z - z') * (z * z + z * z' + z' * z' + a) + (a - a') * z') by ring.
  apply Z.divide_add_r; apply Z.divide_mul_l; assumption.
Qed.
Lemma eqm_div p x y : (p | x - y) -> (p | y) -> (p | x).
Proof. intros D E. replace x with ((x - y) + y) by ring. apply Z.divide_add_r; assumption. Qed.
Lemma eqm_sym p x y : (p | x - y) -> (p | y - x).
Proof. intro D. replace (y - x) with (- (x - y)) by ring. apply Z.divide_opp_r, D. Qed.
(** SVDW's conditions from a root w of v = -h/(4 g) and a root r of g, with small representatives of a and z *)
Lemma svdw_by_root p a b z a' z' g v w r : prime p -> (p | a - a') -> (p | z - z') -> Verif.Spec.Maps.cubic a' b z' = g ->
  ~ (p | 4 * g) -> ~ (p | 3 * (z' * z') + 4 * a') -> (p | w * w - v) ->
  (p | v * (4 * g) + (3 * (z' * z') + 4 * a')) -> (p | r * r - g) -> Verif.Spec.Maps.svdw_params p a b z.
Proof.
  intros Hp Da Dz Eg N4 Nh Hw Hv Hr. pose proof (cubic_congr p a b z a' z' Da Dz) as Dg. rewrite Eg in Dg.
  assert (Dh : (p | 3 * (z * z) + 4 * a - (3 * (z' * z') + 4 * a'))).
  { replace (3 * (z * z) + 4 * a - (3 * (z' * z') + 4 * a')) with ((z - z') * (3 * (z + z')) + (a - a') * 4) by ring.
    apply Z.divide_add_r; apply Z.divide_mul_l; assumption. }
  split. { intro D. apply N4. apply Z.divide_mul_r. exact (eqm_div _ _ _ (eqm_sym _ _ _ Dg) D). }
  split. { intro D. apply Nh. exact (eqm_div _ _ _ (eqm_sym _ _ _ Dh) D). }
  split. 2:{ left. exists r. set (c := Verif.Spec.Maps.cubic a b z) in *. replace (r * r - c) with ((r * r - g) - (c - g)) by ring. apply Z.divide_sub_r; assumption. }
  intros v' Hv'. exists w. set (c := Verif.Spec.Maps.cubic a b z) in *. set (h := 3 * (z * z) + 4 * a) in *. set (h' := 3 * (z' * z') + 4 * a') in *.
  assert (D : (p | (v - v') * (4 * g))).
  { replace ((v - v') * (4 * g)) with ((v * (4 * g) + h') - (v' * (4 * c) + h) + (c - g) * (4 * v') + (h - h')) by ring.
    apply Z.divide_add_r; [apply Z.divide_add_r; [apply Z.divide_sub_r; assumption|apply Z.divide_mul_l; exact Dg]|exact Dh]. }
  apply (prime_mult p Hp) in D. destruct D as [D|D]; [|contradiction].
  replace (w * w - v') with ((w * w - v) + (v - v')) by ring. apply Z.divide_add_r; assumption.
Qed.
(** SSWU's conditions in the same way *)
Lemma sswu_by_root p a b z a' z' x0 t g r : prime p -> (p | a - a') -> (p | z - z') -> ~ (p | a') -> ~ (p | b) -> ~ square_mod p z' ->
  ~ (p | z' + 1) -> ~ (p | z' * a') -> (p | x0 * (z' * a') - b) -> (p | x0 * x0 - t) -> (p | x0 * t + a' * x0 + b - g) -> (p | r * r - g) ->
  Verif.Spec.Maps.sswu_params p a b z.
Proof.
  intros Hp Da Dz Na Nb Nz N1 Nza Hx Ht Hg Hr.
  assert (Dza : (p | z * a - z' * a')).
  { replace (z * a - z' * a') with ((z - z') * a + (a - a') * z') by ring. apply Z.divide_add_r; apply Z.divide_mul_l; assumption. }
  apply (IsogProps.params_by_root p a b z x0 r Hp).
  - intro D. exact (Na (eqm_div _ _ _ (eqm_sym _ _ _ Da) D)).
  - exact Nb.
  - intros [y D]. apply Nz. exists y. replace (y * y - z') with ((y * y - z) + (z - z')) by ring. apply Z.divide_add_r; assumption.
  - intro D. apply N1. replace (z' + 1) with ((z + 1) - (z - z')) by ring. apply Z.divide_sub_r; assumption.
  - intro D. exact (Nza (eqm_div _ _ _ (eqm_sym _ _ _ Dza) D)).
  - replace (x0 * (z * a) - b) with ((x0 * (z' * a') - b) + (z * a - z' * a') * x0) by ring. apply Z.divide_add_r; [exact Hx|apply Z.divide_mul_l, Dza].
  - replace (r * r - (x0 * x0 * x0 + a * x0 + b)) with ((r * r - g) - (x0 * t + a' * x0 + b - g) - (x0 * x0 - t) * x0 - (a - a') * x0) by ring.
    apply Z.divide_sub_r; [apply Z.divide_sub_r; [apply Z.divide_sub_r; assumption|]|]; apply Z.divide_mul_l; assumption.
Qed.

Ltac done_vm := vm_compute; reflexivity.
Lemma ndiv p v q r : v = q * p + r -> (0 <? r) && (r <? p) = true -> ~ (p | v).
Proof.
  intros E H D. apply andb_true_iff in H. rewrite !Z.ltb_lt in H. apply Z.mod_divide in D; [|lia].
  rewrite E, Z.add_comm, Z.mod_add, Z.mod_small in D by lia. lia.
Qed.
Ltac num := first [split; [vm_compute; discriminate|vm_compute; reflexivity] | apply Z.mod_divide; [vm_compute; discriminate|vm_compute; reflexivity]].
Lemma sswu_P256 : sswu_ok P256 (-10).
Proof.
  apply (sswu_accept P256 std_P256 (-10) 115792089210356248762697446949407573530086143415290314195533631308867097853951 115792089210356248762697446949407573530086143415290314195533631308867097853948 41058363725152142129326129780047268409114441015993725554835256314039467401291 115792089210356248762697446949407573530086143415290314195533631308867097853941 InstProps.c48_P256 (proj2 OrderProps.c55_P256)); [done_vm..|].
  intro Hp. apply (sswu_by_root _ _ _ _ (-3) (-10) 74703601957397362287352587393959705516025038863550323175665808372750477554212
    83816614100926359715095425740742497028138654070716048425257700081814476110422 48268962033467940869496798614084223144535081757714431741753369719389598262662
    6501495017824578668815466053538685894748441653268928328498100493089435342678 Hp);
    [exists (1); done_vm|exists (1); done_vm|apply (ndiv _ _ (-1) 115792089210356248762697446949407573530086143415290314195533631308867097853948); done_vm|apply (ndiv _ _ (0) 41058363725152142129326129780047268409114441015993725554835256314039467401291); done_vm
    |exact (IsogProps.not_square _ Hp _ _ Cert_Hash.nonsq_P256)|apply (ndiv _ _ (-1) 115792089210356248762697446949407573530086143415290314195533631308867097853942); done_vm|apply (ndiv _ _ (0) 30); done_vm
    |exists (19); done_vm
    |exists (48195245318279835203526528292858404667613477210264650863621929425071056823622); done_vm
    |exists (54074531515166516768620446455373671349804602866744693113228379524686520785807); done_vm
    |exists (365045986777284189925873655354868862446485916314856837140398885577064617122); done_vm].
Qed.
Lemma svdw_P256 : svdw_ok P256 (-3).
Proof.
  apply (svdw_accept P256 std_P256 (-3) 115792089210356248762697446949407573530086143415290314195533631308867097853951 115792089210356248762697446949407573530086143415290314195533631308867097853948 41058363725152142129326129780047268409114441015993725554835256314039467401291 115792089210356248762697446949407573530086143415290314195533631308867097853948 InstProps.c48_P256 (proj2 OrderProps.c55_P256)); [done_vm..|].
  intro Hp. apply (svdw_by_root _ _ _ _ (-3) (-3) (41058363725152142129326129780047268409114441015993725554835256314039467401273) 22536109012023733609367380356305376170740719291817417571733848171502959499506
    43491152706261498489255961619992938738496900510548942315972257311582862756513
    11508551065151498768481026661199445482476508121209842448718573150489103679777 Hp);
    [exists (1); done_vm|exists (1); done_vm|done_vm|apply (ndiv _ _ (1) 48441365690252319754607072170781500106371620648684588023807393947290771751141); done_vm|apply (ndiv _ _ (0) 15); done_vm
    |exists (16335143243535034661840800197671915840397321153149277558406122589406868283313); done_vm
    |exists (31964040620577822874131561671591854993131276510341658718328537274664477837417); done_vm
    |exists (1143832437279781662220911232802179936465325365962884963042106501276668107256); done_vm].
Qed.
Lemma sswu_P384 : sswu_ok P384 (-12).
Proof.
  apply (sswu_accept P384 std_P384 (-12) 39402006196394479212279040100143613805079739270465446667948293404245721771496870329047266088258938001861606973112319 39402006196394479212279040100143613805079739270465446667948293404245721771496870329047266088258938001861606973112316 27580193559959705877849011840389048093056905856361568521428707301988689241309860865136260764883745107765439761230575 39402006196394479212279040100143613805079739270465446667948293404245721771496870329047266088258938001861606973112307 InstProps.c48_P384 (proj2 OrderProps.c55_P384)); [done_vm..|].
  intro Hp. apply (sswu_by_root _ _ _ _ (-3) (-12) 12805618381119416033692179248388022220803723273096707829690553743019211909104873180129338548214779531340086568485169
    17666129983596728011089912731699952892654976169286113682008227937857125616848154286018500246114130116932279148319564 28542978287876942973562823745003461717092877343570260561191174402451453286360431555141631657492701660048107280050259
    37561047755030469683523571075854451141166426459879495640879726933488836242211037541742600528865780251189269636994147 Hp);
    [exists (1); done_vm|exists (1); done_vm|apply (ndiv _ _ (-1) 39402006196394479212279040100143613805079739270465446667948293404245721771496870329047266088258938001861606973112316); done_vm|apply (ndiv _ _ (0) 27580193559959705877849011840389048093056905856361568521428707301988689241309860865136260764883745107765439761230575); done_vm
    |exact (IsogProps.not_square _ Hp _ _ Cert_Hash.nonsq_P384)|apply (ndiv _ _ (-1) 39402006196394479212279040100143613805079739270465446667948293404245721771496870329047266088258938001861606973112308); done_vm|apply (ndiv _ _ (0) 36); done_vm
    |exists (11); done_vm
    |exists (4161815043262161715161984875244621804580987789423355079185175113234346286693964006036941369096085130299546832349163); done_vm
    |exists (5741477165238660440470042920347689569367265894403963214626701870697011844154791072878998144477898947449512992768875); done_vm
    |exists (35806103410662859513870372677966453569839305047853175686717633447849417496885654371729446364497383955710361466800650); done_vm].
Qed.
Lemma svdw_P384 : svdw_ok P384 (-1).
Proof.
  apply (svdw_accept P384 std_P384 (-1) 39402006196394479212279040100143613805079739270465446667948293404245721771496870329047266088258938001861606973112319 39402006196394479212279040100143613805079739270465446667948293404245721771496870329047266088258938001861606973112316 27580193559959705877849011840389048093056905856361568521428707301988689241309860865136260764883745107765439761230575 39402006196394479212279040100143613805079739270465446667948293404245721771496870329047266088258938001861606973112318 InstProps.c48_P384 (proj2 OrderProps.c55_P384)); [done_vm..|].
  intro Hp. apply (svdw_by_root _ _ _ _ (-3) (-1) (27580193559959705877849011840389048093056905856361568521428707301988689241309860865136260764883745107765439761230577) 5985743936669288264390345385957640415712149589115868310170738179188760336396172947706213327324391815226429114174750
    8822828385931971642506308219222188804258996102473179961253526374706025211990884217188924355702575283714991594919244
    21681852531585316925894945332125427005502372792509359383719709649357747728024753896514285470637296509030393371165260 Hp);
    [exists (1); done_vm|exists (1); done_vm|done_vm|apply (ndiv _ _ (2) 31516761847049865086837967161268964762068144884515380749818242399463313422245702802450510883017104427338545098697670); done_vm|apply (ndiv _ _ (-1) 39402006196394479212279040100143613805079739270465446667948293404245721771496870329047266088258938001861606973112310); done_vm
    |exists (1975592317295001063092492415324316551964457813426032242034093516528031676916925678616273628660430856673413876465294); done_vm
    |exists (16759347283063034033673456149928164063177991067618350345399828737181888545270611824922732914136447365735072741321489); done_vm
    |exists (11930933842765342402556686876180017601121975362403959987508354030249632433066529120604938110394469193932406822200417); done_vm].
Qed.
Lemma sswu_P521 : sswu_ok P521 (-4).
Proof.
  apply (sswu_accept P521 std_P521 (-4) 6864797660130609714981900799081393217269435300143305409394463459185543183397656052122559640661454554977296311391480858037121987999716643812574028291115057151 6864797660130609714981900799081393217269435300143305409394463459185543183397656052122559640661454554977296311391480858037121987999716643812574028291115057148 1093849038073734274511112390766805569936207598951683748994586394495953116150735016013708737573759623248592132296706313309438452531591012912142327488478985984 6864797660130609714981900799081393217269435300143305409394463459185543183397656052122559640661454554977296311391480858037121987999716643812574028291115057147 InstProps.c48_P521 (proj2 OrderProps.c55_P521)); [done_vm..|].
  intro Hp. apply (sswu_by_root _ _ _ _ (-3) (-4) 2379419973216347761203226298924364869917829066627075448881036685936510487478446602041995608351631486929814781488552478788160533710871465680203203387744934549
    3486869672899293929553539188954598724861187963918853068327590457058750680732725464511969481821663350507787868632321498588459149463535187726934458631858035438 2866404056905537655713842593438850394855196467556453472050321059602993038832428594236816005536180679579541704034588783825822692481790936474342307927333092540
    4188908791901337644056397817783792572876836449495258060969526555609398613698955607791458766794689806573214219675396443069584436669967806295120330080081548533 Hp);
    [exists (1); done_vm|exists (1); done_vm|apply (ndiv _ _ (-1) 6864797660130609714981900799081393217269435300143305409394463459185543183397656052122559640661454554977296311391480858037121987999716643812574028291115057148); done_vm|apply (ndiv _ _ (0) 1093849038073734274511112390766805569936207598951683748994586394495953116150735016013708737573759623248592132296706313309438452531591012912142327488478985984); done_vm
    |exact (IsogProps.not_square _ Hp _ _ Cert_Hash.nonsq_P521)|apply (ndiv _ _ (-1) 6864797660130609714981900799081393217269435300143305409394463459185543183397656052122559640661454554977296311391480858037121987999716643812574028291115057148); done_vm|apply (ndiv _ _ (0) 12); done_vm
    |exists (4); done_vm
    |exists (824735074395938814063451706940842506332832287414018667305634254698740082704116961090934574765644770360281294548748469581637908013759239021071636187659305013); done_vm
    |exists (1208590224280708022527982204228355162620518847167774702820032258423099810826799296256685289985760510326181939816137003908486034662708410211253450042977137909); done_vm
    |exists (2556077795093304388991685891428176090337337995169956299714951442809550835543485306315837362922073247569771908749030063928589415291568978372912826192560261699); done_vm].
Qed.
Lemma svdw_P521 : svdw_ok P521 (1).
Proof.
  apply (svdw_accept P521 std_P521 (1) 6864797660130609714981900799081393217269435300143305409394463459185543183397656052122559640661454554977296311391480858037121987999716643812574028291115057151 6864797660130609714981900799081393217269435300143305409394463459185543183397656052122559640661454554977296311391480858037121987999716643812574028291115057148 1093849038073734274511112390766805569936207598951683748994586394495953116150735016013708737573759623248592132296706313309438452531591012912142327488478985984 1 InstProps.c48_P521 (proj2 OrderProps.c55_P521)); [done_vm..|].
  intro Hp. apply (svdw_by_root _ _ _ _ (-3) (1) (1093849038073734274511112390766805569936207598951683748994586394495953116150735016013708737573759623248592132296706313309438452531591012912142327488478985982) 1093462204868516441508921472894072935485699650382965223908098481717110780697718125055465770636175288053631069238391653351409183398756010268140553442965584610
    1468200782941481049154565310481256812777739088224694417187696535085594749795261123836896851655453110596294839996450359383401987567171399944692443509900877427
    226550527432254644762927155718498869710358906817053425319320865507781004639099725838657309164078643711530506222673069010331048069570407113457901669103973732 Hp);
    [exists (1); done_vm|exists (0); done_vm|done_vm|apply (ndiv _ _ (0) 4375396152294937098044449563067222279744830395806734995978345577983812464602940064054834950295038492994368529186825253237753810126364051648569309953915943928); done_vm|apply (ndiv _ _ (-1) 6864797660130609714981900799081393217269435300143305409394463459185543183397656052122559640661454554977296311391480858037121987999716643812574028291115057142); done_vm
    |exists (314009770681131076986472819279222030129079068997664372475765994711128767200267090851343343199091715343083955626927130262925889639803993857567282939799917369); done_vm
    |exists (696936830585421559657291125590787243448601972095154202887003769954902000628010425990404326270159391620961143088881408203245102851478929072021000887051312921); done_vm
    |exists (7476570180344725794150347762551141483112011605351291728608135211569540544289603030586357681014917903605758448281365545991068085764793482025344778462146542); done_vm].
Qed.
Lemma svdw_SECP256K1 : svdw_ok SECP256K1 (1).
Proof.
  apply (svdw_accept SECP256K1 std_SECP256K1 (1) 115792089237316195423570985008687907853269984665640564039457584007908834671663 0 7 1 InstProps.c48_SECP256K1 (proj2 OrderProps.c55_SECP256K1)); [done_vm..|].
  intro Hp. apply (svdw_by_root _ _ _ _ (0) (1) (8) 47040536252659704390825712659779462565390931270416479141029643503212964085363
    101967376812234543494332452671778406141923406480414602647049640722293978801898
    29896722852569046015560700294576055776214335159245303116488692907525646231534 Hp);
    [exists (0); done_vm|exists (0); done_vm|done_vm|apply (ndiv _ _ (0) 32); done_vm|apply (ndiv _ _ (0) 3); done_vm
    |exists (89793232011375480559377612522368242866715125593461448063229369584737270195807); done_vm
    |exists (13); done_vm
    |exists (7719128683233705066404389367829327015248518908378223810281666465860726814596); done_vm].
Qed.
Lemma svdw_BLS12381G1 : svdw_ok BLS12381G1 (-3).
Proof.
  apply (svdw_accept BLS12381G1 std_BLS12381G1 (-3) 4002409555221667393417789825735904156556882819939007885332058136124031650490837864442687629129015664037894272559787 0 4 4002409555221667393417789825735904156556882819939007885332058136124031650490837864442687629129015664037894272559784 InstProps.c48_BLS12381G1 (proj2 OrderProps.c55_BLS12381G1)); [done_vm..|].
  intro Hp. apply (svdw_by_root _ _ _ _ (0) (-3) (-23) 826584582056648700814543550967197597549791017161316845883794615069093493036151298091424619059253234964347730202565
    306141106518485244952729951289168410646462384750343538101413378930838571495189331917971540537515360243210106411047
    1445238620174730376695666642057771941346970416888668529992287870312058246844524108040535379023323391097837396974497 Hp);
    [exists (0); done_vm|exists (1); done_vm|done_vm|apply (ndiv _ _ (-1) 4002409555221667393417789825735904156556882819939007885332058136124031650490837864442687629129015664037894272559695); done_vm|apply (ndiv _ _ (0) 27); done_vm
    |exists (23416488444589438569171200876293880513547455993956356689594619571883246080648165271338925673059104440013776212612); done_vm
    |exists (-19); done_vm
    |exists (521864302097609368075329423415450787156956181503468417975456846685620791336665928640619062697902801393352540656136); done_vm].
Qed.

(** SSWU and SVDW on the curves whose cofactor clears *)
Lemma c58_weierstrass : Forall w_hashes [P256; P384; P521; SECP256K1; SECP256K1_3ISO; BLS12381G1].
Proof.
  constructor; [exact (hashes_of _ _ InstProps.c48_P256 (proj2 OrderProps.c55_P256))|].
  constructor; [exact (hashes_of _ _ InstProps.c48_P384 (proj2 OrderProps.c55_P384))|].
  constructor; [exact (hashes_of _ _ InstProps.c48_P521 (proj2 OrderProps.c55_P521))|].
  constructor; [exact (hashes_of _ _ InstProps.c48_SECP256K1 (proj2 OrderProps.c55_SECP256K1))|].
  constructor; [exact (hashes_of _ _ InstProps.c48_SECP256K1_3ISO (proj2 OrderProps.c55_SECP256K1_3ISO))|].
  constructor; [exact (hashes_of _ _ InstProps.c48_BLS12381G1 (proj2 OrderProps.c55_BLS12381G1))|]. constructor.
Qed.

(** the parameters of RFC 9380, section 8, for SSWU *)
Lemma c58_rfc9380_sswu : sswu_ok P256 (-10) /\ sswu_ok P384 (-12) /\ sswu_ok P521 (-4).
Proof. exact (conj sswu_P256 (conj sswu_P384 sswu_P521)). Qed.

(** and the smallest parameters for SVDW *)
Lemma c58_rfc9380_svdw : svdw_ok P256 (-3) /\ svdw_ok P384 (-1) /\ svdw_ok P521 1 /\ svdw_ok SECP256K1 1 /\ svdw_ok BLS12381G1 (-3).
Proof. exact (conj svdw_P256 (conj svdw_P384 (conj svdw_P521 (conj svdw_SECP256K1 svdw_BLS12381G1)))). Qed.

(** SSWU through the 3-isogeny, onto secp256k1 *)
Lemma c58_secp256k1 : forall m z s u, get_isogeny_secp256k1 = Ret m -> valid (modulus (WCurve.c_f (iso_e0 m))) z ->
  valid (modulus (WCurve.c_f (iso_e0 m))) u -> sswuab0_new (iso_e1 m) z m = Ret s ->
  SECP256K1 = Ret (iso_e1 m) /\ w_lands (iso_e1 m) (sswuab0_map s u).
Proof.
  intros m z s u Em Vz Vu Es. destruct (IsogProps.c47_secp256k1 m _ z s u Em Vz Vu Es) as (x & y & Q & X & Y & _ & -> & HQ & _).
  destruct IsogProps.c45_shipped as (m' & Em' & _ & E1 & _). rewrite Em in Em'. injection Em' as <-. split; [exact E1|].
  exact (w_land _ _ _ _ _ (proj2 OrderProps.c55_SECP256K1) E1 HQ).
Qed.

(** SSWU through the 11-isogeny, onto BLS12-381 G1: it lands exactly when the SSWU point is outside the kernel *)
Lemma c58_bls12381g1 : forall m z s u, get_isogeny_bls12381g1 = Ret m -> valid (modulus (WCurve.c_f (iso_e0 m))) z ->
  valid (modulus (WCurve.c_f (iso_e0 m))) u -> sswuab0_new (iso_e1 m) z m = Ret s ->
  BLS12381G1 = Ret (iso_e1 m)
  /\ exists x y, Verif.Spec.Maps.sswu_point (modulus (WCurve.c_f (iso_e0 m))) (val (WCurve.c_a (iso_e0 m))) (val (WCurve.c_b (iso_e0 m))) (val z) (val u) x y
    /\ (w_lands (iso_e1 m) (sswuab0_map s u) <-> ~ In x kernel11)
    /\ (In x kernel11 -> sswuab0_map s u = Panic "not valid point").
Proof.
  intros m z s u Em Vz Vu Es. destruct (IsogProps.c47_bls12381g1 m _ z s u Em Vz Vu Es) as (x & y & S & H1 & H2).
  destruct IsogProps.bls_full as (m' & Em' & _ & E1 & _). rewrite Em in Em'. injection Em' as <-. split; [exact E1|].
  exists x, y. split; [exact S|]. split; [|exact H2]. split.
  - intros (P & G & k & EP & _) I. rewrite (H2 I) in EP. discriminate.
  - intro N. destruct (H1 N) as (Q & X & Y & -> & HQ & _). exact (w_land _ _ _ _ _ (proj2 OrderProps.c55_BLS12381G1) E1 HQ).
Qed.

Lemma m_hashes_of X s : Shipped.m_shipped X s -> Shipped.m_cleared X s -> m_a s mod m_p s <> 0 -> m_hashes X.
Proof.
  intros (e & HX & p0 & a0 & b0 & _ & _ & _ & _ & _ & W & _) HC Na. exists e. split; [exact HX|]. intros z u p Vz Vu Nz.
  pose proof (mfield_of e W) as F. destruct (proj1 (MapsProps.c42_new e z F Vz)) as (m & Em); [rewrite a0; exact Na|rewrite b0; discriminate|].
  exists m. split; [exact Em|].
  destruct (MapsProps.c42_total e z u m F Vz Vu) as (P & x & y & -> & HP & _); [rewrite b0; exists 0; reflexivity|exact Em|exact Nz|].
  exact (m_land _ _ _ _ _ HC HX HP).
Qed.
Lemma c58_montgomery : Forall m_hashes [CURVE25519; CURVE448].
Proof.
  constructor; [|constructor; [|constructor]].
  - apply (m_hashes_of _ _ InstProps.c48_CURVE25519 (proj2 OrderProps.c55_CURVE25519)). vm_compute. discriminate.
  - apply (m_hashes_of _ _ InstProps.c48_CURVE448 (proj2 OrderProps.c55_CURVE448)). vm_compute. discriminate.
Qed.

(** Elligator 2 on edwards25519, for every u *)
Lemma c58_edwards25519 : exists m, edwards25519_to_curve25519 = Ret m /\ EDWARDS25519 = Ret (ed_e0 m) /\
  forall z u, let p := modulus (ECurve.c_f (ed_e0 m)) in valid p z -> valid p u -> ~ square_mod p (val z) ->
  exists M, ed_ell2_new (ed_e0 m) z (Some (R25519 m)) = Ret M /\ e_lands (ed_e0 m) (ed_ell2_map M u).
Proof.
  destruct EdEllProps.c51_edwards25519 as (m & X & H). destruct RatProps.c43_shipped as (m' & X' & X0 & _). rewrite X in X'. injection X' as <-.
  exists m. split; [exact X|]. split; [exact X0|]. intros z u p Vz Vu Nz.
  destruct (H z u Vz Vu Nz) as (M & P & E & EM & EP & HE & _). exists M. split; [exact EM|]. rewrite EP.
  exact (e_land _ _ _ _ E (proj2 OrderProps.c55_EDWARDS25519) X0 (proj2 (HE E) eq_refl)).
Qed.

(** Elligator 2 on edwards448, exactly for the u other than those for which it returns (0, 0, 0, 0) *)
Lemma c58_edwards448 : exists m, edwards448_to_curve448 = Ret m /\ EDWARDS448 = Ret (e4_e0 m) /\
  forall z u, let p := modulus (ECurve.c_f (e4_e0 m)) in valid p z -> valid p u -> ~ square_mod p (val z) ->
  exists M, ed_ell2_new (e4_e0 m) z (Some (R448 m)) = Ret M
  /\ (e_lands (e4_e0 m) (ed_ell2_map M u) <-> ~ (p | val u) /\ ~ (p | 1 + val z * (val u * val u))).
Proof.
  destruct EdEllProps.c51_edwards448_refuted as (m & X & H). destruct Rat4Props.c44_shipped as (m' & X' & X0 & _). rewrite X in X'. injection X' as <-.
  exists m. split; [exact X|]. split; [exact X0|]. intros z u p Vz Vu Nz.
  destruct (H z u Vz Vu Nz) as (M & P & EM & EP & HE & _). exists M. split; [exact EM|]. rewrite EP. split.
  - intros (P' & G & k & EP' & HP & _). injection EP' as <-. apply HE in HP. split; intro D; apply HP; [left|right]; exact D.
  - intros [N1 N2]. destruct (proj2 HE) as (E & HPE); [intros [D|D]; contradiction|].
    exact (e_land _ _ _ _ E (proj2 OrderProps.c55_EDWARDS448) X0 HPE).
Qed.

(** the parameters of RFC 9380 for Elligator 2 and for the isogenies: 2, -1, -11 and 11 *)
Example c58_ex : (exists e m, CURVE25519 = Ret e /\ from_int (m_get_field e) 2 = Ret (mkFpElt 2 (m_get_field e)) /\ ell2_new e (mkFpElt 2 (m_get_field e)) = Ret m
    /\ forall u, valid (modulus (m_get_field e)) u -> m_lands e (ell2_map m u))
  /\ (exists e z m, CURVE448 = Ret e /\ from_int (m_get_field e) (-1) = Ret z /\ ell2_new e z = Ret m
    /\ forall u, valid (modulus (m_get_field e)) u -> m_lands e (ell2_map m u))
  /\ (exists m s, get_isogeny_secp256k1 = Ret m /\ sswuab0_new (iso_e1 m) (mkFpElt (Cert_Isog.p_secp - 11) (WCurve.c_f (iso_e0 m))) m = Ret s
    /\ forall u, valid (modulus (WCurve.c_f (iso_e0 m))) u -> w_lands (iso_e1 m) (sswuab0_map s u))
  /\ (exists m s, get_isogeny_bls12381g1 = Ret m /\ sswuab0_new (iso_e1 m) (mkFpElt 11 (WCurve.c_f (iso_e0 m))) m = Ret s).
Proof.
  split; [|split; [|split]].
  - pose proof c58_montgomery as F. apply Forall_inv in F. destruct F as (e & HX & H).
    destruct InstProps.c48_CURVE25519 as (e' & HX' & p0 & _). rewrite HX in HX'. injection HX' as <-.
    assert (P2 : 2 < modulus (MCurve.c_f e)) by (rewrite p0; done_vm).
    assert (V : valid (modulus (MCurve.c_f e)) (mkFpElt 2 (m_get_field e))) by (apply valid_in; unfold m_get_field; lia).
    assert (N : ~ square_mod (modulus (MCurve.c_f e)) 2) by (rewrite p0; apply (EdEllProps.nonsq_at _ Prime_p25519.prime_p25519 _ 8); exact Cert_Ell.nonsq_Z25519).
    assert (V0 : valid (modulus (MCurve.c_f e)) (mkFpElt 0 (m_get_field e))) by (apply valid_in; unfold m_get_field; lia).
    destruct (H (mkFpElt 2 (m_get_field e)) (mkFpElt 0 (m_get_field e)) V V0 N) as (m & Em & _).
    exists e, m. split; [exact HX|]. split; [unfold m_get_field; rewrite from_int_is by lia; rewrite Z.mod_small by lia; reflexivity|]. split; [exact Em|].
    intros u Vu. destruct (H _ u V Vu N) as (m' & Em' & L). rewrite Em in Em'. injection Em' as <-. exact L.
  - pose proof c58_montgomery as F. apply Forall_inv_tail, Forall_inv in F. destruct F as (e & HX & H).
    destruct InstProps.c48_CURVE448 as (e' & HX' & p0 & _). rewrite HX in HX'. injection HX' as <-.
    assert (P0 : 0 < modulus (MCurve.c_f e)) by (rewrite p0; done_vm).
    pose proof (from_int_valid (MCurve.c_f e) (-1) P0) as V. pose proof (from_int_valid (MCurve.c_f e) 0 P0) as V0.
    assert (N : ~ square_mod (modulus (MCurve.c_f e)) ((-1) mod modulus (MCurve.c_f e))).
    { replace ((-1) mod modulus (MCurve.c_f e)) with (modulus (MCurve.c_f e) - 1) by (rewrite p0; done_vm).
      rewrite p0. apply (EdEllProps.nonsq_at _ Prime_p448.prime_p448 _ 8). exact Cert_Ell.nonsq_Z448. }
    destruct (H _ _ V V0 N) as (m & Em & _).
    exists e, (mkFpElt ((-1) mod modulus (MCurve.c_f e)) (MCurve.c_f e)), m. split; [exact HX|]. split; [apply from_int_is, P0|]. split; [exact Em|].
    intros u Vu. destruct (H _ u V Vu N) as (m' & Em' & L). rewrite Em in Em'. injection Em' as <-. exact L.
  - destruct IsogProps.c47_secp256k1_ex as (m & s & Em & Es). exists m, s. split; [exact Em|]. split; [exact Es|].
    intros u Vu. refine (proj2 (c58_secp256k1 m _ s u Em _ Vu Es)).
    destruct IsogProps.secp_full as (m' & Em' & _ & _ & _ & Ep & _). rewrite Em in Em'. injection Em' as <-.
    apply valid_in. rewrite Ep. num.
  - exact IsogProps.c47_bls12381g1_ex.
Qed.
