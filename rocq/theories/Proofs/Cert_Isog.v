(** Computations about the coefficients of the isogenies. *)
From Coq Require Import ZArith Bool List.
From Verif.Spec Require Import Isogeny Instances.
From Verif.Proofs Require Import InstP PolyL IsogP.
Import ListNotations.
Open Scope Z_scope.

Definition p_secp : Z := 115792089237316195423570985008687907853269984665640564039457584007908834671663.
Definition p_bls : Z := 4002409555221667393417789825735904156556882819939007885332058136124031650490837864442687629129015664037894272559787.
Definition a_secp : Z := 0x3f8731abdd661adca08a5558f0f5d272e953d363cb6f0e5d405447c01a444533.
Definition a_bls : Z := 0x144698a3b8e9433d693a02c96d4982b0ea985383ee66a8d8e8981aefd881ac98936f8da0e0f97f5cf428082d584c1d.
Definition b_bls : Z := 0x12e2908d11688030018b12e8753eee3b2016c1f0f24f4070a0b9c14fcef35ef55a23215a316ceaa5d1cc48e98e172be0.
Lemma params_secp : params_check p_secp 14 iso3_secp256k1 a_secp 1771 7 = true.
Proof. vm_cast_no_check (eq_refl true). Qed.
Lemma params_bls : params_check p_bls 14 iso11_bls12381g1 a_bls b_bls 4 = true.
Proof. vm_cast_no_check (eq_refl true). Qed.
Definition x0_secp : Z := 62039497816578942066216190673585487159041045360813742605083880612634887308709.
Lemma zeros_secp : zeros_check p_secp 14 (i_xd iso3_secp256k1) [x0_secp] = true.
Proof. vm_cast_no_check (eq_refl true). Qed.
Lemma nonsq_secp : nonsq_check p_secp 7 8 = true.
Proof. vm_cast_no_check (eq_refl true). Qed.
Lemma zeros_bls : zeros_check p_bls 14 (i_xd iso11_bls12381g1) kernel11 = true.
Proof. vm_cast_no_check (eq_refl true). Qed.
Lemma nonsq_bls : nonsq_check p_bls 11 8 = true.
Proof. vm_cast_no_check (eq_refl true). Qed.
Lemma nonsq_secp_z : nonsq_check p_secp (-11) 8 = true.
Proof. vm_cast_no_check (eq_refl true). Qed.
Lemma gen_secp : image_check p_secp 14 iso3_secp256k1 (w_gx std_SECP256K1_3ISO) (w_gy std_SECP256K1_3ISO) (w_gx std_SECP256K1) (w_gy std_SECP256K1)
  90428134553352703297591869105372725771057417844324674739587545886829023199491 75389288116500785720861027718467053066702670990088053762922474822229719307980 = true.
Proof. vm_cast_no_check (eq_refl true). Qed.
Lemma gen_bls : image_check p_bls 14 iso11_bls12381g1 (w_gx std_BLS12381G1_11ISO) (w_gy std_BLS12381G1_11ISO) (w_gx std_BLS12381G1) (w_gy std_BLS12381G1)
  3570448649816206952715935746312437309695622282233835231520611451724810203021601855254138656537904417887138676721415 3373485429266953183912925326080965304530229134058068904097581930170978539653845381936642569852915421275230583376403 = true.
Proof. vm_cast_no_check (eq_refl true). Qed.
(** an input of SSWU with z = 11 that leads to the kernel *)
Definition u_bls : Z := 2996364799790106798135996267804732426571918304256045973420659328602593967274666773429484758551777178205846782232816.
Definition t_exp : pexp := PM (PC [11]) (PM (PC [u_bls]) (PC [u_bls])).
Definition n_exp : pexp := PA (PM t_exp t_exp) t_exp.
Lemma n_inv : pident p_bls 14 (PM (PC [1525273250834052517308646622544971129108209845718486856459826561742463626535171377309687408912322861533805302458738]) (PM (PC [a_bls]) n_exp)) (PC [1]) = true.
Proof. vm_cast_no_check (eq_refl true). Qed.
Lemma n_kernel : pident p_bls 14 (PA (PM (PC [162902306530757011687648381458039960905879760854007434532151803806422383239905014872915974221245198317567396330740]) (PM (PC [a_bls]) n_exp))
  (PM (PC [b_bls]) (PA n_exp (PC [1])))) (PC []) = true.
Proof. vm_cast_no_check (eq_refl true). Qed.
