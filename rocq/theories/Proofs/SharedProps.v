(** C59: decoding, the maps to curves and square roots called by several threads on shared curves and fields. *)
From Coq Require Import ZArith Lia String Bool List Arith.
From Verif.Model Require Import Out BigInt PrimeField QuadField Shared SharedOps.
From Verif.Model Require WCurve MCurve ECurve Maps RationalMaps Instances.
From Verif.Spec Require Import Concurrent.
From Verif.Proofs Require Import SharedP.
Import ListNotations.
Open Scope Z_scope.

Notation alone_fp := (alone fld calc_sqrt_precmp sqrt_with).
Lemma fp_eqb_ok f g : fp_eqb f g = true <-> f = g.
Proof. destruct f as [m], g as [n]. unfold fp_eqb. cbn. rewrite Z.eqb_eq. split; congruence. Qed.
Lemma fp2_eqb_ok f g : fp2_eqb f g = true <-> f = g.
Proof. destruct f as [b], g as [c]. unfold fp2_eqb. cbn [base]. rewrite fp_eqb_ok. split; congruence. Qed.

Lemma bind_ext {A B : Type} (m : out A) (k k' : A -> out B) : (forall a, k a = k' a) -> bind m k = bind m k'.
Proof. intro H. destruct m; cbn; [apply H|reflexivity]. Qed.
Lemma alone_ask {A : Type} x (k : FpElt -> fprog A) : alone_fp (Ask x k) = bind (sqrt x) (fun y => alone_fp (k y)).
Proof. unfold sqrt. cbn [alone]. destruct (calc_sqrt_precmp (fld x)) as [pre|msg]; [|reflexivity]. cbn [bind]. destruct (sqrt_with pre x); reflexivity. Qed.
Lemma alone_do {A B : Type} (o : out A) (k : A -> fprog B) : alone_fp (pbind (Done o) k) = bind o (fun a => alone_fp (k a)).
Proof. destruct o; reflexivity. Qed.
Ltac go := repeat first [ reflexivity | rewrite alone_ask; apply bind_ext; intro | rewrite alone_do; apply bind_ext; intro
  | match goal with |- alone _ _ _ (if ?b then _ else _) = _ => destruct b end
  | match goal with |- alone _ _ _ (match ?b with [] => _ | _ :: _ => _ end) = _ => destruct b end ].
Lemma alone_w_decode e buf : alone_fp (p_w_decode e buf) = WCurve.decode e buf.
Proof. unfold p_w_decode, WCurve.decode. cbv zeta. go. Qed.
Lemma alone_m_decode e buf : alone_fp (p_m_decode e buf) = MCurve.decode e buf.
Proof. unfold p_m_decode, MCurve.decode. cbv zeta. go. Qed.
Lemma alone_e_decode e buf : alone_fp (p_e_decode e buf) = ECurve.decode e buf.
Proof. unfold p_e_decode, ECurve.decode. cbv zeta. go. Qed.
Lemma alone_sswu m u : alone_fp (p_sswu_map m u) = Maps.sswu_map m u.
Proof. unfold p_sswu_map, Maps.sswu_map. cbv zeta. go. Qed.
Lemma alone_svdw_new e z : alone_fp (p_svdw_new e z) = Maps.svdw_new e z.
Proof. unfold p_svdw_new, Maps.svdw_new. cbv zeta. go. Qed.
Lemma alone_svdw m u : alone_fp (p_svdw_map m u) = Maps.svdw_map m u.
Proof. unfold p_svdw_map, Maps.svdw_map. cbv zeta. go. Qed.
Lemma alone_ell2 m u : alone_fp (p_ell2_map m u) = Maps.ell2_map m u.
Proof. unfold p_ell2_map, Maps.ell2_map. cbv zeta. go. Qed.

(** a call on fields nobody else uses returns what the sequential model says *)
Lemma c59_alone : forall c, alone fld calc_sqrt_precmp sqrt_with (p_call c) = call_out c.
Proof.
  intros [x|e buf|e buf|e buf|m u|e z|m u|m u|m u|m u]; unfold p_call, as_result, call_out; rewrite alone_bind.
  - unfold p_sqrt. rewrite alone_ask. cbn [alone]. destruct (sqrt x); reflexivity.
  - rewrite alone_w_decode. reflexivity.
  - rewrite alone_m_decode. reflexivity.
  - rewrite alone_e_decode. reflexivity.
  - rewrite alone_sswu. reflexivity.
  - rewrite alone_svdw_new. reflexivity.
  - rewrite alone_svdw. reflexivity.
  - rewrite alone_ell2. reflexivity.
  - unfold p_sswuab0_map. rewrite alone_bind, alone_sswu. reflexivity.
  - unfold p_ed_ell2_map. rewrite alone_bind, alone_ell2. reflexivity.
Qed.

(** a call takes at most one square root *)
Definition quiet {A : Type} (p : fprog A) : Prop := exists o, p = Done o.
Definition one {A : Type} (p : fprog A) : Prop := match p with Done _ => True | Ask _ k => forall r, quiet (k r) end.
Lemma quiet_do {A B : Type} (o : out A) (k : A -> fprog B) : (forall a, quiet (k a)) -> quiet (pbind (Done o) k).
Proof. intro H. destruct o; [apply H|eexists; reflexivity]. Qed.
Lemma one_do {A B : Type} (o : out A) (k : A -> fprog B) : (forall a, one (k a)) -> one (pbind (Done o) k).
Proof. intro H. destruct o; [apply H|exact I]. Qed.
Lemma one_ask {A : Type} x (k : FpElt -> fprog A) : (forall r, quiet (k r)) -> one (Ask x k).
Proof. intro H. exact H. Qed.
Lemma one_then {A B : Type} (p : fprog A) (f : A -> out B) : one p -> one (pbind p (fun a => Done (f a))).
Proof.
  destruct p as [[a|msg]|x k]; cbn; [intros _; exact I..|]. intros H r. destruct (H r) as [[a|msg] ->]; eexists; reflexivity.
Qed.
Lemma one_cost {A : Type} (p : fprog A) : one p -> (cost fld calc_sqrt_precmp sqrt_with p <= 6)%nat.
Proof.
  destruct p as [o|x k]; cbn; [lia|]. intro H. destruct (calc_sqrt_precmp (fld x)) as [pre|]; [|lia]. destruct (sqrt_with pre x) as [r|]; [|lia].
  destruct (H r) as [o ->]. cbn. lia.
Qed.
Ltac goq := repeat first [ solve [eexists; reflexivity] | apply quiet_do; intro
  | match goal with |- quiet (if ?b then _ else _) => destruct b end ].
Ltac go1 := repeat first [ exact I | apply one_ask; intro; solve [goq] | apply one_do; intro
  | match goal with |- one (if ?b then _ else _) => destruct b end
  | match goal with |- one (match ?b with [] => _ | _ :: _ => _ end) => destruct b end ].
Lemma one_sswu m u : one (p_sswu_map m u).
Proof. unfold p_sswu_map. cbv zeta. go1. Qed.
Lemma one_ell2 m u : one (p_ell2_map m u).
Proof. unfold p_ell2_map. cbv zeta. go1. Qed.
Lemma one_call c : one (p_call c).
Proof.
  destruct c as [x|e buf|e buf|e buf|m u|e z|m u|m u|m u|m u]; unfold p_call, as_result; apply one_then.
  - intro r. eexists. reflexivity.
  - unfold p_w_decode. cbv zeta. go1.
  - unfold p_m_decode. cbv zeta. go1.
  - unfold p_e_decode. cbv zeta. go1.
  - apply one_sswu.
  - unfold p_svdw_new. cbv zeta. go1.
  - unfold p_svdw_map. cbv zeta. go1.
  - apply one_ell2.
  - unfold p_sswuab0_map. apply (one_then _ (fun P => RationalMaps.iso_push (RationalMaps.s0_iso m) P)), one_sswu.
  - unfold p_ed_ell2_map. apply (one_then _ (fun P => RationalMaps.rat_pull (RationalMaps.ee_ratmap m) P)), one_ell2.
Qed.
Lemma programs_nth l n calls : nth_error l n = Some calls -> nth_error (programs l) n = Some (map (fun ic => (fst ic, p_call (snd ic))) calls).
Proof. intro H. unfold programs. rewrite nth_error_map, H. reflexivity. Qed.
Lemma map_snd_calls calls : map snd (map (fun ic : nat * call => (fst ic, p_call (snd ic))) calls) = map p_call (map snd calls).
Proof. rewrite !map_map. reflexivity. Qed.
Lemma work_calls calls : (work fld calc_sqrt_precmp sqrt_with (map (fun ic : nat * call => (fst ic, p_call (snd ic))) calls) <= 7 * List.length calls)%nat.
Proof.
  induction calls as [|[i c] calls IH]; [cbn; lia|]. unfold work in *. cbn [map fold_right snd List.length fst]. pose proof (one_cost _ (one_call c)). lia.
Qed.
(** the ended programs of a thread, matched with its calls *)
Lemma match_calls {X Pr O : Type} (pf : X -> Pr) (P : X -> O -> Prop) cs (dn : list (Pr * O)) rest :
  map pf cs = (rev (map fst dn) ++ rest)%list -> (forall c r, In (pf c, r) dn -> P c r) ->
  Forall2 P (firstn (List.length dn) cs) (rev (map snd dn)).
Proof.
  intros E H. rewrite <- map_rev in *. assert (H' : forall c r, In (pf c, r) (rev dn) -> P c r) by (intros c r I; apply H, in_rev, I).
  rewrite <- (rev_length dn). clear H. revert cs E. induction (rev dn) as [|[q r] d IH]; intros cs E; cbn; [constructor|].
  destruct cs as [|c cs]; [discriminate|]. cbn in E. injection E as E1 E2. constructor.
  - apply H'. left. rewrite E1. reflexivity.
  - apply IH; [intros c' r' I; apply H'; right; exact I|exact E2].
Qed.

(** any number of threads, any calls, any schedule: the calls of a thread end in order, each with its sequential
    outcome or a borrow panic *)
Lemma c59_answers : forall l schedule n calls, nth_error l n = Some calls ->
  exists t, nth_error (s_threads (run l schedule)) n = Some t
    /\ Forall2 (fun c r => r = call_out c \/ r = borrow_panic) (firstn (List.length (ended t)) (map snd calls)) (rev (map snd (ended t))).
Proof.
  intros l schedule n calls Hn.
  destruct (shared_prefix fp_eqb fld calc_sqrt_precmp sqrt_with fp_eqb_ok (programs l) schedule n _ (programs_nth l n calls Hn)) as (t & rest & N & E).
  exists t. split; [exact N|]. rewrite map_snd_calls in E. apply (match_calls p_call _ _ _ rest E). intros c r I.
  destruct (shared_answers fp_eqb fld calc_sqrt_precmp sqrt_with fp_eqb_ok (programs l) schedule t _ r (nth_error_In _ _ N) I) as [->| ->]; [left; apply c59_alone|right; reflexivity].
Qed.
(** no thread waits for another: seven steps of its own per call are enough to end them all *)
Lemma c59_wait_free : forall l schedule n calls, nth_error l n = Some calls -> (7 * List.length calls <= turns schedule n)%nat ->
  exists t, nth_error (s_threads (run l schedule)) n = Some t /\ todo t = [] /\ ph t = Idle
    /\ Forall2 (fun c r => r = call_out c \/ r = borrow_panic) (map snd calls) (rev (map snd (ended t))).
Proof.
  intros l schedule n calls Hn HT.
  destruct (shared_ends fp_eqb fld calc_sqrt_precmp sqrt_with fp_eqb_ok (programs l) schedule n _ (programs_nth l n calls Hn)) as (t & N & T0 & P0 & E).
  { eapply Nat.le_trans; [apply work_calls|exact HT]. }
  exists t. split; [exact N|]. split; [exact T0|]. split; [exact P0|]. rewrite map_snd_calls in E.
  destruct (c59_answers l schedule n calls Hn) as (t' & N' & H). unfold run in N'. rewrite N in N'. injection N' as <-.
  assert (L : List.length (ended t) = List.length (map snd calls)).
  { rewrite <- (map_length p_call (map snd calls)), <- E, rev_length, map_length. reflexivity. }
  rewrite L, firstn_all in H. exact H.
Qed.
(** threads working in different allocations, a single thread in particular, never see a borrow panic *)
Lemma c59_own_fields : forall l schedule n calls (owner : nat -> nat),
  (forall m cs i c, nth_error l m = Some cs -> In (i, c) cs -> owner i = m) ->
  nth_error l n = Some calls ->
  exists t, nth_error (s_threads (run l schedule)) n = Some t
    /\ Forall2 (fun c r => r = call_out c) (firstn (List.length (ended t)) (map snd calls)) (rev (map snd (ended t))).
Proof.
  intros l schedule n calls owner HO Hn.
  destruct (shared_prefix fp_eqb fld calc_sqrt_precmp sqrt_with fp_eqb_ok (programs l) schedule n _ (programs_nth l n calls Hn)) as (t & rest & N & E).
  exists t. split; [exact N|]. rewrite map_snd_calls in E. apply (match_calls p_call _ _ _ rest E). intros c r I.
  rewrite (shared_own fp_eqb fld calc_sqrt_precmp sqrt_with fp_eqb_ok owner (programs l) schedule t (p_call c) r); [apply c59_alone| |exact (nth_error_In _ _ N)|exact I].
  intros m cs i q Hm Hq. unfold programs in Hm. rewrite nth_error_map in Hm. destruct (nth_error l m) as [cs'|] eqn:L; [|discriminate]. injection Hm as <-.
  apply in_map_iff in Hq. destruct Hq as ([i' c'] & X & Y). injection X as <- <-. exact (HO m cs' i' c' L Y).
Qed.
(** after any run, whatever panicked: a cell holds nothing or the constants of its field, and it is borrowed only while a
    thread is inside a call *)
Lemma c59_cells : forall l schedule i f, let s := run l schedule in
  (forall pre, cache (s_cells s i f) = Some pre -> calc_sqrt_precmp f = Ret pre)
  /\ ((forall t, In t (s_threads s) -> ph t = Idle) -> borrowed (s_cells s i f) = false).
Proof.
  intros l schedule i f s. split.
  - intros pre. exact (shared_caches fp_eqb fld calc_sqrt_precmp sqrt_with fp_eqb_ok (programs l) schedule i f pre).
  - exact (shared_quiet fp_eqb fld calc_sqrt_precmp sqrt_with fp_eqb_ok (programs l) schedule i f).
Qed.
(** the constants are stored before a request is answered (the thread has released the cell and is about to take the
    root), and a filled cell keeps its constants for the rest of the run *)
Lemma c59_filled : forall l schedule i, let s := run l schedule in
  (forall t p0 x k pre, In t (s_threads s) -> ph t = Released i p0 x k pre -> cache (s_cells s i (fld x)) = Some pre)
  /\ (forall f pre more, cache (s_cells s i f) = Some pre -> cache (s_cells (run l (schedule ++ more)) i f) = Some pre).
Proof.
  intros l schedule i s. split.
  - intros t p0 x k pre. exact (shared_filled fp_eqb fld calc_sqrt_precmp sqrt_with fp_eqb_ok (programs l) schedule t i p0 x k pre).
  - intros f pre more. exact (shared_keeps fp_eqb fld calc_sqrt_precmp sqrt_with fp_eqb_ok (programs l) schedule more i f pre).
Qed.
(** 'concurrent use of one curve never panics' is false: two overlapping calls that take a square root in one
    allocation make one of them panic, for every such call *)
Lemma c59_shared_refuted : forall c i, takes_root c = true ->
  exists schedule t, nth_error (s_threads (run [[(i, c)]; [(i, c)]] schedule)) 1 = Some t /\ map snd (ended t) = [borrow_panic].
Proof.
  intros c i H. unfold takes_root in H. destruct (p_call c) as [o|x k] eqn:E; [discriminate|].
  exists [0; 0; 1; 1]%nat. eexists. unfold run, programs. cbn [map fst snd]. rewrite E. unfold sys_run, sys_init. cbn [map fold_left].
  unfold sys_step at 4. cbn. unfold set. rewrite Nat.eqb_refl. assert (R : fp_eqb (fld x) (fld x) = true) by (apply fp_eqb_ok; reflexivity). rewrite R. cbn.
  split; reflexivity.
Qed.
(** square roots in the quadratic extension behave in the same way *)
Lemma alone_sqrt2 x : alone fld2 calc_sqrt_precmp2 sqrt2_with (p_sqrt2 x) = sqrt2 x.
Proof.
  unfold sqrt2, sqrt2_using, sqrt2_with. cbn [alone p_sqrt2]. destruct (calc_sqrt_precmp2 (fld2 x)) as [[c1 c2]|msg]; [|reflexivity]. cbn [bind].
  match goal with |- match ?a with _ => _ end = ?b => change a with b; destruct b; reflexivity end.
Qed.
Lemma c59_quadratic : forall l schedule n xs, nth_error l n = Some xs -> (7 * List.length xs <= turns schedule n)%nat ->
  exists t, nth_error (s_threads (run2 l schedule)) n = Some t /\ todo t = [] /\ ph t = Idle
    /\ Forall2 (fun x r => r = sqrt2 x \/ r = borrow_panic) (map snd xs) (rev (map snd (ended t))).
Proof.
  intros l schedule n xs Hn HT.
  assert (PN : nth_error (programs2 l) n = Some (map (fun ix => (fst ix, p_sqrt2 (snd ix))) xs)) by (unfold programs2; rewrite nth_error_map, Hn; reflexivity).
  assert (W : (work fld2 calc_sqrt_precmp2 sqrt2_with (map (fun ix : nat * Fp2Elt => (fst ix, p_sqrt2 (snd ix))) xs) <= 7 * List.length xs)%nat).
  { clear. induction xs as [|[i x] xs IH]; [cbn; lia|]. unfold work in *. cbn [map fold_right snd List.length fst]. unfold p_sqrt2 at 1. cbn [cost].
    destruct (calc_sqrt_precmp2 (fld2 x)) as [pre|]; [|lia]. destruct (sqrt2_with pre x); lia. }
  destruct (shared_ends fp2_eqb fld2 calc_sqrt_precmp2 sqrt2_with fp2_eqb_ok (programs2 l) schedule n _ PN) as (t & N & T0 & P0 & E).
  { eapply Nat.le_trans; [exact W|exact HT]. }
  exists t. split; [exact N|]. split; [exact T0|]. split; [exact P0|].
  assert (A : forall x r, In (p_sqrt2 x, r) (ended t) -> r = sqrt2 x \/ r = borrow_panic).
  { intros x r I. destruct (shared_answers fp2_eqb fld2 calc_sqrt_precmp2 sqrt2_with fp2_eqb_ok (programs2 l) schedule t _ r (nth_error_In _ _ N) I) as [->| ->]; [left; apply alone_sqrt2|right; reflexivity]. }
  assert (E' : map p_sqrt2 (map snd xs) = (rev (map fst (ended t)) ++ [])%list) by (rewrite app_nil_r, E, !map_map; reflexivity).
  pose proof (match_calls p_sqrt2 _ _ _ [] E' A) as H. rewrite app_nil_r in E'.
  assert (L : List.length (ended t) = List.length (map snd xs)) by (rewrite <- (map_length p_sqrt2 (map snd xs)), E', rev_length, map_length; reflexivity).
  rewrite L, firstn_all in H. exact H.
Qed.
(** the cells of the quadratic extension, after any run *)
Lemma c59_quadratic_cells : forall l schedule i, let s := run2 l schedule in
  (forall f pre, cache (s_cells s i f) = Some pre -> calc_sqrt_precmp2 f = Ret pre)
  /\ (forall f, (forall t, In t (s_threads s) -> ph t = Idle) -> borrowed (s_cells s i f) = false)
  /\ (forall t p0 x k pre, In t (s_threads s) -> ph t = Released i p0 x k pre -> cache (s_cells s i (fld2 x)) = Some pre)
  /\ (forall f pre more, cache (s_cells s i f) = Some pre -> cache (s_cells (run2 l (schedule ++ more)) i f) = Some pre).
Proof.
  intros l schedule i s. split; [|split; [|split]].
  - intros f pre. exact (shared_caches fp2_eqb fld2 calc_sqrt_precmp2 sqrt2_with fp2_eqb_ok (programs2 l) schedule i f pre).
  - intros f. exact (shared_quiet fp2_eqb fld2 calc_sqrt_precmp2 sqrt2_with fp2_eqb_ok (programs2 l) schedule i f).
  - intros t p0 x k pre. exact (shared_filled fp2_eqb fld2 calc_sqrt_precmp2 sqrt2_with fp2_eqb_ok (programs2 l) schedule t i p0 x k pre).
  - intros f pre more. exact (shared_keeps fp2_eqb fld2 calc_sqrt_precmp2 sqrt2_with fp2_eqb_ok (programs2 l) schedule more i f pre).
Qed.

(** *** concrete runs *)
Definition e13 (k : Z) : FpElt := mkFpElt k (mkFp 13).
Definition answers (s : sys (Q := FpElt) (R := FpElt) (F := Fp) (A := result) (C := SqrtPrecmp)) : list (list (out result)) := map (fun t => rev (map snd (ended t))) (s_threads s).
(** one field, calls that do not overlap; the same calls overlapping; the same calls in two allocations *)
Example c59_apart_ex : answers (run [[(0%nat, CSqrt (e13 4))]; [(0%nat, CSqrt (e13 10))]] [0;0;0;0;0;0;0;1;1;1;1;1;1;1]%nat) = [[Ret (RElt (e13 2))]; [Ret (RElt (e13 6))]].
Proof. vm_compute. reflexivity. Qed.
Example c59_overlap_ex : answers (run [[(0%nat, CSqrt (e13 4))]; [(0%nat, CSqrt (e13 10)); (0%nat, CSqrt (e13 10))]] [0;0;1;1;0;0;0;0;0;1;1;1;1;1;1;1]%nat)
  = [[Ret (RElt (e13 2))]; [Panic "already mutably borrowed"; Ret (RElt (e13 6))]].
Proof. vm_compute. reflexivity. Qed.
Example c59_two_fields_ex : answers (run [[(0%nat, CSqrt (e13 4))]; [(1%nat, CSqrt (e13 10))]] [0;0;1;1;0;0;0;0;0;1;1;1;1;1]%nat) = [[Ret (RElt (e13 2))]; [Ret (RElt (e13 6))]].
Proof. vm_compute. reflexivity. Qed.
(** decoding the compressed generator of P-256 takes a square root, so two overlapping decodes can panic; decoding an
    uncompressed point takes none *)
Example c59_decode_ex : match Instances.P256 with
  | Ret e => takes_root (CWDecode e (2 :: repeat 0 31 ++ [5])%list) = true /\ takes_root (CWDecode e (4 :: repeat 0 64)%list) = false
  | Panic _ => False end.
Proof. vm_compute. split; reflexivity. Qed.
(** after one call in allocation 0: its cell is filled and free, that of allocation 1 is still empty *)
Example c59_filled_ex : let s := run [[(0%nat, CSqrt (e13 4))]] [0; 0; 0; 0; 0; 0; 0]%nat in
  (match cache (s_cells s 0%nat (mkFp 13)) with Some _ => true | None => false end, borrowed (s_cells s 0%nat (mkFp 13)), cache (s_cells s 1%nat (mkFp 13))) = (true, false, None).
Proof. reflexivity. Qed.
