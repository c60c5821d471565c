(** What callers of the library see when several threads use it: the outcome of a call made alone, and runs of
    threads under a schedule. *)
From Coq Require Import ZArith String Bool List Arith.
From Verif.Model Require Import Out BigInt PrimeField QuadField Shared SharedOps.
From Verif.Model Require WCurve MCurve ECurve Maps RationalMaps.
Import ListNotations.
Open Scope Z_scope.

Section Alone.
Context {F Q C R : Type}.
Variables (fld : Q -> F) (calc : F -> out C) (answer : C -> Q -> out R).
(** what a program returns when it runs alone, on fields of its own *)
Fixpoint alone {A : Type} (p : prog (Q := Q) (R := R) A) : out A :=
  match p with
  | Done o => o
  | Ask x k =>
      match calc (fld x) with
      | Panic msg => Panic msg
      | Ret pre => match answer pre x with Panic msg => Panic msg | Ret r => alone (k r) end
      end
  end.
End Alone.

(** what each call returns when it is the only one: the functions of the sequential model *)
Definition call_out (c : call) : out result :=
  match c with
  | CSqrt x => bind (sqrt x) (fun y => Ret (RElt y))
  | CWDecode e buf => bind (WCurve.decode e buf) (fun r => Ret (RWRead r))
  | CMDecode e buf => bind (MCurve.decode e buf) (fun r => Ret (RMRead r))
  | CEDecode e buf => bind (ECurve.decode e buf) (fun r => Ret (RERead r))
  | CSswu m u => bind (Maps.sswu_map m u) (fun P => Ret (RWPoint P))
  | CSvdwNew e z => bind (Maps.svdw_new e z) (fun m => Ret (RSvdw m))
  | CSvdw m u => bind (Maps.svdw_map m u) (fun P => Ret (RWPoint P))
  | CEll2 m u => bind (Maps.ell2_map m u) (fun P => Ret (RMPoint P))
  | CSswuab0 m u => bind (RationalMaps.sswuab0_map m u) (fun P => Ret (RWPoint P))
  | CEdEll2 m u => bind (RationalMaps.ed_ell2_map m u) (fun P => Ret (REPoint P))
  end.
(** threads making calls, each call naming the allocation of the field it takes a square root in *)
Definition programs (l : list (list (nat * call))) : list (list (nat * fprog result)) := map (map (fun ic => (fst ic, p_call (snd ic)))) l.
Definition run (l : list (list (nat * call))) (schedule : list nat) : sys :=
  sys_run fp_eqb fld calc_sqrt_precmp sqrt_with (sys_init (programs l)) schedule.
(** the same for the quadratic extension *)
Definition fp2_eqb (f g : Fp2) : bool := fp_eqb (base f) (base g).
Definition programs2 (l : list (list (nat * Fp2Elt))) : list (list (nat * prog (Q := Fp2Elt) (R := Fp2Elt) Fp2Elt)) := map (map (fun ix => (fst ix, p_sqrt2 (snd ix)))) l.
Definition run2 (l : list (list (nat * Fp2Elt))) (schedule : list nat) : sys :=
  sys_run fp2_eqb fld2 calc_sqrt_precmp2 sqrt2_with (sys_init (programs2 l)) schedule.
(** the number of steps given to thread n *)
Definition turns (schedule : list nat) (n : nat) : nat := count_occ Nat.eq_dec schedule n.
Definition borrow_panic {A : Type} : out A := Panic "already mutably borrowed".
(** the call asks for a square root *)
Definition takes_root (c : call) : bool := match p_call c with Ask _ _ => true | Done _ => false end.
