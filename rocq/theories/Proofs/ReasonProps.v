(** Why a text is refused: C13. *)
From Coq Require Import ZArith Lia String Ascii Bool List.
From Verif.Math Require Import Fld Zp Residue.
From Verif.Spec Require Import Arith Reasons.
From Verif.Model Require Import Out BigInt PrimeField.
From Verif.Proofs Require Import FieldP BytesP SerialProps.
Open Scope Z_scope.

Lemma continuation_code c : is_continuation c = true <-> continuation c.
Proof.
  destruct c as [[|] [|] [|] [|] [|] [|] [|] [|]]; vm_compute; split; intro H; try discriminate H; try destruct H; auto; try discriminate.
Qed.
Lemma parse_reason sl msg : parse_number sl = Panic msg ->
  ((exists c0 c1 c2 rest, sl = String c0 (String c1 (String c2 rest)) /\ continuation c2)
     /\ msg = "byte index 2 is not a char boundary"%string)
  \/ ((forall c0 c1 c2 rest, sl = String c0 (String c1 (String c2 rest)) -> ~ continuation c2)
     /\ msg = "called `unwrap()` on an error value"%string).
Proof.
  assert (U : forall r s, unwrap (bigint_from_str_radix s r) = Panic msg -> msg = "called `unwrap()` on an error value"%string).
  { intros r s H. unfold unwrap in H. destruct (bigint_from_str_radix s r); [discriminate H|injection H as <-; reflexivity]. }
  unfold parse_number, radix_prefix. destruct sl as [|c0 [|c1 rest]]; cbn [bind fst snd].
  - intro H. right. split; [intros ? ? ? ? E; discriminate E|exact (U _ _ H)].
  - intro H. right. split; [intros ? ? ? ? E; discriminate E|exact (U _ _ H)].
  - destruct rest as [|c2 rest].
    + intro H. right. split; [intros ? ? ? ? E; discriminate E|]. cbn [negb] in H.
      destruct (_ && _); [exact (U _ _ H)|]. destruct (_ && _); [exact (U _ _ H)|]. destruct (_ && _); exact (U _ _ H).
    + destruct (is_continuation c2) eqn:C; cbn [negb].
      * intro H. left. cbn [bind] in H. injection H as <-. split; [|reflexivity]. apply continuation_code in C. eauto 6.
      * intro H. right. split.
        { intros d0 d1 d2 r E N. injection E as -> -> -> ->. apply continuation_code in N. congruence. }
        destruct (_ && _); [exact (U _ _ H)|]. destruct (_ && _); [exact (U _ _ H)|]. destruct (_ && _); exact (U _ _ H).
Qed.
(** a refused text is refused while slicing exactly when the slice would cut a character, and while parsing otherwise *)
Lemma c13_panic_reason : forall p s msg, 0 < p -> from_str (fp_new p) s = Panic msg ->
  (cut_text s /\ msg = "byte index 2 is not a char boundary"%string)
  \/ (~ cut_text s /\ msg = "called `unwrap()` on an error value"%string).
Proof.
  intros p s msg Hp H. pose proof (from_str_spec p s ltac:(lia)) as F.
  destruct s as [|c t]; [rewrite F in H; discriminate H|]. rewrite F in H. clear F.
  destruct (Ascii.eqb_spec c "-") as [->|Hc].
  - destruct (parse_number t) as [n|m] eqn:E; cbn [bind] in H; [discriminate H|]. injection H as ->.
    destruct (parse_reason t msg E) as [[(c0 & c1 & c2 & r & -> & C) M]|[N M]]; [left|right]; (split; [|exact M]).
    + exists "-"%string, c0, c1, c2, r. auto.
    + intros (pre & c0 & c1 & c2 & r & E' & [->|[-> D]] & C).
      * injection E' as ->. exact (N _ _ _ _ eq_refl C).
      * injection E' as <- _. apply D. reflexivity.
  - destruct (parse_number (String c t)) as [n|m] eqn:E; cbn [bind] in H; [discriminate H|]. injection H as ->.
    destruct (parse_reason _ msg E) as [[(c0 & c1 & c2 & r & E1 & C) M]|[N M]]; [left|right]; (split; [|exact M]).
    + exists ""%string, c0, c1, c2, r. split; [exact E1|]. split; [|exact C]. right. split; [reflexivity|]. congruence.
    + intros (pre & c0 & c1 & c2 & r & E' & [->|[-> D]] & C).
      * injection E' as -> _. apply Hc. reflexivity.
      * exact (N _ _ _ _ E' C).
Qed.
(** "1" followed by the two bytes of a character, and by a three-byte one *)
Example c13_reason_ex : from_str (fp_new 53) ("1" ++ String "195" (String "169" "")) = Panic "byte index 2 is not a char boundary"
  /\ cut_text ("1" ++ String "195" (String "191" ""))
  /\ from_str (fp_new 53) ("1" ++ String "195" (String "191" "")) = Panic "byte index 2 is not a char boundary"
  /\ from_str (fp_new 53) ("12" ++ String "195" (String "169" "")) = Panic "called `unwrap()` on an error value".
Proof.
  split; [reflexivity|]. split; [|split; reflexivity].
  exists ""%string, "1"%char, "195"%char, "191"%char, ""%string. split; [reflexivity|].
  split; [right; split; [reflexivity|discriminate]|split; reflexivity].
Qed.
