(** The order of the base point of X25519: the prime l = 2^252 + 27742317777372353535851937790883648493. *)
From Coq Require Import Znumtheory Field.
From Verif Require Import Base BaseP S_X25519 P_Fermat P_Prime P_Prime25519 P_F25519 P_Ladder P_X25519Mask P_Edwards P_DH.
Open Scope Z_scope.

Definition ell : Z := 2 ^ 252 + 27742317777372353535851937790883648493.

(** * l is prime *)
Lemma prime_1224481 : prime 1224481.
Proof. apply (prime_trial _ 1107); vm_compute; reflexivity. Qed.
Lemma prime_531581 : prime 531581.
Proof. apply (prime_trial _ 730); vm_compute; reflexivity. Qed.
Lemma prime_l5 : prime 1257559732178653.
Proof.
  apply (pocklington _ [(1224481, 2); (531581, 2)]); [|nodup | vm_compute; reflexivity].
  constructor; [exact prime_1224481 | constructor; [exact prime_531581 | constructor]].
Qed.
Ltac step cof q H := match goal with |- prime ?n => refine (check1_ok n (mulred n) cof q _ (mulred_ok n _) _ H _ _); vm_compute; reflexivity end.
Lemma prime_l4 : prime 4434155615661930479.
Proof. step 3526%positive 1257559732178653%positive prime_l5. Qed.
Lemma prime_l3 : prime 172054593956031949258510691.
Proof. step 38802110%positive 4434155615661930479%positive prime_l4. Qed.
Lemma prime_l2 : prime 19757330305831588566944191468367130476339.
Proof. step 114831751082918%positive 172054593956031949258510691%positive prime_l3. Qed.
Lemma prime_l1 : prime 276602624281642239937218680557139826668747.
Proof. step 14%positive 19757330305831588566944191468367130476339%positive prime_l2. Qed.
(** Multiplication modulo l: 2^252 is congruent to -c.  The multiples of l keep the result positive. *)
Definition c125 : Z := 27742317777372353535851937790883648493.
Definition fold252 (x : Z) : Z := Z.land x (Z.ones 252) - c125 * Z.shiftr x 252.
Definition ell127 : Z := ell * 2 ^ 127.
Definition ell2 : Z := ell * 2.
Definition mull (x y : Z) : Z :=
  let r := fold252 (fold252 (x * y) + ell127) + ell2 in match r with Zneg _ => r mod ell | _ => r end.
Lemma fold252_ok x : fold252 x mod ell = x mod ell.
Proof.
  unfold fold252. rewrite Z.shiftr_div_pow2, Z.land_ones by lia. pose proof (Z.div_mod x (2 ^ 252) ltac:(lia)) as D.
  set (q := x / 2 ^ 252) in *. set (m := x mod 2 ^ 252) in *. replace (m - c125 * q) with (x + (- q) * ell) by (unfold ell, c125; lia). apply Z_mod_plus_full.
Qed.
Lemma mull_ok : forall x y, 0 <= x -> 0 <= y -> 0 <= mull x y /\ mull x y mod ell = x * y mod ell.
Proof.
  intros x y _ _. assert (E : (fold252 (fold252 (x * y) + ell127) + ell2) mod ell = x * y mod ell).
  { rewrite (Z.mul_comm ell 2 : ell2 = 2 * ell), Z_mod_plus_full, fold252_ok, (Z.mul_comm ell (2 ^ 127) : ell127 = 2 ^ 127 * ell), Z_mod_plus_full. apply fold252_ok. }
  unfold mull. set (r := fold252 _ + ell2) in *. clearbody r. destruct r as [|r|r]; [split; [lia | exact E] | split; [lia | exact E] |].
  split; [apply Z.mod_pos_bound; reflexivity | rewrite Zmod_mod; exact E].
Qed.
Theorem prime_ell : prime ell.
Proof.
  refine (check1_ok ell mull 26163907866482859529727157400808004 276602624281642239937218680557139826668747 _ mull_ok _ prime_l1 _ _); vm_compute; reflexivity.
Qed.

(** * The ladder on numbers *)
Definition nstep (x1 : Z) (s : Z * Z * (Z * Z)) : Z * Z * (Z * Z) :=
  let '(x2, z2, (x3, z3)) := s in
  let A := x2 + z2 in let B := x2 - z2 in
  let AA := mulz A A in let E := 4 * mulz x2 z2 in
  let DA := mulz (x3 - z3) A in let CB := mulz (x3 + z3) B in
  let u := DA + CB in let v := DA - CB in
  (mulz AA (AA - E), mulz E (AA + 121665 * E), (mulz u u, x1 * mulz v v)).
Fixpoint nloop (n : nat) (k x1 : Z) (sw : bool) (s : Z * Z * (Z * Z)) : bool * (Z * Z * (Z * Z)) :=
  match n with
  | O => (sw, s)
  | S t => let kt := Z.testbit k (Z.of_nat t) in nloop t k x1 kt (nstep x1 (cswap (xorb sw kt) s))
  end.
Lemma toF_nstep x1 s : toF (nstep x1 s) = fstep (inF x1) (toF s).
Proof.
  destruct s as [[x2 z2] [x3 z3]]. unfold nstep, toF, fstep. repeat rewrite ?inF_mulz, ?inF_add, ?inF_sub, ?inF_mul. rewrite inF_4. apply quad; ring.
Qed.
Lemma toF_nloop n k x1 : forall sw s, floop n k (inF x1) sw (toF s) = (fst (nloop n k x1 sw s), toF (snd (nloop n k x1 sw s))).
Proof. induction n as [|n IH]; intros sw s; [reflexivity|]. cbn [floop nloop]. rewrite <- toF_swap, <- toF_nstep. apply IH. Qed.
(** From the state after the leading bit. *)
Definition z_of (r : bool * (Z * Z * (Z * Z))) : Z := let '(_, z2, _) := cswap (fst r) (snd r) in z2 mod p25519.
Lemma ell_check : z_of (nloop 253 ell 9 false (1, 0, (9, 1))) = 0.
Proof. vm_compute. reflexivity. Qed.
