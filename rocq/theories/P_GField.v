(** The blocks of GCM form a field: x is a primitive element of GF(2)[x]/(x^128+x^7+x^2+x+1). *)
From Coq Require Import Znumtheory.
From Verif Require Import Base BaseP S_GCM P_Prime P_Prime25519 P_GF2.
Open Scope Z_scope.

Notation GM := (gmul 128 R).
Lemma steps_gsum n : forall i X A V, prod_steps n i X A V = Z.lxor A (gsum 128 R n i X V).
Proof.
  induction n as [|n IH]; intros i X A V; cbn [prod_steps gsum]; [symmetry; apply Z.lxor_0_r|].
  rewrite IH; change (halve V) with (gT R V); change (Z.of_nat 128 - 1 - i) with (127 - i).
  destruct (Z.testbit X (127 - i)); rewrite ?Z.lxor_assoc, ?Z.lxor_0_l; reflexivity.
Qed.
Lemma block_mul_gmul X Y : block_mul X Y = GM X Y.
Proof. unfold block_mul; rewrite steps_gsum; apply Z.lxor_0_l. Qed.

Lemma prime_373 : prime 373. Proof. apply (prime_trial _ 20); vm_compute; reflexivity. Qed.
Lemma prime_2998279 : prime 2998279. Proof. apply (prime_trial _ 1732); vm_compute; reflexivity. Qed.
Lemma prime_f6 : prime 67280421310721.
Proof.
  apply (pocklington _ [(2998279, 3); (373, 3)]); [|nodup | vm_compute; reflexivity].
  constructor; [exact prime_2998279 | constructor; [exact prime_373 | constructor]].
Qed.
Lemma prime_17449 : prime 17449. Proof. apply (prime_trial _ 133); vm_compute; reflexivity. Qed.
Lemma prime_small_factors : Forall prime [3; 5; 17; 257; 641; 65537; 274177; 6700417; 67280421310721].
Proof.
  constructor; [apply (prime_trial _ 2); vm_compute; reflexivity|].
  constructor; [apply (prime_trial _ 3); vm_compute; reflexivity|].
  constructor; [apply (prime_trial _ 5); vm_compute; reflexivity|].
  constructor; [apply (prime_trial _ 17); vm_compute; reflexivity|].
  constructor; [apply (prime_trial _ 26); vm_compute; reflexivity|].
  constructor; [apply (prime_trial _ 257); vm_compute; reflexivity|].
  constructor; [apply (prime_trial _ 524); vm_compute; reflexivity|].
  constructor; [apply (prime_trial _ 2589); vm_compute; reflexivity|].
  constructor; [exact prime_f6 | constructor].
Qed.
Definition fermat_factors : list Z := [3; 5; 17; 257; 641; 65537; 274177; 6700417; 67280421310721].
Definition fast (k : Z) : Z := match k with Zpos p => fx 128 R p | _ => 0 end.
Lemma fast_ok k : 0 < k -> fast k = gx 128 R k.
Proof. destruct k as [|p|p]; intros H; try lia; apply fx_ok; [lia | vm_compute; intuition discriminate]. Qed.
Lemma R_top : 2 ^ (Z.of_nat 128 - 1) <= R < 2 ^ Z.of_nat 128.
Proof. vm_compute; intuition discriminate. Qed.
Lemma factors_prod : prodl fermat_factors = 2 ^ Z.of_nat 128 - 1.
Proof. vm_compute; reflexivity. Qed.
Lemma full_power : fast (2 ^ Z.of_nat 128 - 1) = one 128.
Proof. vm_compute; reflexivity. Qed.
Lemma part_powers : forallb (fun q => negb (fast ((2 ^ Z.of_nat 128 - 1) / q) =? one 128)) fermat_factors = true.
Proof. vm_compute; reflexivity. Qed.
Lemma w128 : (0 < 128)%nat. Proof. lia. Qed.
Lemma x_full : gx 128 R (2 ^ Z.of_nat 128 - 1) = one 128.
Proof. rewrite <- fast_ok; [exact full_power | reflexivity]. Qed.
Lemma x_order k : 0 < k < 2 ^ Z.of_nat 128 - 1 -> gx 128 R k <> one 128.
Proof.
  apply (order_x 128 R w128 R_top _ fermat_factors); [reflexivity | exact factors_prod | exact prime_small_factors | exact x_full|].
  intros q I; pose proof part_powers as P; rewrite forallb_forall in P; specialize (P q I); rewrite fast_ok in P.
  - apply negb_true_iff, Z.eqb_neq in P; exact P.
  - clear - I; repeat (destruct I as [<-|I]; [reflexivity|]); destruct I.
Qed.
(** Two different lists of blocks have GHASH values with a given difference for few subkeys. *)
Lemma collisions_128 l l' d Hs : Forall (rng 128) l -> Forall (rng 128) l' -> rng 128 d -> NoDup Hs ->
  (forall H, In H Hs -> rng 128 H /\ Z.lxor (gh 128 R H 0 l) (gh 128 R H 0 l') = d) ->
  aligned (Nat.max (length l) (length l')) l <> aligned (Nat.max (length l) (length l')) l' -> (length Hs <= Nat.max (length l) (length l'))%nat.
Proof. apply few_collisions; [exact w128 | exact R_top | exact x_full | exact x_order]. Qed.
