(** Properties C66 and C84: key agreement, and points of small order. *)
From Coq Require Import Znumtheory.
From Verif Require Import Base BaseP S_Bignum M_Bignum P_Bignum S_X25519 M_X25519 P_X25519 P_Prime25519 P_F25519 P_Ladder P_Edwards P_DH Prop_X25519.
Open Scope Z_scope.

(** ** C66: both parties compute the same secret, from any common coordinate. *)
Lemma clamp_even k : clamp k mod 2 = 0.
Proof. unfold clamp. replace (2 ^ 254 + 8 * (k / 8 mod 2 ^ 251)) with ((2 ^ 253 + 4 * (k / 8 mod 2 ^ 251)) * 2) by lia. apply Z.mod_mul. lia. Qed.
Lemma rfc_mulu k u : inF (rfc_x25519 k u) = mulu k (inF u).
Proof. unfold mulu. apply rfc_F. Qed.
Lemma rfc_comm j k u : rfc_x25519 (clamp j) (rfc_x25519 (clamp k) u) = rfc_x25519 (clamp k) (rfc_x25519 (clamp j) u).
Proof.
  pose proof (clamp_range j) as Rj. pose proof (clamp_range k) as Rk.
  assert (Q : inF (rfc_x25519 (clamp j) (rfc_x25519 (clamp k) u)) = inF (rfc_x25519 (clamp k) (rfc_x25519 (clamp j) u))).
  { rewrite !rfc_mulu. apply mulu_comm; [split; [lia | apply Rj] | split; [lia | apply Rk] | apply clamp_even | apply clamp_even]. }
  apply inF_eq in Q. rewrite !Z.mod_small in Q by apply rfc_range. exact Q.
Qed.
Theorem C66_agreement a b u : bytes a -> bytes b -> bytes u -> length a = 32%nat -> length b = 32%nat -> length u = 32%nat ->
  exists pa pb s, x25519_bytes a u = Ok pa /\ x25519_bytes b u = Ok pb /\ bytes s /\ length s = 32%nat /\
    x25519_bytes a pb = Ok s /\ x25519_bytes b pa = Ok s.
Proof.
  intros Ha Hb Hu La Lb Lu.
  set (ka := clamp (le_val a)). set (kb := clamp (le_val b)). set (x := le_val u).
  exists (le_bytes 32 (rfc_x25519 ka x)), (le_bytes 32 (rfc_x25519 kb x)), (le_bytes 32 (rfc_x25519 ka (rfc_x25519 kb x))).
  assert (V : forall k y, le_val (le_bytes 32 (rfc_x25519 k y)) = rfc_x25519 k y).
  { intros k y. pose proof (rfc_range k y) as R. apply le_val_bytes. change (256 ^ Z.of_nat 32) with (2 ^ 256). change p25519 with (2 ^ 255 - 19) in R. lia. }
  split; [apply x25519_bytes_ok; assumption|]. split; [apply x25519_bytes_ok; assumption|].
  split; [apply le_bytes_bytes|]. split; [apply le_bytes_length|].
  rewrite !x25519_bytes_ok by (assumption || apply le_bytes_bytes || apply le_bytes_length). rewrite !V. fold ka kb.
  split; [reflexivity|]. f_equal. f_equal. unfold ka, kb. apply rfc_comm.
Qed.
Print Assumptions C66_agreement.
(** The same for the class X25519's bignums. *)
Theorem C66_agreement_words a b u : bn 8 a -> bn 8 b -> bn 8 u ->
  exists pa pb s, X25519 a u = Ok pa /\ X25519 b u = Ok pb /\ bn 8 s /\ X25519 a pb = Ok s /\ X25519 b pa = Ok s.
Proof.
  intros Ha Hb Hu. destruct (X25519_ok a u Ha Hu) as (pa & Ea & Ba & Va), (X25519_ok b u Hb Hu) as (pb & Eb & Bb & Vb).
  destruct (X25519_ok a pb Ha Bb) as (s & Es & Bs & Vs), (X25519_ok b pa Hb Ba) as (s' & Es' & Bs' & Vs').
  exists pa, pb, s. split; [exact Ea|]. split; [exact Eb|]. split; [exact Bs|]. split; [exact Es|]. rewrite Es'. f_equal.
  apply (val_inj 8); [exact Bs' | exact Bs |]. rewrite Vs, Vs', Va, Vb. apply rfc_comm.
Qed.
Print Assumptions C66_agreement_words.

Definition base_point : list Z := 9 :: repeat 0 31.
(** Meeting the hypotheses: the base point and two different keys. *)
Example C66_case : bytes base_point /\ length base_point = 32%nat /\ le_val base_point = 9 /\ bytes (repeat 0x77 32) /\ clamp (le_val (repeat 0x77 32)) <> clamp (le_val k0).
Proof. split; [apply bytesb_iff; reflexivity|]. split; [reflexivity|]. split; [reflexivity|]. split; [apply bytesb_iff; reflexivity | vm_compute; discriminate]. Qed.

(** ** C84: the five coordinates of points of small order, in every representation, give the
    all-zero secret under every key, and it is returned like any other result. *)
Definition small_order : list Z :=
  [0; 1; 2 ^ 255 - 20;
   325606250916557431795983626356110631294008115727848805560023387167927233504;
   39382357235489614581723060781553021112529911719440698176882885853963445705823].
Lemma rfc_zero k u : inF (rfc_x25519 k u) = F0 -> rfc_x25519 k u = 0.
Proof. intros Q. apply inF_eq in Q. rewrite !Z.mod_small in Q by (first [apply rfc_range | split; [discriminate | reflexivity]]). exact Q. Qed.
Definition small_check (v : Z) : bool :=
  fz (Fmul (fst (dbl (dbl (dbl (inF v, F1))))) (snd (dbl (dbl (dbl (inF v, F1)))))) =? 0.
Lemma small_order_ok : forallb small_check small_order = true. Proof. vm_compute. reflexivity. Qed.
Lemma small_check_ok k v : small_check v = true -> rfc_x25519 (clamp k) v = 0.
Proof.
  unfold small_check. intros C. apply Z.eqb_eq in C. apply rfc_zero. rewrite rfc_mulu.
  assert (E : Fmul (fst (dbl (dbl (dbl (inF v, F1))))) (snd (dbl (dbl (dbl (inF v, F1))))) = F0) by (apply F_eq; rewrite C; reflexivity).
  clear C. pose proof (clamp_range k) as R.
  assert (K : clamp k = 8 * (2 ^ 251 + k / 8 mod 2 ^ 251)) by (unfold clamp; lia). rewrite K in *. apply mulu_small; [lia | apply R | exact E].
Qed.
Theorem C84_small_order k u : bytes k -> bytes u -> length k = 32%nat -> length u = 32%nat ->
  In (le_val u mod (2 ^ 255 - 19)) small_order -> x25519_bytes k u = Ok (repeat 0 32).
Proof.
  intros Hk Hu Lk Lu H. rewrite x25519_bytes_ok by assumption. pose proof (proj1 (forallb_forall _ _) small_order_ok _ H) as C. clear H.
  rewrite (rfc_mod _ (le_val u) (le_val u mod (2 ^ 255 - 19))) by (symmetry; apply mod_p_mod). rewrite small_check_ok by exact C. reflexivity.
Qed.
Print Assumptions C84_small_order.
(** Meeting the hypotheses: a coordinate of order eight, and 1 in its other representation. *)
Example C84_case : In (le_val (le_bytes 32 39382357235489614581723060781553021112529911719440698176882885853963445705823) mod (2 ^ 255 - 19)) small_order /\
  In (le_val (0xee :: repeat 0xff 30 ++ [0x7f]) mod (2 ^ 255 - 19)) small_order.
Proof. split; vm_compute; tauto. Qed.
