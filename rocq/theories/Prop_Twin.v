(** Property C92: a coordinate and its inverse give the same secret. *)
From Coq Require Import Znumtheory.
From Verif Require Import Base BaseP S_X25519 M_X25519 P_Prime25519 P_F25519 P_Ladder P_Edwards P_DH Prop_X25519 Prop_DH Prop_Keys.
Open Scope Z_scope.

Section Turn.
Local Open Scope F_scope.
Variables e d : F.
Hypothesis NS : forall s, (s * s)%F <> d.
Hypothesis C : curve e d.
(** Adding the point (0, -1) of order two. *)
Definition turn (P : F * F) : F * F := ((- fst P)%F, (- snd P)%F).
Lemma turn_on P : on d P -> on d (turn P).
Proof.
  destruct P as [x y]; unfold on, turn; cbn [fst snd]; intros H. transitivity (x * x + y * y)%F; [ring|]. rewrite H. ring.
Qed.
Lemma turn_double P : eadd d (turn P) (turn P) = eadd d P P.
Proof.
  destruct P as [x y]; unfold eadd, den, turn; cbn [fst snd].
  assert (D : (d * (- x * - x) * (- y * - y))%F = (d * (x * x) * (y * y))%F) by ring. rewrite D.
  assert (X : (- x * - y + - y * - x)%F = (x * y + y * x)%F) by ring. assert (Y : (- y * - y - - x * - x)%F = (y * y - x * x)%F) by ring. rewrite X, Y. reflexivity.
Qed.
Lemma nmul_double2 m P : on d P -> nmul d (m * 2) P = nmul d m (eadd d P P).
Proof. intros H. rewrite (nmul_mul d NS) by exact H. assert (E : nmul d 2 P = eadd d P P) by (cbn [nmul]; rewrite eadd_0_r; reflexivity). rewrite E. reflexivity. Qed.
Lemma turn_even m P : on d P -> nmul d (m * 2) (turn P) = nmul d (m * 2) P.
Proof. intros H. rewrite !nmul_double2 by (try apply turn_on; exact H). rewrite turn_double. reflexivity. Qed.
Lemma turn_u P u v : (u * v)%F = F1 -> ucoord e (snd P) = u -> ucoord e (snd (turn P)) = v.
Proof.
  intros UV U. assert (U0 : u <> F0) by (intros E; apply F1_F0; rewrite <- UV, E; ring).
  destruct P as [x y]; unfold turn; cbn [fst snd] in *. unfold ucoord in *.
  assert (Y1 : (1 - y)%F <> F0) by (intros E; apply U0; rewrite <- U, E, Finv_0; ring).
  assert (Y2 : (1 + y)%F <> F0) by (intros E; apply U0; rewrite <- U, E; ring).
  apply (F_cancel u); [exact U0|]. rewrite UV, <- U.
  replace (1 + - y)%F with (1 - y)%F by ring. replace (1 - - y)%F with (1 + y)%F by ring.
  transitivity ((e * e) * (Finv (1 - y) * (1 - y)) * (Finv (1 + y) * (1 + y)))%F; [ring|].
  rewrite !Finv_l by assumption. rewrite (e_sq d e C). ring.
Qed.
End Turn.
Lemma mulu_inverse k u v : 0 <= k < 2 ^ 255 -> k mod 2 = 0 -> Fmul u v = F1 -> mulu k u = mulu k v.
Proof.
  intros Hk Ev UV. destruct (lift u) as (e & d & B & NS & C & HB & Eu).
  pose proof (turn_u e d C B u v UV Eu) as Et. unfold mulu. rewrite <- Et, <- Eu.
  rewrite !(ladder_mul d NS e C) by (try apply turn_on; assumption).
  assert (K : Z.to_nat k = (Z.to_nat (k / 2) * 2)%nat) by (pose proof (Z.div_mod k 2 ltac:(lia)); lia).
  rewrite K, (turn_even d NS) by exact HB. reflexivity.
Qed.

(** ** C92 *)
Theorem C92_inverse k u v : bytes k -> bytes u -> bytes v -> length k = 32%nat -> length u = 32%nat -> length v = 32%nat ->
  (le_val u * le_val v) mod (2 ^ 255 - 19) = 1 -> x25519_bytes k u = x25519_bytes k v.
Proof.
  intros Hk Hu Hv Lk Lu Lv H. rewrite !x25519_bytes_ok by assumption. f_equal. f_equal.
  set (x := le_val u) in *. set (y := le_val v) in *. clearbody x y. pose proof (clamp_range (le_val k)) as R. pose proof (clamp_even (le_val k)) as Ev. set (c := clamp (le_val k)) in *. clearbody c.
  assert (Q : inF (rfc_x25519 c x) = inF (rfc_x25519 c y)).
  { rewrite !rfc_mulu. apply mulu_inverse; [split; [lia | apply R] | exact Ev |]. rewrite <- inF_mul. apply inF_eq. change p25519 with (2 ^ 255 - 19). rewrite H. reflexivity. }
  apply inF_eq in Q. rewrite !Z.mod_small in Q by apply rfc_range. exact Q.
Qed.
Print Assumptions C92_inverse.
(** Two different peer keys, neither of them of small order, one the base point. *)
Definition ninth : list Z := le_bytes 32 32164469232587832062103051391302196625908329073789045566515995557753647122194.
Example C92_case : bytes ninth /\ length ninth = 32%nat /\ ninth <> base_point /\ (le_val base_point * le_val ninth) mod (2 ^ 255 - 19) = 1 /\ ~ In (le_val ninth) small_order.
Proof.
  split; [apply le_bytes_bytes|]. split; [reflexivity|]. split; [vm_compute; discriminate|]. split; [vm_compute; reflexivity|].
  vm_compute. intros H. repeat (destruct H as [H|H]; [discriminate H|]). exact H.
Qed.
(** So a secret does not identify the public key that a peer sent. *)
Corollary C92_secret_identifies_peer_refuted : exists k u v, bytes k /\ bytes u /\ bytes v /\ length k = 32%nat /\ length u = 32%nat /\ length v = 32%nat /\
  le_val u mod (2 ^ 255 - 19) <> le_val v mod (2 ^ 255 - 19) /\ x25519_bytes k u = x25519_bytes k v /\ x25519_bytes k u <> Ok (repeat 0 32).
Proof.
  exists k0, base_point, ninth. destruct C92_case as (Hn & Ln & _ & V & _).
  split; [apply bytesb_iff; reflexivity|]. split; [apply bytesb_iff; reflexivity|]. split; [exact Hn|]. split; [reflexivity|]. split; [reflexivity|]. split; [exact Ln|].
  split; [vm_compute; discriminate|]. split; [apply C92_inverse; try reflexivity; try assumption; apply bytesb_iff; reflexivity|].
  destruct (C85_nonzero k0 k0) as (pb & s & E & _ & N & _); try reflexivity; try (apply bytesb_iff; reflexivity). rewrite E. intros Q. apply N. apply Ok_inj, Q.
Qed.
