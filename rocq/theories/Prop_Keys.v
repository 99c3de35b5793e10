(** Properties C85, C86 and C87: what the keys and secrets of an honest exchange can be. *)
From Coq Require Import Znumtheory.
From Verif Require Import Base BaseP S_X25519 M_X25519 P_Prime25519 P_F25519 P_Ladder P_Edwards P_DH P_Order P_Base9 Prop_X25519 Prop_DH.
Open Scope Z_scope.

(** A private key is eight times a number below the order of the base point. *)
Definition cofree (k : Z) : Z := 2 ^ 251 + k / 8 mod 2 ^ 251.
Lemma clamp_cofree k : clamp k = 8 * cofree k. Proof. unfold clamp, cofree. lia. Qed.
Lemma cofree_range k : 2 ^ 251 <= cofree k < 2 ^ 252. Proof. unfold cofree. pose proof (Z.mod_pos_bound (k / 8) (2 ^ 251) ltac:(lia)). lia. Qed.
Lemma ell_range : 2 ^ 252 < ell < 2 ^ 252 + 2 ^ 125. Proof. split; reflexivity. Qed.
Lemma ell_cofree k : ~ (ell | cofree k).
Proof. intros D. pose proof (cofree_range k). pose proof ell_range. apply Z.divide_pos_le in D; lia. Qed.
Lemma ell_8 x : (ell | 8 * x) -> (ell | x).
Proof.
  intros D. apply prime_mult in D; [|exact prime_ell]. destruct D as [D|D]; [|exact D]. pose proof ell_range. apply Z.divide_pos_le in D; lia.
Qed.
Lemma ell_clamp k : ~ (ell | clamp k).
Proof. rewrite clamp_cofree. intros D. apply ell_8 in D. exact (ell_cofree k D). Qed.
Lemma ell_clamps j k : ~ (ell | clamp j * clamp k).
Proof. intros D. apply prime_mult in D; [|exact prime_ell]. destruct D as [D|D]; exact (ell_clamp _ D). Qed.

Definition pub (k : Z) : Z := rfc_x25519 (clamp k) 9.
Definition shared (j k : Z) : Z := rfc_x25519 (clamp j) (pub k).
Lemma pub_range k : 0 <= pub k < p25519. Proof. unfold pub. apply rfc_range. Qed.
Lemma shared_range j k : 0 <= shared j k < p25519. Proof. unfold shared. apply rfc_range. Qed.
(** One curve point behind both. *)
Lemma behind : exists e d B, (forall s, Fmul s s <> d) /\ curve e d /\ on d B /\ ucoord e (snd B) = inF 9 /\
  (forall k, inF (pub k) = ucoord e (snd (nmul d (Z.to_nat (clamp k)) B))) /\
  (forall j k, inF (shared j k) = ucoord e (snd (nmul d (Z.to_nat (clamp j * clamp k)) B))).
Proof.
  destruct (lift (inF 9)) as (e & d & B & NS & C & HB & U). exists e, d, B. split; [exact NS|]. split; [exact C|]. split; [exact HB|]. split; [exact U|].
  assert (P : forall k, inF (pub k) = ucoord e (snd (nmul d (Z.to_nat (clamp k)) B))).
  { intros k. unfold pub. rewrite rfc_mulu. unfold mulu. rewrite <- U. pose proof (clamp_range k) as R. apply (ladder_mul d NS e C); [exact HB | split; [lia | apply R] | apply clamp_even]. }
  split; [exact P|]. intros j k. unfold shared. rewrite rfc_mulu, P. unfold mulu. pose proof (clamp_range k) as Rk. pose proof (clamp_range j) as R.
  rewrite (ladder_mul d NS e C) by (first [apply nmul_on; assumption | split; [lia | apply R] | apply clamp_even]).
  rewrite Z2Nat.inj_mul, (nmul_mul d NS) by (assumption || lia). reflexivity.
Qed.
Lemma range_inj x y : 0 <= x < p25519 -> 0 <= y < p25519 -> inF x = inF y -> x = y.
Proof. intros Hx Hy H. apply inF_eq in H. rewrite !Z.mod_small in H by assumption. exact H. Qed.
Lemma pub_nonzero k : pub k <> 0.
Proof.
  destruct behind as (e & d & B & NS & C & HB & U & P & _). intros E. apply (ell_clamp k). pose proof (clamp_range k).
  apply (u_zero e d NS C B HB U); [lia|]. rewrite <- P, E. reflexivity.
Qed.
Lemma shared_nonzero j k : shared j k <> 0.
Proof.
  destruct behind as (e & d & B & NS & C & HB & U & _ & P). intros E. apply (ell_clamps j k). pose proof (clamp_range k). pose proof (clamp_range j).
  apply (u_zero e d NS C B HB U); [nia|]. rewrite <- P, E. reflexivity.
Qed.
Definition twins (j k : Z) : Prop := clamp j = clamp k \/ clamp j + clamp k = 8 * (2 ^ 252 + 27742317777372353535851937790883648493).
Lemma twins_iff j k : twins j k <-> (ell | clamp j - clamp k) \/ (ell | clamp j + clamp k).
Proof.
  unfold twins. fold ell. rewrite !clamp_cofree. pose proof (cofree_range j) as Rj. pose proof (cofree_range k) as Rk. pose proof ell_range as RE. set (x := cofree j) in *. set (y := cofree k) in *. clearbody x y. split.
  - intros [E|E]; [left; exists 0; lia | right; exists 8; lia].
  - intros [D|D].
    + left. replace (8 * x - 8 * y) with (8 * (x - y)) in D by ring. apply ell_8 in D. destruct D as [t D]. set (l := ell) in *. clearbody l. assert (t = 0) by nia. subst t. lia.
    + right. replace (8 * x + 8 * y) with (8 * (x + y)) in D by ring. apply ell_8 in D. destruct D as [t D]. set (l := ell) in *. clearbody l. assert (t = 1) by nia. subst t. lia.
Qed.
Lemma pub_equal j k : pub j = pub k <-> twins j k.
Proof.
  rewrite twins_iff. destruct behind as (e & d & B & NS & C & HB & U & P & _). pose proof (clamp_range k). pose proof (clamp_range j). split.
  - intros E. apply (u_equal e d NS C B HB U); [lia | lia | apply ell_clamp|]. rewrite <- !P, E. reflexivity.
  - intros D. apply range_inj; [apply pub_range | apply pub_range |]. rewrite !P. apply (equal_u e d NS C B HB U); [lia | lia | exact D].
Qed.
Lemma shared_equal a j k : shared a j = shared a k <-> twins j k.
Proof.
  rewrite twins_iff. destruct behind as (e & d & B & NS & C & HB & U & _ & P). pose proof (clamp_range k). pose proof (clamp_range j). pose proof (clamp_range a).
  assert (F : (ell | clamp a * clamp j - clamp a * clamp k) \/ (ell | clamp a * clamp j + clamp a * clamp k) <-> (ell | clamp j - clamp k) \/ (ell | clamp j + clamp k)).
  { rewrite <- Z.mul_sub_distr_l, <- Z.mul_add_distr_l. assert (M : forall x, (ell | clamp a * x) <-> (ell | x)).
    { intros x; split; [|apply Z.divide_mul_r]. intros D. apply prime_mult in D; [|exact prime_ell]. destruct D as [D|D]; [destruct (ell_clamp a D) | exact D]. }
    rewrite !M. reflexivity. }
  rewrite <- F. split.
  - intros E. apply (u_equal e d NS C B HB U); [nia | nia | apply ell_clamps|]. rewrite <- !P, E. reflexivity.
  - intros D. apply range_inj; [apply shared_range | apply shared_range |]. rewrite !P. apply (equal_u e d NS C B HB U); [nia | nia | exact D].
Qed.

(** ** On byte strings *)
Lemma rfc_bytes_val k u : le_val (le_bytes 32 (rfc_x25519 k u)) = rfc_x25519 k u.
Proof. pose proof (rfc_range k u) as R. apply le_val_bytes. change (256 ^ Z.of_nat 32) with (2 ^ 256). change p25519 with (2 ^ 255 - 19) in R. lia. Qed.
Lemma base_ok : bytes base_point /\ length base_point = 32%nat /\ le_val base_point = 9.
Proof. split; [apply bytesb_iff; reflexivity|]. split; reflexivity. Qed.
Lemma pub_bytes a : bytes a -> length a = 32%nat -> x25519_bytes a base_point = Ok (le_bytes 32 (pub (le_val a))).
Proof. intros Ha La. destruct base_ok as (Hb & Lb & V). rewrite x25519_bytes_ok by assumption. rewrite V. unfold pub. reflexivity. Qed.
Lemma shared_bytes a b : bytes a -> length a = 32%nat -> x25519_bytes a (le_bytes 32 (pub b)) = Ok (le_bytes 32 (shared (le_val a) b)).
Proof.
  intros Ha La. rewrite x25519_bytes_ok by (assumption || apply le_bytes_bytes || apply le_bytes_length). unfold shared, pub. rewrite rfc_bytes_val. reflexivity.
Qed.
Lemma range_val x : 0 <= x < p25519 -> le_val (le_bytes 32 x) = x.
Proof. intros R. apply le_val_bytes. change (256 ^ Z.of_nat 32) with (2 ^ 256). change p25519 with (2 ^ 255 - 19) in R. lia. Qed.
Lemma bytes_inj x y : 0 <= x < p25519 -> 0 <= y < p25519 -> le_bytes 32 x = le_bytes 32 y -> x = y.
Proof. intros Hx Hy H. apply (f_equal le_val) in H. rewrite !range_val in H by assumption. exact H. Qed.
Lemma bytes_nonzero x : 0 <= x < p25519 -> x <> 0 -> le_bytes 32 x <> repeat 0 32.
Proof. intros Hx N H. apply N. apply (f_equal le_val) in H. rewrite range_val in H by exact Hx. exact H. Qed.

Lemma Ok_inj (x y : list Z) : Ok x = Ok y -> x = y. Proof. intros H; injection H as H; exact H. Qed.

(** ** C85: an honest exchange never meets the all-zero string. *)
Theorem C85_nonzero a b : bytes a -> bytes b -> length a = 32%nat -> length b = 32%nat ->
  exists pb s, x25519_bytes b base_point = Ok pb /\ x25519_bytes a pb = Ok s /\ pb <> repeat 0 32 /\ s <> repeat 0 32.
Proof.
  intros Ha Hb La Lb. exists (le_bytes 32 (pub (le_val b))), (le_bytes 32 (shared (le_val a) (le_val b))).
  split; [apply pub_bytes; assumption|]. split; [apply shared_bytes; assumption|].
  split; apply bytes_nonzero; [apply pub_range | apply pub_nonzero | apply shared_range | apply shared_nonzero].
Qed.
Print Assumptions C85_nonzero.
Example C85_case : bytes k0 /\ length k0 = 32%nat /\ clamp (le_val k0) = 2 ^ 254.
Proof. split; [apply bytesb_iff; reflexivity|]. split; vm_compute; reflexivity. Qed.

(** ** C86: two private keys have the same public key exactly if they agree in the bits that
    clamping keeps, or their clamped values add up to eight times the order. *)
Theorem C86_public_keys a b : bytes a -> bytes b -> length a = 32%nat -> length b = 32%nat ->
  (x25519_bytes a base_point = x25519_bytes b base_point <->
   clamp (le_val a) = clamp (le_val b) \/
   clamp (le_val a) + clamp (le_val b) = 8 * (2 ^ 252 + 27742317777372353535851937790883648493)).
Proof.
  intros Ha Hb La Lb. rewrite !pub_bytes by assumption. fold (twins (le_val a) (le_val b)). rewrite <- pub_equal. split.
  - intros E. apply Ok_inj in E. apply bytes_inj in E; [exact E | apply pub_range | apply pub_range].
  - intros ->. reflexivity.
Qed.
Print Assumptions C86_public_keys.
(** Such a pair of different keys. *)
Definition twin_a : list Z := le_bytes 32 (2 ^ 254).
Definition twin_b : list Z := le_bytes 32 (2 ^ 254 + 8 * 27742317777372353535851937790883648493).
Example C86_case : bytes twin_a /\ bytes twin_b /\ length twin_a = 32%nat /\ length twin_b = 32%nat /\ clamp (le_val twin_a) <> clamp (le_val twin_b) /\
  clamp (le_val twin_a) + clamp (le_val twin_b) = 8 * (2 ^ 252 + 27742317777372353535851937790883648493).
Proof. split; [apply le_bytes_bytes|]. split; [apply le_bytes_bytes|]. split; [reflexivity|]. split; [reflexivity|]. split; vm_compute; [discriminate | reflexivity]. Qed.

(** ** C87: with one's own key fixed, different public keys of peers give different secrets. *)
Theorem C87_secrets_differ a b c : bytes a -> bytes b -> bytes c -> length a = 32%nat -> length b = 32%nat -> length c = 32%nat ->
  exists pb pc sb sc, x25519_bytes b base_point = Ok pb /\ x25519_bytes c base_point = Ok pc /\
    x25519_bytes a pb = Ok sb /\ x25519_bytes a pc = Ok sc /\ (sb = sc <-> pb = pc).
Proof.
  intros Ha Hb Hc La Lb Lc. exists (le_bytes 32 (pub (le_val b))), (le_bytes 32 (pub (le_val c))), (le_bytes 32 (shared (le_val a) (le_val b))), (le_bytes 32 (shared (le_val a) (le_val c))).
  split; [apply pub_bytes; assumption|]. split; [apply pub_bytes; assumption|]. split; [apply shared_bytes; assumption|]. split; [apply shared_bytes; assumption|]. split.
  - intros E. apply bytes_inj in E; [|apply shared_range | apply shared_range]. apply shared_equal, pub_equal in E. rewrite E. reflexivity.
  - intros E. apply bytes_inj in E; [|apply pub_range | apply pub_range]. apply pub_equal in E. f_equal. apply shared_equal, E.
Qed.
Print Assumptions C87_secrets_differ.
(** Two peers with different public keys. *)
Example C87_case : bytes k0 /\ bytes (repeat 0x77 32) /\ ~ twins (le_val k0) (le_val (repeat 0x77 32)).
Proof. split; [apply bytesb_iff; reflexivity|]. split; [apply bytesb_iff; reflexivity|]. vm_compute. intros [H|H]; discriminate H. Qed.
