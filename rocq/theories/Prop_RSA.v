(** Property theorems for RSA (C57 - C63). *)
From Coq Require Import Znumtheory.
From Verif Require Import Base BaseP S_Hash M_Hash P_Hash Prop_Hash M_HKDF P_HKDF Prop_HKDF S_Bignum M_Bignum P_Bignum Prop_Bignum M_Mont P_Mont P_Fermat P_Prime S_RSA M_RSA P_RSA RSA_Keys.
Open Scope Z_scope.

(** A key pair: n = p q with distinct odd primes, e d = 1 modulo lcm(p - 1, q - 1).  [w] is the
    number of 32-bit words of the template width. *)
Definition key_pair (w : nat) (N e d : list Z) (p q : Z) : Prop :=
  (0 < w)%nat /\ 32 * Z.of_nat w < 2 ^ 64 /\ bn w N /\ bn w e /\ bn w d /\
  prime p /\ prime q /\ p <> q /\ p <> 2 /\ q <> 2 /\ val N = p * q /\
  (val e * val d - 1) mod Z.lcm (p - 1) (q - 1) = 0.

Lemma prime_odd p : prime p -> p <> 2 -> Z.odd p = true.
Proof.
  intros H N2. pose proof (prime_ge_2 p H). destruct (Z.odd p) eqn:E; [reflexivity|]. rewrite <- Z.negb_even, Bool.negb_false_iff in E.
  apply Z.even_spec in E; destruct E as [k E]. destruct (prime_divisors p H 2) as [D|[D|[D|D]]]; [exists k; lia | lia | lia | lia | lia].
Qed.
Lemma pair_odd w N e d p q : key_pair w N e d p q -> Z.odd (val N) = true.
Proof. intros (_ & _ & _ & _ & _ & Hp & Hq & _ & P2 & Q2 & -> & _). rewrite Z.odd_mul, !prime_odd by assumption; reflexivity. Qed.
Lemma pair_exps w N e d p q : key_pair w N e d p q -> 0 < val e /\ 0 < val d /\ 1 < val N /\ forall m, (val N | m ^ (val e * val d) - m).
Proof.
  intros (_ & _ & _ & He & Hd & Hp & Hq & PQ & P2 & Q2 & EN & EX).
  pose proof (prime_ge_2 p Hp); pose proof (prime_ge_2 q Hq). apply bn_range in He; apply bn_range in Hd.
  assert (LM : Z.lcm (p - 1) (q - 1) <> 1).
  { intros E. pose proof (Z.divide_lcm_l (p - 1) (q - 1)) as D. rewrite E in D. apply Z.divide_1_r_nonneg in D; lia. }
  assert (LP : 0 < Z.lcm (p - 1) (q - 1)).
  { pose proof (Z.lcm_nonneg (p - 1) (q - 1)). enough (Z.lcm (p - 1) (q - 1) <> 0) by lia. rewrite Z.lcm_eq_0; lia. }
  assert (PE : 0 < val e * val d).
  { destruct (Z.eq_dec (val e * val d) 0) as [C|C]; [|nia]. rewrite C in EX. apply Z.mod_divide in EX; [|lia]. destruct EX as [k EX]. exfalso. assert (k < 0) by nia. nia. }
  split; [nia|]; split; [nia|]; split; [rewrite EN; nia|]. intros m. rewrite EN. apply rsa_exponents; assumption.
Qed.
(** Weaker, and all that is needed below: an odd modulus for which the exponents cancel (as
    also for products of more than two distinct primes). *)
Definition key_ok (w : nat) (N e d : list Z) : Prop :=
  (0 < w)%nat /\ 32 * Z.of_nat w < 2 ^ 64 /\ bn w N /\ bn w e /\ bn w d /\ Z.odd (val N) = true /\ 1 < val N /\
  0 < val e /\ 0 < val d /\ forall m, (val N | m ^ (val e * val d) - m).
Theorem key_pair_ok w N e d p q : key_pair w N e d p q -> key_ok w N e d.
Proof.
  intros K. pose proof (pair_odd _ _ _ _ _ _ K) as HO. pose proof (pair_exps _ _ _ _ _ _ K) as (E0 & D0 & N1 & DV).
  destruct K as (Hw & LW & HN & He & Hd & _). unfold key_ok; auto 12.
Qed.
Lemma odd_pos w N : bn w N -> Z.odd (val N) = true -> 0 < val N.
Proof. intros H O. apply bn_range in H. destruct (Z.eq_dec (val N) 0) as [E|]; [rewrite E in O; discriminate O | lia]. Qed.
Lemma powers_cancel w N x e d s r : 0 < N -> 0 <= x < N -> 0 < e -> 0 < d -> (N | x ^ (e * d) - x) ->
  power_ok w N x e s -> power_ok w N (val s) d r -> val r = x.
Proof.
  intros NP HX E0 D0 D (Hs & Vs & Zs) (Hr & Vr & Zr). destruct (Z.eq_dec x 0) as [X0|X0].
  - rewrite (Zr (Zs X0 E0) D0). symmetry; exact X0.
  - assert (M1 : val s mod N = x ^ e mod N).
    { destruct Vs as [->|[-> Vs]]; [apply Z.mod_mod; lia | rewrite Z.mod_same by lia; symmetry; exact Vs]. }
    assert (M2 : val s ^ d mod N = x).
    { rewrite (pow_mod_eq N (val s) (x ^ e) d NP M1), <- Z.pow_mul_r by lia. rewrite <- (Z.mod_small x N) at 2 by exact HX. apply divide_mod; assumption. }
    rewrite M2 in Vr. destruct Vr as [Vr|[_ Vr]]; [exact Vr | contradiction].
Qed.

(** Words of a number, for the examples. *)
Fixpoint words (w : nat) (z : Z) : list Z := match w with O => [] | S k => z mod 2 ^ 32 :: words k (z / 2 ^ 32) end.
Lemma words_bn w : forall z, bn w (words w z).
Proof. induction w as [|w IH]; intros z; [split; [reflexivity | constructor]|]. cbn [words]; apply bn_cons; split; [apply Z.mod_pos_bound; lia | apply IH]. Qed.
Lemma words_val w : forall z, 0 <= z < 2 ^ (32 * Z.of_nat w) -> val (words w z) = z.
Proof.
  induction w as [|w IH]; intros z H; [change (2 ^ (32 * Z.of_nat 0)) with 1 in H; cbn [words val]; lia|]. cbn [words]. rewrite val_cons, pow_S in *.
  rewrite IH by (split; [apply Z.div_pos; lia | apply Z.div_lt_upper_bound; lia]). pose proof (Z.div_mod z (2 ^ 32) ltac:(lia)); lia.
Qed.
Lemma example_key w l e d : (0 < w)%nat -> 32 * Z.of_nat w < 2 ^ 64 -> key_check l e d = true -> Z.odd (prods l) = true -> 1 < prods l < 2 ^ (32 * Z.of_nat w) ->
  0 < e < 2 ^ (32 * Z.of_nat w) -> 0 < d < 2 ^ (32 * Z.of_nat w) -> key_ok w (words w (prods l)) (words w e) (words w d).
Proof.
  intros Hw LW K O HP He Hd. unfold key_ok. rewrite !words_val by lia. repeat (split; [first [assumption | apply words_bn | lia]|]). apply key_check_ok, K.
Qed.
Lemma key272 : key_ok 9 (words 9 N272) (words 9 65537) (words 9 D272).
Proof. destruct K272 as [E K]. rewrite E. apply example_key; [lia | lia | exact K | reflexivity | split; reflexivity | split; reflexivity | split; reflexivity]. Qed.
Lemma key277 : key_ok 9 (words 9 N277) (words 9 65537) (words 9 D277).
Proof. destruct K277 as [E K]. rewrite E. apply example_key; [lia | lia | exact K | reflexivity | split; reflexivity | split; reflexivity | split; reflexivity]. Qed.
Lemma key304 : key_ok 10 (words 10 N304) (words 10 65537) (words 10 D304).
Proof. destruct K304 as [E K]. rewrite E. apply example_key; [lia | lia | exact K | reflexivity | split; reflexivity | split; reflexivity | split; reflexivity]. Qed.

(** ** C57 *)
Theorem C57_inverse_any : forall w N e d, key_ok w N e d ->
  exists pk sk, rsa_public_key w N e = Ok pk /\ rsa_private_key w N d = Ok sk /\
    forall m, bn w m -> val m < val N ->
      (exists s, rsadp w sk m = Ok s /\ rsaep w pk s = Ok m) /\
      (exists c, rsaep w pk m = Ok c /\ rsadp w sk c = Ok m).
Proof.
  intros w N e d (Hw & LW & HN & He & Hd & HO & N1 & E0 & D0 & DV).
  destruct (public_key_ok w N e Hw HN HO He) as (pk & Epk & Gp & Pe & _).
  destruct (private_key_ok w N d Hw LW HN HO Hd) as (sk & Esk & Gs & Pd & _).
  exists pk, sk; split; [exact Epk|]; split; [exact Esk|]. intros m Hm Lm. pose proof (bn_range _ _ Hm) as Bm. split.
  - destruct (rsadp_ok w sk _ m Gs ltac:(rewrite Pd; exact Hd) Hm) as (s & Es & Ps). exists s; split; [exact Es|].
    destruct (rsaep_ok w pk _ s Gp ltac:(rewrite Pe; exact He) (proj1 Ps)) as (r & Er & Pr). rewrite Er; f_equal.
    apply (val_inj w); [apply Pr | exact Hm|]. rewrite Pd in Ps; rewrite Pe in Pr.
    refine (powers_cancel w (val N) (val m) _ _ s r _ _ D0 E0 _ Ps Pr); [lia | lia | rewrite Z.mul_comm; apply DV].
  - destruct (rsaep_ok w pk _ m Gp ltac:(rewrite Pe; exact He) Hm) as (s & Es & Ps). exists s; split; [exact Es|].
    destruct (rsadp_ok w sk _ s Gs ltac:(rewrite Pd; exact Hd) (proj1 Ps)) as (r & Er & Pr). rewrite Er; f_equal.
    apply (val_inj w); [apply Pr | exact Hm|]. rewrite Pe in Ps; rewrite Pd in Pr.
    refine (powers_cancel w (val N) (val m) _ _ s r _ _ E0 D0 _ Ps Pr); [lia | lia | apply DV].
Qed.
Print Assumptions C57_inverse_any.
Theorem C57_inverse : forall w N e d p q, key_pair w N e d p q ->
  exists pk sk, rsa_public_key w N e = Ok pk /\ rsa_private_key w N d = Ok sk /\
    forall m, bn w m -> val m < val N ->
      (exists s, rsadp w sk m = Ok s /\ rsaep w pk s = Ok m) /\
      (exists c, rsaep w pk m = Ok c /\ rsadp w sk c = Ok m).
Proof. intros w N e d p q K; apply C57_inverse_any, (key_pair_ok _ _ _ _ _ _ K). Qed.
Print Assumptions C57_inverse.
(** And what each primitive computes, for any odd modulus. *)
Theorem C57_power : forall w N e m, (0 < w)%nat -> bn w N -> Z.odd (val N) = true -> bn w e -> bn w m ->
  exists pk r, rsa_public_key w N e = Ok pk /\ rsaep w pk m = Ok r /\ val r mod val N = val m ^ val e mod val N /\
    (val m ^ val e mod val N <> 0 -> val r = val m ^ val e mod val N).
Proof.
  intros w N e m Hw HN HO He Hm. destruct (public_key_ok w N e Hw HN HO He) as (pk & Epk & Gp & Pe & _).
  destruct (rsaep_ok w pk _ m Gp ltac:(rewrite Pe; exact He) Hm) as (r & Er & Hr & Vr & _). exists pk, r; split; [exact Epk|]; split; [exact Er|].
  rewrite Pe in *. pose proof (odd_pos _ _ HN HO). destruct Vr as [->|[-> Vr]]; split; intros; try lia.
  - apply Z.mod_mod; lia.
  - rewrite Z.mod_same by lia; symmetry; exact Vr.
Qed.
Print Assumptions C57_power.
Example C57_case : key_pair 1 [77] [65537] [23] 7 11 /\
  (do sk <- rsa_private_key 1 [77] [23]; rsadp 1 sk [33]) = Ok [66] /\ (do pk <- rsa_public_key 1 [77] [65537]; rsaep 1 pk [66]) = Ok [33].
Proof.
  split.
  - assert (B1 : forall x, 0 <= x < 2 ^ 32 -> bn 1 [x]) by (intros x Hx; split; [reflexivity | constructor; [exact Hx | constructor]]).
    split; [lia|]. split; [vm_compute; reflexivity|]. split; [apply B1; lia|]. split; [apply B1; lia|]. split; [apply B1; lia|].
    split; [apply prime_small; [lia | vm_compute; reflexivity]|]. split; [apply prime_small; [lia | vm_compute; reflexivity]|].
    split; [lia|]. split; [lia|]. split; [lia|]. split; vm_compute; reflexivity.
  - split; vm_compute; reflexivity.
Qed.

(** ** C58 *)
Theorem C58_mgf1 : forall a g seed len, supply_ok a g -> bytes seed -> zlen seed < 2 ^ 60 -> 0 <= len <= 2 ^ 32 ->
  MGF a g seed len = Ok (mgf1 (spec_hash a) (spec_size a) seed len) /\ zlen (mgf1 (spec_hash a) (spec_size a) seed len) = len.
Proof. intros a g seed len Hg HS LS HL; split; [apply MGF_ok; assumption | apply mgf1_length; lia]. Qed.
Print Assumptions C58_mgf1.
(** Longer requests give an empty mask. *)
Theorem C58_too_long : forall a g seed len, 2 ^ 32 < len -> MGF a g seed len = Ok [].
Proof. intros a g seed len H; unfold MGF. replace (2 ^ 32 <? len) with true by lia; reflexivity. Qed.
Print Assumptions C58_too_long.
Example C58_case : MGF AMD5 (zsup AMD5) [1; 2] 5 = Ok [26; 131; 146; 149; 42] /\ zlen [1; 2] < 2 ^ 60.
Proof. split; vm_compute; reflexivity. Qed.

(** ** C59 *)
(** [signs L a mh salt sig]: what signing computes, for a modulus of 8 L or a few more bits. *)
Lemma sign_value w a g N d sk mh salt L : (0 < w)%nat -> 32 * Z.of_nat w < 2 ^ 64 -> bn w N -> Z.odd (val N) = true -> bn w d -> rsa_private_key w N d = Ok sk ->
  (Z.log2 (val N) + 1) / 8 = L -> supplies a g -> bytes mh -> bytes salt -> zlen mh + zlen salt < 2 ^ 60 -> zlen salt + spec_size a + 2 <= L <= 2 ^ 32 ->
  exists r, signPss w a g sk mh salt = Ok (be_bytes (Z.to_nat L) (val r)) /\ power_ok w (val N) (be_val (emsa_pss (spec_hash a) (spec_size a) mh salt L)) (val d) r.
Proof.
  intros Hw LW HN HO Hd Esk HB Hg HM HS LM HL. pose proof (bn_range _ _ HN) as BN. pose proof (odd_pos _ _ HN HO) as NP.
  destruct (private_key_ok w N d Hw LW HN HO Hd) as (sk' & Esk' & Gs & Pd & Pb). rewrite Esk in Esk'; injection Esk' as <-.
  assert (LN : Z.log2 (val N) < bits_of w) by (apply Z.log2_lt_pow2; lia).
  pose proof (Z.div_mod (Z.log2 (val N) + 1) 8 ltac:(lia)) as DM. pose proof (Z.mod_pos_bound (Z.log2 (val N) + 1) 8 ltac:(lia)).
  destruct (signPss_eq w a g sk (val N) mh salt L Gs ltac:(rewrite Pd; exact Hd) ltac:(rewrite Pb; exact HB) ltac:(lia) Hg HM HS LM HL) as (s & Es & Ps).
  rewrite Pd in Ps. eauto.
Qed.
Lemma sign_then w a g N e d L mh salt pk sk : key_ok w N e d -> rsa_public_key w N e = Ok pk -> rsa_private_key w N d = Ok sk ->
  Z.log2 (val N) + 1 = 8 * L -> supplies a g -> bytes mh -> bytes salt -> zlen mh + zlen salt < 2 ^ 60 ->
  zlen salt + spec_size a + 2 <= L <= 2 ^ 32 ->
  exists sig, signPss w a g sk mh salt = Ok sig /\ zlen sig = L /\ bytes sig /\
    forall sLen g' message, validatePss w a sLen g' pk message sig = pss_check a sLen g' message (emsa_pss (spec_hash a) (spec_size a) mh salt L).
Proof.
  intros (Hw & LW & HN & He & Hd & HO & N1 & E0 & D0 & DV) Epk Esk HB Hg HM HS LM HL.
  pose proof (spec_size_range a) as SR. pose proof (zlen_nonneg salt) as SN. pose proof (bn_range _ _ HN) as BN.
  destruct (sign_value w a g N d sk mh salt L Hw LW HN HO Hd Esk ltac:(rewrite HB, Z.mul_comm; apply Z.div_mul; lia) Hg HM HS LM HL) as (s & Es & Ps).
  destruct (public_key_ok w N e Hw HN HO He) as (pk' & Epk' & Gp & Pe & _). rewrite Epk in Epk'; injection Epk' as <-.
  eexists; split; [exact Es|]. set (em := emsa_pss (spec_hash a) (spec_size a) mh salt L) in *.
  assert (EV : 0 <= be_val em < 2 ^ (8 * L - 1)) by (apply emsa_pss_val; [lia | exact HS]).
  assert (EL : zlen em = L) by (apply emsa_pss_length; lia). assert (EB : bytes em) by (apply emsa_pss_bytes, HS).
  pose proof (Z.log2_spec (val N) ltac:(lia)) as [LG1 LG2]. replace (Z.succ (Z.log2 (val N))) with (8 * L) in LG2 by lia. replace (Z.log2 (val N)) with (8 * L - 1) in LG1 by lia.
  assert (P256 : 2 ^ (8 * L) = 256 ^ Z.of_nat (Z.to_nat L)) by (rewrite Z2Nat.id by lia; rewrite Z.pow_mul_r by lia; reflexivity).
  assert (Vs : 0 <= val s <= val N).
  { destruct Ps as (_ & [->|[-> _]] & _); [pose proof (Z.mod_pos_bound (be_val em ^ val d) (val N) ltac:(lia)); lia | lia]. }
  split; [unfold zlen; rewrite be_bytes_length; lia|]. split; [apply be_bytes_bytes|]. intros sLen g' message.
  destruct (validatePss_eq w a sLen g' pk (val N) message (be_bytes (Z.to_nat L) (val s)) Gp ltac:(rewrite Pe; exact He) (be_bytes_bytes _ _)) as (r & Pr & ->).
  rewrite be_val_bytes in Pr by lia. rewrite Z.mod_small in Pr by (pose proof (bn_range _ _ (proj1 Ps)); lia).
  rewrite be_bytes_length. rewrite Pe in Pr.
  assert (Vr : val r = be_val em).
  { refine (powers_cancel w (val N) (be_val em) _ _ s r _ _ D0 E0 _ Ps Pr); [lia | lia | rewrite Z.mul_comm; apply DV]. }
  rewrite Vr. replace (Z.to_nat L) with (length em) by (unfold zlen in EL; lia). rewrite be_bytes_val by exact EB. reflexivity.
Qed.
Theorem C59_pss_round_trip : forall w a g g' N e d L message salt, key_ok w N e d ->
  Z.log2 (val N) + 1 = 8 * L -> supplies a g -> supplies a g' -> bytes message -> zlen message < 2 ^ 61 -> bytes salt ->
  zlen salt + spec_size a + 2 <= L <= 2 ^ 32 ->
  exists pk sk sig, rsa_public_key w N e = Ok pk /\ rsa_private_key w N d = Ok sk /\
    signPss w a g sk (spec_hash a message) salt = Ok sig /\ zlen sig = L /\ validatePss w a (zlen salt) g' pk message sig = Ok true.
Proof.
  intros w a g g' N e d L message salt K HB Hg Hg' HM LM HS HL. pose proof (zlen_nonneg salt) as SN. pose proof (spec_size_range a) as SR.
  pose proof K as (Hw & LW & HN & He & Hd & HO & _).
  destruct (public_key_ok w N e Hw HN HO He) as (pk & Epk & _). destruct (private_key_ok w N d Hw LW HN HO Hd) as (sk & Esk & _).
  destruct (sign_then w a g N e d L (spec_hash a message) salt pk sk K Epk Esk HB Hg (spec_hash_bytes _ _) HS ltac:(rewrite spec_hash_length; lia) HL) as (sig & Es & Ls & _ & V).
  exists pk, sk, sig; split; [exact Epk|]; split; [exact Esk|]; split; [exact Es|]; split; [exact Ls|]. rewrite V.
  set (em := emsa_pss _ _ _ _ _). assert (EL : zlen em = L) by (apply emsa_pss_length; lia).
  destruct (pss_check_ok a (zlen salt) g' message em Hg' HM LM (emsa_pss_bytes _ _ _ _ HS) SN ltac:(lia)) as (b & -> & Hb). f_equal. apply Hb.
  exists salt; split; [exact HS|]; split; [reflexivity|]. rewrite EL; reflexivity.
Qed.
Print Assumptions C59_pss_round_trip.
Definition hz (a : alg) : nat -> supply := fun _ => zsup a.
Lemma hz_ok a : supplies a (hz a). Proof. intros k _; apply zsup_ok. Qed.
Example C59_case : key_ok 9 (words 9 N272) (words 9 65537) (words 9 D272) /\ Z.log2 (val (words 9 N272)) + 1 = 8 * 34 /\ supplies AMD5 (hz AMD5) /\
  zlen (repeat 0 16) + spec_size AMD5 + 2 <= 34.
Proof. split; [exact key272|]. split; [vm_compute; reflexivity|]. split; [apply hz_ok | vm_compute; discriminate]. Qed.

(** The specification evaluated through the model. *)
Lemma hash_by_model a m l : bytes m -> zlen m < 2 ^ 61 -> h_hash a (zsup a 0%nat) [m] = Ok l -> spec_hash a m = l.
Proof.
  intros HM LM E. rewrite h_hash_ok in E; [|apply zsup_ok | constructor; [exact HM | constructor] | cbn [concat]; rewrite app_nil_r; exact LM].
  cbn [concat] in E; rewrite app_nil_r in E. injection E as E; exact E.
Qed.
Lemma em_by_model a data salt len l : bytes data -> bytes salt -> zlen data + zlen salt < 2 ^ 60 -> zlen salt + spec_size a + 2 <= len <= 2 ^ 32 ->
  (do p <- generatePssData a (hz a) data salt len; mask_first p) = Ok l -> emsa_pss (spec_hash a) (spec_size a) data salt len = l.
Proof. intros HD HS LD HL E. rewrite pss_masked in E by (try apply hz_ok; assumption). injection E as E; exact E. Qed.

(** For other modulus sizes the code uses a length of floor(bits / 8): the signature is cut and
    is rejected by the key's own public part. *)
Definition md5_0 : list Z := [0x93; 0xb8; 0x85; 0xad; 0xfe; 0x0d; 0xa0; 0x89; 0xcd; 0xf6; 0x34; 0x90; 0x4f; 0xd5; 0x9f; 0x71].
Lemma md5_0_ok : spec_hash AMD5 [0] = md5_0.
Proof. apply hash_by_model; [apply bytesb_ok; reflexivity | reflexivity | vm_compute; reflexivity]. Qed.
Definition em0 : list Z := [36; 125; 134; 159; 8; 249; 88; 228; 52; 54; 245; 157; 106; 222; 226; 216; 152; 68; 19; 11; 79; 111; 246; 9; 81; 15; 28; 97; 8; 201; 47; 242; 152; 188].
Definition m0 : Z := 1081674796478100397764504384352741924709296141639074235521748789679150661576595644.
Lemma m0_ok : be_val em0 = m0. Proof. vm_compute; reflexivity. Qed.
Lemma em0_ok : em0 = emsa_pss (spec_hash AMD5) (spec_size AMD5) (spec_hash AMD5 [0]) (repeat 0 16) 34.
Proof.
  symmetry; rewrite md5_0_ok; apply em_by_model; [apply bytesb_ok; reflexivity | apply bytesb_ok; reflexivity | reflexivity | vm_compute; split; discriminate | vm_compute; reflexivity].
Qed.
Lemma power_value w N x e r : 0 < N -> power_ok w N x (Zpos e) r -> powm N x e <> 0 -> val r = powm N x e.
Proof. intros HN (_ & V & _) NZ. rewrite powm_ok in * by exact HN. destruct V as [V|[_ V]]; [exact V | contradiction]. Qed.
Lemma power_is w N x e r v : 0 < N -> power_ok w N x (Zpos e) r -> powm N x e = v -> v <> 0 -> val r = v.
Proof. intros HN HP <- NZ. exact (power_value w N x e r HN HP NZ). Qed.
Definition s277 : Z := 101560433678771287495918130224427848638958568694863301799344022018485368870393537034.
Definition r277 : Z := 122936960598146478093432320867895344317829756312626586164007633921120639065988016626.
Theorem C59_other_sizes_refuted : exists w N e d pk sk message salt sig, key_ok w N e d /\
  rsa_public_key w N e = Ok pk /\ rsa_private_key w N d = Ok sk /\ Z.log2 (val N) + 1 = 277 /\
  signPss w AMD5 (hz AMD5) sk (spec_hash AMD5 message) salt = Ok sig /\ zlen salt = 16 /\ validatePss w AMD5 16 (hz AMD5) pk message sig = Ok false.
Proof.
  pose proof key277 as K. pose proof K as (Hw & LW & HN & He & Hd & HO & N1 & _).
  destruct (public_key_ok 9 _ _ Hw HN HO He) as (pk & Epk & Gp & Pe & _). destruct (private_key_ok 9 _ _ Hw LW HN HO Hd) as (sk & Esk & _).
  assert (EN : val (words 9 N277) = N277) by (apply words_val; split; [discriminate | reflexivity]).
  assert (EE : val (words 9 65537) = 65537) by (apply words_val; split; [discriminate | reflexivity]).
  assert (ED : val (words 9 D277) = Zpos (Z.to_pos D277)) by (apply words_val; split; [discriminate | reflexivity]).
  destruct (sign_value 9 AMD5 (hz AMD5) _ _ sk (spec_hash AMD5 [0]) (repeat 0 16) 34 Hw LW HN HO Hd Esk) as (s & Es & Ps).
  { rewrite EN; reflexivity. } { apply hz_ok. } { apply spec_hash_bytes. } { apply bytesb_ok; reflexivity. } { rewrite spec_hash_length; reflexivity. } { vm_compute; split; discriminate. }
  exists 9%nat, (words 9 N277), (words 9 65537), (words 9 D277), pk, sk, [0], (repeat 0 16). eexists.
  split; [exact K|]. split; [exact Epk|]. split; [exact Esk|]. split; [rewrite EN; reflexivity|]. split; [exact Es|]. split; [reflexivity|].
  rewrite <- em0_ok, EN, ED, m0_ok in Ps. apply (power_is _ _ _ _ _ s277) in Ps; [|reflexivity | vm_compute; reflexivity | discriminate].
  destruct (validatePss_eq 9 AMD5 16 (hz AMD5) pk _ [0] (be_bytes (Z.to_nat 34) (val s)) Gp ltac:(rewrite Pe; exact He) (be_bytes_bytes _ _)) as (r & Pr & ->).
  rewrite Pe, EE, EN, Ps in Pr. apply (power_is _ _ _ _ _ r277) in Pr; [|reflexivity | vm_compute; reflexivity | discriminate].
  rewrite be_bytes_length, Pr. vm_compute; reflexivity.
Qed.
Print Assumptions C59_other_sizes_refuted.

(** ** C60 *)
(** Signatures as long as the modulus: accepted exactly when s^e mod n is an encoding. *)
Lemma not_encoding a mh salt k x : x mod 2 = 1 \/ x = 0 -> (0 < k)%nat -> be_bytes k x <> emsa_pss (spec_hash a) (spec_size a) mh salt (Z.of_nat k).
Proof.
  intros HX Hk E. apply (f_equal be_val) in E. apply (f_equal (fun z => z mod 256)) in E. rewrite emsa_pss_even in E.
  destruct k as [|k]; [lia|]. unfold be_bytes in E. rewrite be_val_rev in E. cbn [le_bytes le_val] in E. rewrite Z.mul_comm, Z.mod_add, Z.mod_mod in E by lia.
  destruct HX as [HX|HX]; [|subst x; discriminate E]. assert (x mod 2 = 0); [|lia].
  pose proof (Z.div_mod x 256 ltac:(lia)) as D. rewrite E in D. rewrite D. replace (256 * (x / 256) + 0xbc) with ((128 * (x / 256) + 94) * 2) by lia. apply Z.mod_mul; lia.
Qed.
Theorem C60_pss_exactly : forall w a sLen g N e message sig, (0 < w)%nat -> bn w N -> Z.odd (val N) = true -> bn w e ->
  supplies a g -> bytes message -> zlen message < 2 ^ 61 -> bytes sig -> 0 <= sLen -> sLen + spec_size a + 2 <= zlen sig <= 2 ^ 32 ->
  val N < 256 ^ zlen sig -> zlen sig <= 4 * Z.of_nat w ->
  exists pk b, rsa_public_key w N e = Ok pk /\ validatePss w a sLen g pk message sig = Ok b /\
    (b = true <-> exists salt, bytes salt /\ zlen salt = sLen /\
       be_bytes (length sig) (be_val sig ^ val e mod val N) = emsa_pss (spec_hash a) (spec_size a) (spec_hash a message) salt (zlen sig)).
Proof.
  intros w a sLen g N e message sig Hw HN HO He Hg HM LM HS SL HL LN LW. pose proof (spec_size_range a) as SR. pose proof (odd_pos _ _ HN HO) as NP.
  destruct (public_key_ok w N e Hw HN HO He) as (pk & Epk & Gp & Pe & _). exists pk.
  destruct (validatePss_eq w a sLen g pk (val N) message sig Gp ltac:(rewrite Pe; exact He) HS) as (r & Pr & ->). rewrite Pe in Pr.
  pose proof (be_val_range sig HS) as BS. rewrite Z.mod_small in Pr by (split; [lia|]; apply Z.lt_le_trans with (1 := proj2 BS); rewrite pow256; apply Z.pow_le_mono_r; lia).
  set (x := be_val sig ^ val e mod val N) in *.
  assert (EL : zlen (be_bytes (length sig) (val r)) = zlen sig) by (unfold zlen; rewrite be_bytes_length; reflexivity).
  destruct (pss_check_ok a sLen g message (be_bytes (length sig) (val r)) Hg HM LM (be_bytes_bytes _ _) SL ltac:(rewrite EL; exact HL)) as (b & -> & Hb).
  exists b; split; [exact Epk|]; split; [reflexivity|]. rewrite Hb, EL. destruct Pr as (Hr & [V|[V X0]] & _); fold x in V; [rewrite V; reflexivity|].
  fold x in X0. assert (LS : (0 < length sig)%nat) by (unfold zlen in *; lia).
  assert (O1 : val N mod 2 = 1) by (rewrite Zodd_mod in HO; apply Zeq_bool_eq in HO; exact HO).
  rewrite V, X0. split; intros (salt & _ & _ & E); exfalso; revert E; apply not_encoding; auto.
Qed.
Print Assumptions C60_pss_exactly.
(** Shorter signatures: only the low bytes of s^e mod n are looked at. *)
Definition r_short := 8670225156734854581043652457882112653781197856686494240411641015221745525659441340.
Definition s_short := 3794275180128377091639574036764685364535950857523710002444946112771297432041422849.
Definition n_short := 54624374234151766213262145869588543874209860176411919649966143993970993052202041973093145017154458024747251501366830950881813398848945516505590109854334934183895088666769777510558459832499974984323714421639253060815054545602075999349557957584709.
Lemma zlen_be n x : zlen (be_bytes n x) = Z.of_nat n. Proof. unfold zlen; rewrite be_bytes_length; reflexivity. Qed.
Theorem C60_short_refuted : exists w N e pk message sig, bn w N /\ Z.odd (val N) = true /\ bn w e /\ bytes sig /\ zlen sig = 34 /\
  rsa_public_key w N e = Ok pk /\ validatePss w AMD5 16 (hz AMD5) pk message sig = Ok true /\
  256 ^ 101 < val N < 256 ^ 102 /\
  ~ exists salt, bytes salt /\ zlen salt = 16 /\
      be_bytes 102 (be_val sig ^ val e mod val N) = emsa_pss (spec_hash AMD5) (spec_size AMD5) (spec_hash AMD5 message) salt 102.
Proof.
  assert (EN : val (words 26 n_short) = n_short) by (apply words_val; split; [vm_compute; discriminate | vm_compute; reflexivity]).
  assert (EE : val (words 26 3) = 3) by (apply words_val; split; [vm_compute; discriminate | vm_compute; reflexivity]).
  assert (HO : Z.odd (val (words 26 n_short)) = true) by (rewrite EN; vm_compute; reflexivity).
  destruct (public_key_ok 26 (words 26 n_short) (words 26 3) ltac:(lia) (words_bn _ _) HO (words_bn _ _)) as (pk & Epk & Gp & Pe & _).
  exists 26%nat, (words 26 n_short), (words 26 3), pk, [0], (be_bytes 34 s_short).
  split; [apply words_bn|]. split; [exact HO|]. split; [apply words_bn|]. split; [apply be_bytes_bytes|]. split; [unfold zlen; rewrite be_bytes_length; reflexivity|].
  split; [exact Epk|].
  assert (BS : be_val (be_bytes 34 s_short) = s_short) by (apply be_val_bytes; split; [vm_compute; discriminate | vm_compute; reflexivity]).
  assert (NP : 0 < n_short) by (vm_compute; reflexivity).
  assert (PW : powm n_short s_short 3 = r_short) by (vm_compute; reflexivity).
  split; [|split; [rewrite EN; split; vm_compute; reflexivity|]].
  - destruct (validatePss_eq 26 AMD5 16 (hz AMD5) pk _ [0] (be_bytes 34 s_short) Gp ltac:(rewrite Pe; apply words_bn) (be_bytes_bytes _ _)) as (r & Pr & ->).
    rewrite Pe, EE, EN, BS, Z.mod_small in Pr by (split; [vm_compute; discriminate | vm_compute; reflexivity]).
    apply power_value in Pr; [|exact NP | rewrite PW; vm_compute; discriminate]. rewrite PW in Pr. rewrite be_bytes_length, Pr. vm_compute; reflexivity.
  - rewrite EE, EN, BS. change 3 with (Zpos 3) at 1. rewrite <- powm_ok, PW by exact NP. intros H.
    destruct (pss_check_ok AMD5 16 (hz AMD5) [0] (be_bytes 102 r_short)) as (b & E & Hb);
      [apply hz_ok | apply bytesb_ok; reflexivity | reflexivity | apply be_bytes_bytes | lia | unfold zlen; rewrite be_bytes_length; vm_compute; split; discriminate |].
    rewrite zlen_be in Hb. apply Hb in H. subst b.
    vm_compute in E. discriminate E.
Qed.
Print Assumptions C60_short_refuted.
(** A signature shorter than a digest reads outside its buffer. *)
Theorem C60_tiny_refuted : forall w a sLen g N e message sig, (0 < w)%nat -> bn w N -> Z.odd (val N) = true -> bn w e -> bytes sig -> zlen sig <= spec_size a ->
  exists pk, rsa_public_key w N e = Ok pk /\ validatePss w a sLen g pk message sig = UB.
Proof.
  intros w a sLen g N e message sig Hw HN HO He HS HL. destruct (public_key_ok w N e Hw HN HO He) as (pk & Epk & Gp & Pe & _). exists pk; split; [exact Epk|].
  destruct (validatePss_eq w a sLen g pk (val N) message sig Gp ltac:(rewrite Pe; exact He) HS) as (r & _ & ->). unfold pss_check, getSalt. rewrite h_size_spec.
  assert (EL : zlen (be_bytes (length sig) (val r)) = zlen sig) by (unfold zlen; rewrite be_bytes_length; reflexivity). rewrite EL.
  unfold slice. replace (0 <=? zlen sig - spec_size a - 1) with false by lia. reflexivity.
Qed.
Print Assumptions C60_tiny_refuted.
Example C60_case : bn 9 (words 9 N272) /\ Z.odd (val (words 9 N272)) = true /\ val (words 9 N272) < 256 ^ 34 /\ 16 + spec_size AMD5 + 2 <= 34 <= 4 * 9.
Proof. split; [apply words_bn|]. repeat split; vm_compute; (reflexivity || discriminate). Qed.

(** ** C62 *)
(** Adding the modulus to an accepted signature gives another accepted one. *)
Theorem C62_plus_modulus : forall w a sLen g N e message sig, (0 < w)%nat -> bn w N -> Z.odd (val N) = true -> bn w e ->
  supplies a g -> bytes message -> zlen message < 2 ^ 61 -> bytes sig -> 0 <= sLen -> sLen + spec_size a + 2 <= zlen sig <= 2 ^ 32 ->
  zlen sig <= 4 * Z.of_nat w -> be_val sig + val N < 256 ^ zlen sig ->
  exists pk, rsa_public_key w N e = Ok pk /\
    (validatePss w a sLen g pk message sig = Ok true -> validatePss w a sLen g pk message (be_bytes (length sig) (be_val sig + val N)) = Ok true).
Proof.
  intros w a sLen g N e message sig Hw HN HO He Hg HM LM HS SL HL LW LN. pose proof (spec_size_range a) as SR. pose proof (odd_pos _ _ HN HO) as NP.
  destruct (public_key_ok w N e Hw HN HO He) as (pk & Epk & Gp & Pe & _). exists pk; split; [exact Epk|].
  destruct (validatePss_eq w a sLen g pk (val N) message sig Gp ltac:(rewrite Pe; exact He) HS) as (r & Pr & ->). rewrite Pe in Pr.
  pose proof (be_val_range sig HS) as BS. assert (PW : 256 ^ zlen sig <= 2 ^ (32 * Z.of_nat w)) by (rewrite pow256; apply Z.pow_le_mono_r; lia).
  rewrite Z.mod_small in Pr by lia.
  destruct (validatePss_eq w a sLen g pk (val N) message (be_bytes (length sig) (be_val sig + val N)) Gp ltac:(rewrite Pe; exact He) (be_bytes_bytes _ _)) as (r' & Pr' & ->). rewrite Pe in Pr'.
  rewrite be_val_bytes in Pr' by (change (Z.of_nat (length sig)) with (zlen sig); lia). rewrite Z.mod_small in Pr' by lia. rewrite be_bytes_length. intros OK.
  assert (EL : zlen (be_bytes (length sig) (val r)) = zlen sig) by (unfold zlen; rewrite be_bytes_length; reflexivity).
  destruct (pss_check_ok a sLen g message (be_bytes (length sig) (val r)) Hg HM LM (be_bytes_bytes _ _) SL ltac:(rewrite EL; exact HL)) as (b & E & Hb).
  rewrite OK in E; injection E as <-. destruct (proj1 Hb eq_refl) as (salt & _ & _ & ES). rewrite EL in ES.
  assert (O1 : val N mod 2 = 1) by (rewrite Zodd_mod in HO; apply Zeq_bool_eq in HO; exact HO). assert (LS : (0 < length sig)%nat) by (unfold zlen in *; lia).
  assert (X : (be_val sig + val N) ^ val e mod val N = be_val sig ^ val e mod val N).
  { apply pow_mod_eq; [exact NP|]. replace (be_val sig + val N) with (be_val sig + 1 * val N) by ring. apply Z.mod_add; lia. }
  destruct Pr' as (_ & V' & _), Pr as (_ & V & _). rewrite X in V'. set (x := be_val sig ^ val e mod val N) in *.
  destruct V as [V|[V X0]]; [|exfalso; revert ES; rewrite V; apply not_encoding; auto].
  destruct V' as [V'|[_ V']]; [rewrite V', <- V; exact OK|]. exfalso; revert ES; rewrite V, V'; apply not_encoding; auto.
Qed.
Print Assumptions C62_plus_modulus.
Definition one_representation : Prop := forall w N e pk message sig sig', bn w N -> Z.odd (val N) = true -> bn w e -> rsa_public_key w N e = Ok pk ->
  bytes sig -> bytes sig' -> be_val sig mod val N = be_val sig' mod val N -> zlen sig = zlen sig' ->
  validatePss w AMD5 16 (hz AMD5) pk message sig = Ok true -> validatePss w AMD5 16 (hz AMD5) pk message sig' = Ok true -> sig = sig'.
Definition s272 : Z := 454320567212492370646073340808758721656520073463683338303876619229897264997435539.
Lemma mod_plus a n : n <> 0 -> a mod n = (a + n) mod n.
Proof. intros H. replace (a + n) with (a + 1 * n) by ring. symmetry; apply Z.mod_add, H. Qed.
Lemma add_same (x y : Z) : x = x + y -> y = 0. Proof. lia. Qed.
Theorem C62_representation_refuted : ~ one_representation.
Proof.
  intros H. pose proof key272 as K. pose proof K as (Hw & LW & HN & He & Hd & HO & N1 & _).
  assert (EN : val (words 9 N272) = N272) by (apply words_val; split; [discriminate | reflexivity]).
  assert (ED : val (words 9 D272) = Zpos (Z.to_pos D272)) by (apply words_val; split; [discriminate | reflexivity]).
  assert (LG : Z.log2 (val (words 9 N272)) + 1 = 8 * 34) by (rewrite EN; vm_compute; reflexivity).
  assert (B0 : bytes [0]) by (apply bytesb_ok; reflexivity). assert (BZ : bytes (repeat 0 16)) by (apply bytesb_ok; reflexivity).
  assert (L0 : zlen [0] < 2 ^ 61) by reflexivity. assert (LL : zlen (repeat 0 16) + spec_size AMD5 + 2 <= 34 <= 2 ^ 32) by (vm_compute; split; discriminate).
  destruct (C59_pss_round_trip 9 AMD5 (hz AMD5) (hz AMD5) _ _ _ 34 [0] (repeat 0 16) K LG (hz_ok _) (hz_ok _) B0 L0 BZ LL) as (pk & sk & sig & Epk & Esk & Es & Ls & V).
  destruct (sign_value 9 AMD5 (hz AMD5) _ _ sk (spec_hash AMD5 [0]) (repeat 0 16) 34 Hw LW HN HO Hd Esk) as (s & Es' & Ps).
  { rewrite EN; vm_compute; reflexivity. } { apply hz_ok. } { apply spec_hash_bytes. } { apply bytesb_ok; reflexivity. } { rewrite spec_hash_length; reflexivity. } { vm_compute; split; discriminate. }
  rewrite <- em0_ok, EN, ED, m0_ok in Ps. apply (power_is _ _ _ _ _ s272) in Ps; [|reflexivity | vm_compute; reflexivity | discriminate].
  rewrite Es in Es'. assert (sig = be_bytes 34 s272) as -> by (change (Z.to_nat 34) with 34%nat in Es'; rewrite Ps in Es'; congruence). clear Es' Es.
  assert (BS : be_val (be_bytes 34 s272) = s272) by (apply be_val_bytes; vm_compute; split; [discriminate | reflexivity]).
  assert (BT : be_val (be_bytes 34 (s272 + N272)) = s272 + N272) by (apply be_val_bytes; vm_compute; split; [discriminate | reflexivity]).
  assert (LL' : 16 + spec_size AMD5 + 2 <= zlen (be_bytes 34 s272) <= 2 ^ 32) by (rewrite Ls; vm_compute; split; discriminate).
  assert (LW' : zlen (be_bytes 34 s272) <= 4 * Z.of_nat 9) by (rewrite Ls; vm_compute; discriminate).
  assert (LS' : be_val (be_bytes 34 s272) + val (words 9 N272) < 256 ^ zlen (be_bytes 34 s272)) by (rewrite BS, EN, Ls; vm_compute; reflexivity).
  destruct (C62_plus_modulus 9 AMD5 16 (hz AMD5) (words 9 N272) (words 9 65537) [0] (be_bytes 34 s272) Hw HN HO He (hz_ok _) B0 L0 (be_bytes_bytes _ _) ltac:(lia) LL' LW' LS') as (pk' & Epk' & V').
  rewrite Epk in Epk'; injection Epk' as <-. specialize (V' V). rewrite BS, EN, be_bytes_length in V'.
  specialize (H 9%nat _ _ pk [0] _ _ HN HO He Epk (be_bytes_bytes 34 s272) (be_bytes_bytes 34 (s272 + N272))).
  assert (Q : be_bytes 34 s272 = be_bytes 34 (s272 + N272)).
  { apply H; [|unfold zlen; rewrite !be_bytes_length; reflexivity | exact V | exact V']. rewrite BS, BT, EN. apply mod_plus; discriminate. }
  apply (f_equal be_val) in Q. rewrite BS, BT in Q. apply add_same in Q. discriminate Q.
Qed.
Print Assumptions C62_representation_refuted.
