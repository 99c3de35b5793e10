(** Property theorems for RSA, continued: PKCS#1 v1.5 (C61) and the entry points (C63). *)
From Coq Require Import Znumtheory.
From Verif Require Import Base BaseP S_Hash M_Hash P_Hash Prop_Hash M_HKDF P_HKDF Prop_HKDF S_Bignum M_Bignum P_Bignum Prop_Bignum M_Mont P_Mont P_Fermat P_Prime S_RSA M_RSA P_RSA RSA_Keys Prop_RSA.
Open Scope Z_scope.

(** ** C61 *)
(** What is encoded is the digest of the data wrapped as a DER SEQUENCE, ... *)
Definition em_of (a : alg) (data : list Z) (L : Z) : list Z := emsa_pkcs1 (digest_info a (spec_hash a (der_sequence data))) L.
Theorem C61_encoding : forall a g data L, ~ In a [ASHA3_224; ASHA3_384; ASHA3_512] -> supply_ok a g -> bytes data -> zlen data < 2 ^ 24 ->
  zlen (h_asn1 a) + spec_size a + 3 <= L <= 2 ^ 32 -> PKCS1 a g data L = Ok (em_of a data L).
Proof.
  intros a g data L HA Hg HD LD HL. rewrite PKCS1_ok by assumption. unfold em_of. rewrite C18_prefix_partial; [reflexivity | exact HA | apply spec_hash_length].
Qed.
Print Assumptions C61_encoding.
(** ... not the digest of the data. *)
Definition md5_seq0 : list Z := [23; 162; 215; 127; 201; 40; 241; 42; 60; 155; 221; 211; 194; 241; 40; 242].
Lemma md5_seq0_ok : spec_hash AMD5 (der_sequence [0]) = md5_seq0.
Proof. apply hash_by_model; [apply bytesb_ok; reflexivity | reflexivity | vm_compute; reflexivity]. Qed.
Theorem C61_digest_refuted : exists data em, PKCS1 AMD5 (zsup AMD5) data 38 = Ok em /\ em <> emsa_pkcs1 (digest_info AMD5 (spec_hash AMD5 data)) 38.
Proof.
  exists [0]. eexists; split; [apply C61_encoding; [|apply zsup_ok | apply bytesb_ok; reflexivity | reflexivity | vm_compute; split; discriminate] |].
  - intros [H|[H|[H|[]]]]; discriminate H.
  - unfold em_of. rewrite md5_seq0_ok, md5_0_ok. vm_compute; discriminate.
Qed.
Print Assumptions C61_digest_refuted.

Lemma em_length a data L : zlen (h_asn1 a) + spec_size a + 3 <= L -> zlen (emsa_pkcs1 (h_asn1 a ++ spec_hash a (der_sequence data)) L) = L.
Proof.
  intros HL. pose proof (zlen_nonneg (h_asn1 a)). unfold emsa_pkcs1. rewrite !zlen_app, spec_hash_length. change (zlen [0; 1]) with 2. change (zlen [0]) with 1.
  unfold zlen at 1; rewrite repeat_length. pose proof (spec_size_range a). lia.
Qed.
Lemma asn1_bytes a : bytes (h_asn1 a). Proof. destruct a; apply bytesb_ok; reflexivity. Qed.
Lemma em_bytes a data L : bytes (emsa_pkcs1 (h_asn1 a ++ spec_hash a (der_sequence data)) L).
Proof.
  unfold emsa_pkcs1. apply bytes_app; split; [apply bytesb_ok; reflexivity|]. apply bytes_app; split; [apply Forall_forall; intros x Hx; apply repeat_spec in Hx; subst x; unfold byte; lia|].
  apply bytes_app; split; [apply bytesb_ok; reflexivity|]. apply bytes_app; split; [apply asn1_bytes | apply spec_hash_bytes].
Qed.
Lemma em_value a data L : zlen (h_asn1 a) + spec_size a + 3 <= L -> 0 < be_val (emsa_pkcs1 (h_asn1 a ++ spec_hash a (der_sequence data)) L) < 2 * 256 ^ (L - 2).
Proof.
  intros HL. pose proof (em_length a data L HL) as EL. pose proof (em_bytes a data L) as EB. unfold emsa_pkcs1 in *. rewrite be_val_app.
  set (t := repeat _ _ ++ _) in *. change (be_val [0; 1]) with 1. rewrite zlen_app in EL. change (zlen [0; 1]) with 2 in EL.
  apply bytes_app in EB; destruct EB as [_ EB]. pose proof (be_val_range _ EB). replace (L - 2) with (zlen t) by lia. assert (0 < 256 ^ zlen t) by (apply Z.pow_pos_nonneg; [lia | apply zlen_nonneg]). lia.
Qed.
Lemma zlen_rev {A} (l : list A) : zlen (rev l) = zlen l. Proof. unfold zlen; rewrite rev_length; reflexivity. Qed.
Lemma of_bytes_le n sig : bytes sig -> zlen sig <= 4 * Z.of_nat n -> exists r, of_bytes (bits_of n) sig = Ok r /\ bn n r /\ val r = le_val sig.
Proof.
  intros HS LS. destruct (C41_any_length n sig HS) as (r & E & Hr & V). exists r; split; [exact E|]; split; [exact Hr|]. rewrite V. apply Z.mod_small.
  pose proof (be_val_range (rev sig) (bytes_rev _ HS)) as R. rewrite be_val_rev, zlen_rev in R. split; [lia|]. apply Z.lt_le_trans with (1 := proj2 R).
  rewrite pow256. apply Z.pow_le_mono_r; lia.
Qed.

(** Verification accepts exactly the byte strings, read least significant byte first, whose
    e-th power is the encoding. *)
Theorem C61_validate : forall w a g N e data sig, (0 < w)%nat -> bn w N -> Z.odd (val N) = true -> bn w e -> supply_ok a g -> bytes data -> zlen data < 2 ^ 24 ->
  bytes sig -> zlen (h_asn1 a) + spec_size a + 3 <= zlen sig <= 2 ^ 32 -> zlen sig <= 4 * Z.of_nat w -> 2 * 256 ^ (zlen sig - 2) <= val N ->
  exists pk b, rsa_public_key w N e = Ok pk /\ validatePkcs1_5 w a g pk data sig = Ok b /\
    (b = true <-> le_val sig ^ val e mod val N = be_val (emsa_pkcs1 (h_asn1 a ++ spec_hash a (der_sequence data)) (zlen sig))).
Proof.
  intros w a g N e data sig Hw HN HO He Hg HD LD HS HL LW LN. pose proof (odd_pos _ _ HN HO) as NP.
  destruct (public_key_ok w N e Hw HN HO He) as (pk & Epk & Gp & Pe & _). exists pk. unfold validatePkcs1_5.
  rewrite PKCS1_ok by assumption. cbn [bind]. set (em := emsa_pkcs1 _ _). pose proof (em_value a data (zlen sig) ltac:(lia)) as EV. fold em in EV.
  destruct (of_bytes_be w em ltac:(apply em_bytes)) as (h & -> & Hh & Vh). cbn [bind].
  destruct (of_bytes_le w sig HS LW) as (s & -> & Hs & Vs). cbn [bind].
  destruct (rsaep_ok w pk _ s Gp ltac:(rewrite Pe; exact He) Hs) as (r & -> & Hr & Vr & _). cbn [bind]. rewrite Pe, Vs in Vr.
  eexists; split; [exact Epk|]; split; [reflexivity|]. rewrite (eq_ok w) by assumption. rewrite Z.eqb_eq, Vh. pose proof (bn_range _ _ HN) as BN.
  rewrite Z.mod_small by lia. destruct Vr as [->|[-> V0]]; [split; auto|]. rewrite V0. split; intros; lia.
Qed.
Print Assumptions C61_validate.

Lemma trim_ok l : bytes l -> be_val l <> 0 -> exists t k, trim l = Ok t /\ bytes t /\ be_val t = be_val l /\ l = repeat 0 k ++ t.
Proof.
  induction l as [|x r IH]; intros HB NZ; [exfalso; apply NZ; reflexivity|]. cbn [trim]. destruct (Z.eqb_spec x 0) as [->|X].
  - assert (E : be_val (0 :: r) = be_val r) by (change (0 :: r) with ([0] ++ r); rewrite be_val_app; reflexivity). rewrite E in *.
    apply bytes_cons in HB; destruct HB as [_ HB]. destruct r as [|y r']; [exfalso; apply NZ; reflexivity|].
    destruct (Z.land y 128 =? 0).
    + destruct (IH HB NZ) as (t & k & Et & Bt & Vt & L). exists t, (S k). split; [exact Et|]. split; [exact Bt|]. split; [exact Vt|]. cbn [repeat app]. rewrite L at 1. reflexivity.
    + exists (0 :: y :: r'), 0%nat. split; [reflexivity|]. split; [apply bytes_cons; split; [unfold byte; lia | exact HB]|]. split; [exact E | reflexivity].
  - exists (x :: r), 0%nat. auto.
Qed.
(** Signing gives em^d mod n, big-endian, with the leading zero bytes dropped. *)
Theorem C61_sign : forall w a g N e d L data, key_ok w N e d -> (Z.log2 (val N) + 1) / 8 = L -> supply_ok a g -> bytes data -> zlen data < 2 ^ 24 ->
  zlen (h_asn1 a) + spec_size a + 3 <= L <= 2 ^ 32 ->
  exists sk, rsa_private_key w N d = Ok sk /\ 2 * 256 ^ (L - 2) <= val N /\ L <= 4 * Z.of_nat w /\
    be_val (emsa_pkcs1 (h_asn1 a ++ spec_hash a (der_sequence data)) L) ^ val d mod val N <> 0 /\
    signPkcs1_5 w a g sk data = trim (be_bytes (4 * w) (be_val (emsa_pkcs1 (h_asn1 a ++ spec_hash a (der_sequence data)) L) ^ val d mod val N)).
Proof.
  intros w a g N e d L data (Hw & LW & HN & He & Hd & HO & N1 & E0 & D0 & DV) HB Hg HD LD HL.
  pose proof (bn_range _ _ HN) as BN. pose proof (spec_size_range a) as SR. pose proof (zlen_nonneg (h_asn1 a)) as AN.
  assert (LN : Z.log2 (val N) < bits_of w) by (apply Z.log2_lt_pow2; lia).
  pose proof (Z.div_mod (Z.log2 (val N) + 1) 8 ltac:(lia)) as DM. pose proof (Z.mod_pos_bound (Z.log2 (val N) + 1) 8 ltac:(lia)) as MB.
  destruct (private_key_ok w N d Hw LW HN HO Hd) as (sk & Esk & Gs & Pd & Pb).
  set (em := emsa_pkcs1 (h_asn1 a ++ spec_hash a (der_sequence data)) L). pose proof (em_value a data L ltac:(lia)) as EV. fold em in EV.
  assert (P : 2 * 256 ^ (L - 2) <= val N).
  { apply Z.le_trans with (2 ^ Z.log2 (val N)); [|apply Z.log2_spec; lia]. change 256 with (2 ^ 8). rewrite <- Z.pow_mul_r by lia. rewrite <- Z.pow_succ_r by lia.
    apply Z.pow_le_mono_r; lia. }
  destruct (of_bytes_be w em ltac:(apply em_bytes)) as (h & Eh & Hh & Vh). rewrite Z.mod_small in Vh by lia.
  destruct (rsadp_ok w sk _ h Gs ltac:(rewrite Pd; exact Hd) Hh) as (s & Es & Hs & Vs & _). rewrite Pd, Vh in Vs.
  assert (CN : (be_val em ^ val d) ^ val e mod val N = be_val em).
  { rewrite <- Z.pow_mul_r, Z.mul_comm by lia. rewrite <- (Z.mod_small (be_val em) (val N)) at 2 by lia. apply divide_mod; [lia | apply DV]. }
  assert (NZ : be_val em ^ val d mod val N <> 0).
  { intros Z0. rewrite (pow_mod_eq (val N) (be_val em ^ val d) 0 (val e) ltac:(lia)) in CN by (rewrite Z0, Z.mod_0_l by lia; reflexivity).
    rewrite Z.pow_0_l, Z.mod_0_l in CN by lia. lia. }
  destruct Vs as [Vs|[_ Vs]]; [|contradiction].
  exists sk; split; [exact Esk|]; split; [exact P|]; split; [lia|]; split; [exact NZ|].
  unfold signPkcs1_5. rewrite Pb, HB, PKCS1_ok by assumption. cbn [bind]. fold em. rewrite Eh; cbn [bind]. rewrite Es; cbn [bind].
  rewrite (C41_as_bytes w s Hs), Vs. reflexivity.
Qed.
Print Assumptions C61_sign.
(** Reversed, and only when it happens to have floor(bits/8) bytes, it is accepted. *)
Theorem C61_round_trip_partial : forall w a g g' N e d L data, key_ok w N e d -> (Z.log2 (val N) + 1) / 8 = L -> supply_ok a g -> supply_ok a g' -> bytes data -> zlen data < 2 ^ 24 ->
  zlen (h_asn1 a) + spec_size a + 3 <= L <= 2 ^ 32 ->
  exists pk sk sig, rsa_public_key w N e = Ok pk /\ rsa_private_key w N d = Ok sk /\ signPkcs1_5 w a g sk data = Ok sig /\
    be_val sig = be_val (emsa_pkcs1 (h_asn1 a ++ spec_hash a (der_sequence data)) L) ^ val d mod val N /\
    (zlen sig = L -> validatePkcs1_5 w a g' pk data (rev sig) = Ok true).
Proof.
  intros w a g g' N e d L data K HB Hg Hg' HD LD HL. pose proof K as (Hw & LW & HN & He & Hd & HO & N1 & E0 & D0 & DV). pose proof (bn_range _ _ HN) as BN.
  destruct (C61_sign w a g N e d L data K HB Hg HD LD HL) as (sk & Esk & P & LL & NZ & SG). set (em := emsa_pkcs1 _ L) in *.
  pose proof (em_value a data L ltac:(lia)) as EV. fold em in EV.
  assert (CN : (be_val em ^ val d) ^ val e mod val N = be_val em).
  { rewrite <- Z.pow_mul_r, Z.mul_comm by lia. rewrite <- (Z.mod_small (be_val em) (val N)) at 2 by lia. apply divide_mod; [lia | apply DV]. }
  set (s := be_val em ^ val d mod val N) in *. pose proof (Z.mod_pos_bound (be_val em ^ val d) (val N) ltac:(lia)) as SB. fold s in SB.
  assert (VB : be_val (be_bytes (4 * w) s) = s) by (apply be_val_bytes; rewrite <- pow256; lia).
  destruct (trim_ok _ (be_bytes_bytes (4 * w) s) ltac:(rewrite VB; exact NZ)) as (sig & k & Et & Bt & Vt & _). rewrite Et in SG.
  destruct (public_key_ok w N e Hw HN HO He) as (pk & Epk & _). exists pk, sk, sig. split; [exact Epk|]. split; [exact Esk|]. split; [exact SG|].
  split; [rewrite Vt, VB; reflexivity|]. intros ZL.
  destruct (C61_validate w a g' N e data (rev sig) Hw HN HO He Hg' HD LD (bytes_rev _ Bt)) as (pk' & b & Epk' & V & Hb).
  { rewrite zlen_rev; lia. } { rewrite zlen_rev; lia. } { rewrite zlen_rev, ZL; exact P. }
  rewrite Epk in Epk'; injection Epk' as <-. rewrite V. f_equal. apply Hb. rewrite zlen_rev, ZL. fold em. rewrite <- be_val_rev, rev_involutive, Vt, VB.
  transitivity ((be_val em ^ val d) ^ val e mod val N); [|exact CN]. unfold s. apply pow_mod_eq; [lia | apply Z.mod_mod; lia].
Qed.
Print Assumptions C61_round_trip_partial.
(** As it comes from signing, a signature is not accepted: signing writes the most significant byte first, verification reads it last. *)
Definition m304 : Z := 992705230507619219502782791315294020272897487261224059633387646966147203297807350966514.
Definition s304 : Z := 1569204357985775015505180831208762251459513793482176316582294395200345225826299625111650279.
Definition r304 : Z := 18536182489279331642370238535190189113090176994119370383991674739151060908068638995973760294.
Definition sig304 : list Z := [12; 83; 76; 250; 240; 217; 234; 142; 246; 190; 55; 29; 21; 16; 77; 49; 57; 228; 62; 239; 199; 4; 204; 131; 141; 9; 124; 233; 32; 28; 83; 101; 65; 209; 245; 85; 127; 231].
Theorem C61_round_trip_refuted : exists w N e d pk sk data sig, key_ok w N e d /\ rsa_public_key w N e = Ok pk /\ rsa_private_key w N d = Ok sk /\
  Z.log2 (val N) + 1 = 8 * 38 /\ zlen sig = 38 /\ signPkcs1_5 w AMD5 (zsup AMD5) sk data = Ok sig /\ validatePkcs1_5 w AMD5 (zsup AMD5) pk data sig = Ok false.
Proof.
  pose proof key304 as K. pose proof K as (Hw & LW & HN & He & Hd & HO & N1 & _).
  assert (EN : val (words 10 N304) = N304) by (apply words_val; split; [discriminate | reflexivity]).
  assert (EE : val (words 10 65537) = Zpos 65537) by (apply words_val; split; [discriminate | reflexivity]).
  assert (ED : val (words 10 D304) = Zpos (Z.to_pos D304)) by (apply words_val; split; [discriminate | reflexivity]).
  assert (B0 : bytes [0]) by (apply bytesb_ok; reflexivity). assert (L0 : zlen [0] < 2 ^ 24) by reflexivity. assert (NP : 0 < N304) by reflexivity.
  assert (LL : zlen (h_asn1 AMD5) + spec_size AMD5 + 3 <= 38 <= 2 ^ 32) by (vm_compute; split; discriminate).
  assert (EM : be_val (emsa_pkcs1 (h_asn1 AMD5 ++ spec_hash AMD5 (der_sequence [0])) 38) = m304) by (rewrite md5_seq0_ok; vm_compute; reflexivity).
  assert (LG : (Z.log2 (val (words 10 N304)) + 1) / 8 = 38) by (rewrite EN; vm_compute; reflexivity).
  destruct (C61_sign 10 AMD5 (zsup AMD5) _ _ _ 38 [0] K LG (zsup_ok _) B0 L0 LL) as (sk & Esk & LN & _ & _ & SG).
  rewrite EM, EN, ED in SG. rewrite <- powm_ok in SG by exact NP. assert (PW : powm N304 m304 (Z.to_pos D304) = s304) by (vm_compute; reflexivity). rewrite PW in SG.
  assert (TR : trim (be_bytes (4 * 10) s304) = Ok sig304) by (vm_compute; reflexivity). rewrite TR in SG.
  assert (BS : bytes sig304) by (apply bytesb_ok; reflexivity). assert (ZS : zlen sig304 = 38) by reflexivity.
  destruct (C61_validate 10 AMD5 (zsup AMD5) _ _ [0] sig304 Hw HN HO He (zsup_ok _) B0 L0 BS LL) as (pk & b & Epk & V & Hb).
  { rewrite ZS; vm_compute; discriminate. } { exact LN. }
  exists 10%nat, (words 10 N304), (words 10 65537), (words 10 D304), pk, sk, [0], sig304.
  split; [exact K|]. split; [exact Epk|]. split; [exact Esk|]. split; [rewrite EN; vm_compute; reflexivity|]. split; [exact ZS|]. split; [exact SG|].
  rewrite V. f_equal. destruct b; [exfalso|reflexivity]. pose proof (proj1 Hb eq_refl) as Q. rewrite ZS, EM, EN, EE in Q. rewrite <- powm_ok in Q by exact NP.
  assert (PR : powm N304 (le_val sig304) 65537 = r304) by (vm_compute; reflexivity). rewrite PR in Q. discriminate Q.
Qed.
Print Assumptions C61_round_trip_refuted.
Example C61_case : key_ok 10 (words 10 N304) (words 10 65537) (words 10 D304) /\ (Z.log2 (val (words 10 N304)) + 1) / 8 = 38 /\
  zlen (h_asn1 AMD5) + spec_size AMD5 + 3 <= 38 <= 4 * Z.of_nat 10.
Proof. split; [exact key304|]. split; vm_compute; [reflexivity | split; discriminate]. Qed.

(** ** C63 *)
Definition pss_sha256 (t : scheme) : Prop := t = Pss_rsae_256 \/ t = Pss_pss_256.
(** The two SHA-256 identifiers work. *)
Theorem C63_sha256 : forall w N e d L t g g' salt data, pss_sha256 t -> key_ok w N e d -> Z.log2 (val N) + 1 = 8 * L -> 66 <= L <= 2 ^ 32 ->
  (forall k, supply_ok ASHA256 (g k)) -> (forall k, supply_ok ASHA256 (g' k)) -> bytes data -> zlen data < 2 ^ 61 -> bytes salt -> zlen salt = salt_size t ->
  exists pk sk sig, rsa_public_key w N e = Ok pk /\ rsa_private_key w N d = Ok sk /\ sign w g sk t salt data = Ok sig /\
    zlen sig = L /\ validateSignature w g' pk t data sig = Ok true.
Proof.
  intros w N e d L t g g' salt data HT K HB HL Hg Hg' HD LD HS SL.
  assert (S32 : zlen salt = 32) by (rewrite SL; destruct HT as [-> | ->]; reflexivity).
  destruct (C59_pss_round_trip w ASHA256 g g' N e d L data salt K HB ltac:(intros k _; apply Hg) ltac:(intros k _; apply Hg') HD LD HS) as (pk & sk & sig & E1 & E2 & E3 & E4 & E5).
  { rewrite S32; change (spec_size ASHA256) with 32; lia. }
  exists pk, sk, sig. split; [exact E1|]. split; [exact E2|]. rewrite S32 in E5.
  assert (HH : h_hash ASHA256 (g 4%nat 0%nat) [data] = Ok (spec_hash ASHA256 data)).
  { rewrite h_hash_ok; [cbn [concat]; rewrite app_nil_r; reflexivity | apply Hg; repeat constructor | constructor; [exact HD | constructor] | cbn [concat]; rewrite app_nil_r; exact LD]. }
  split; [|split; [exact E4|]]; destruct HT as [-> | ->]; cbn [sign validateSignature]; rewrite ?HH; cbn [bind]; assumption.
Qed.
Print Assumptions C63_sha256.
(** For the others the message is hashed with SHA-256 as well, so a signature is accepted only if
    the named hash collides on two inputs of different lengths. *)
Definition named (t : scheme) (a : alg) : Prop :=
  (t = Pss_rsae_384 /\ a = ASHA384) \/ (t = Pss_pss_384 /\ a = ASHA384) \/ (t = Pss_rsae_512 /\ a = ASHA512) \/ (t = Pss_pss_512 /\ a = ASHA512).
Lemma app_tail_eq {A} (a b c d : list A) : length c = length d -> a ++ c = b ++ d -> c = d.
Proof.
  intros L E. assert (LA : length a = length b) by (apply (f_equal (@length A)) in E; rewrite !app_length in E; lia).
  apply (f_equal (skipn (length a))) in E. rewrite skipn_app, skipn_all, Nat.sub_diag, LA, skipn_app, skipn_all, Nat.sub_diag, !skipn_O in E. exact E.
Qed.
Lemma emsa_pss_salt a m1 s1 m2 s2 L : bytes s1 -> bytes s2 -> zlen s1 = zlen s2 -> zlen s1 + spec_size a + 2 <= L <= 2 ^ 32 ->
  emsa_pss (spec_hash a) (spec_size a) m1 s1 L = emsa_pss (spec_hash a) (spec_size a) m2 s2 L ->
  s1 = s2 /\ spec_hash a (repeat 0 8 ++ m1 ++ s1) = spec_hash a (repeat 0 8 ++ m2 ++ s2).
Proof.
  intros B1 B2 ZE HL E. split.
  - pose proof (getSalt_emsa a (zsup a) m1 s1 L (zsup_ok a) B1 HL) as G1. pose proof (getSalt_emsa a (zsup a) m2 s2 L (zsup_ok a) B2 ltac:(lia)) as G2.
    rewrite <- E, <- ZE, G1 in G2. injection G2 as G2; exact G2.
  - unfold emsa_pss in E. apply app_tail_eq in E; [apply app_inj_tail in E; apply E|]. pose proof (spec_hash_length a (repeat 0 8 ++ m1 ++ s1)). pose proof (spec_hash_length a (repeat 0 8 ++ m2 ++ s2)). unfold zlen in *; rewrite !app_length; lia.
Qed.
Theorem C63_other_identifiers : forall w N e d L t a g g' salt data, named t a -> key_ok w N e d -> Z.log2 (val N) + 1 = 8 * L ->
  zlen salt + spec_size a + 2 <= L <= 2 ^ 32 -> supply_ok ASHA256 (g 4%nat) -> supplies a g -> supplies a g' -> bytes data -> zlen data < 2 ^ 61 -> bytes salt -> zlen salt = salt_size t ->
  exists pk sk sig b, rsa_public_key w N e = Ok pk /\ rsa_private_key w N d = Ok sk /\ sign w g sk t salt data = Ok sig /\ validateSignature w g' pk t data sig = Ok b /\
    (b = true <-> spec_hash a (repeat 0 8 ++ spec_hash ASHA256 data ++ salt) = spec_hash a (repeat 0 8 ++ spec_hash a data ++ salt)).
Proof.
  intros w N e d L t a g g' salt data HT K HB HL H4 Hg Hg' HD LD HS SL. pose proof K as (Hw & LW & HN & He & Hd & HO & _).
  destruct (public_key_ok w N e Hw HN HO He) as (pk & Epk & _). destruct (private_key_ok w N d Hw LW HN HO Hd) as (sk & Esk & _).
  pose proof (spec_size_range a) as SR. pose proof (zlen_nonneg salt) as SN.
  assert (HH : h_hash ASHA256 (g 4%nat 0%nat) [data] = Ok (spec_hash ASHA256 data)).
  { rewrite h_hash_ok; [cbn [concat]; rewrite app_nil_r; reflexivity | apply H4; repeat constructor | constructor; [exact HD | constructor] | cbn [concat]; rewrite app_nil_r; exact LD]. }
  destruct (sign_then w a g N e d L (spec_hash ASHA256 data) salt pk sk K Epk Esk HB Hg (spec_hash_bytes _ _) HS ltac:(rewrite spec_hash_length; change (spec_size ASHA256) with 32; lia) HL) as (sig & Es & _ & _ & V).
  set (em := emsa_pss _ _ _ _ _) in V. assert (EL : zlen em = L) by (apply emsa_pss_length; lia).
  destruct (pss_check_ok a (zlen salt) g' data em Hg' HD LD (emsa_pss_bytes _ _ _ _ HS) SN ltac:(lia)) as (b & EC & Hb).
  exists pk, sk, sig, b. split; [exact Epk|]. split; [exact Esk|].
  assert (E1 : sign w g sk t salt data = Ok sig /\ validateSignature w g' pk t data sig = Ok b).
  { rewrite <- EC, <- V. destruct HT as [[-> ->]|[[-> ->]|[[-> ->]|[-> ->]]]]; cbn [sign validateSignature salt_size] in *; rewrite HH, SL; cbn [bind]; split; [exact Es | reflexivity | exact Es | reflexivity | exact Es | reflexivity | exact Es | reflexivity]. }
  split; [apply E1|]. split; [apply E1|]. rewrite Hb, EL. split.
  - intros (s' & Bs' & Ls' & E). apply emsa_pss_salt in E; [|assumption | assumption | lia | lia]. destruct E as [<- E]; exact E.
  - intros E. exists salt. split; [exact HS|]. split; [reflexivity|]. unfold em, emsa_pss. rewrite E. reflexivity.
Qed.
Print Assumptions C63_other_identifiers.
(** One case where they do not collide. *)
Lemma key784 : key_ok 25 (words 25 N784) (words 25 65537) (words 25 D784).
Proof. destruct K784 as [E K]. rewrite E. apply example_key; [lia | lia | exact K | reflexivity | split; reflexivity | split; reflexivity | split; reflexivity]. Qed.
Definition sha256_nil : list Z := [227; 176; 196; 66; 152; 252; 28; 20; 154; 251; 244; 200; 153; 111; 185; 36; 39; 174; 65; 228; 100; 155; 147; 76; 164; 149; 153; 27; 120; 82; 184; 85].
Definition sha384_nil : list Z := [56; 176; 96; 167; 81; 172; 150; 56; 76; 217; 50; 126; 177; 177; 227; 106; 33; 253; 183; 17; 20; 190; 7; 67; 76; 12; 199; 191; 99; 246; 225; 218; 39; 78; 222; 191; 231; 111; 101; 251; 213; 26; 210; 241; 72; 152; 185; 91].
(** The PKCS#1 v1.5 identifiers use the hash they name on both sides; as in C61, what signing
    writes has to be reversed before it is accepted. *)
Definition named_pkcs1 (t : scheme) (a : alg) : Prop :=
  (t = Pkcs1_256 /\ a = ASHA256) \/ (t = Pkcs1_384 /\ a = ASHA384) \/ (t = Pkcs1_512 /\ a = ASHA512).
Theorem C63_pkcs1_partial : forall w N e d L t a g g' salt data, named_pkcs1 t a -> key_ok w N e d -> (Z.log2 (val N) + 1) / 8 = L ->
  supply_ok a (g 0%nat) -> supply_ok a (g' 0%nat) -> bytes data -> zlen data < 2 ^ 24 -> zlen (h_asn1 a) + spec_size a + 3 <= L <= 2 ^ 32 ->
  let em := be_val (emsa_pkcs1 (h_asn1 a ++ spec_hash a (der_sequence data)) L) in
  exists pk sk sig, rsa_public_key w N e = Ok pk /\ rsa_private_key w N d = Ok sk /\ sign w g sk t salt data = Ok sig /\
    be_val sig = em ^ val d mod val N /\ (zlen sig = L -> validateSignature w g' pk t data (rev sig) = Ok true) /\
    forall s, bytes s -> zlen s = L -> exists b, validateSignature w g' pk t data s = Ok b /\ (b = true <-> le_val s ^ val e mod val N = em).
Proof.
  intros w N e d L t a g g' salt data HT K HB Hg Hg' HD LD HL em.
  destruct (C61_round_trip_partial w a (g 0%nat) (g' 0%nat) N e d L data K HB Hg Hg' HD LD HL) as (pk & sk & sig & E1 & E2 & E3 & E4 & E5).
  destruct (C61_sign w a (g 0%nat) N e d L data K HB Hg HD LD HL) as (_ & _ & LN & LW & _). pose proof K as (Hw & _ & HN & He & _ & HO & _).
  exists pk, sk, sig. split; [exact E1|]. split; [exact E2|].
  assert (SG : sign w g sk t salt data = signPkcs1_5 w a (g 0%nat) sk data) by (destruct HT as [[-> ->]|[[-> ->]|[-> ->]]]; reflexivity).
  assert (VS : forall s, validateSignature w g' pk t data s = validatePkcs1_5 w a (g' 0%nat) pk data s) by (destruct HT as [[-> ->]|[[-> ->]|[-> ->]]]; reflexivity).
  rewrite SG, VS. split; [exact E3|]. split; [exact E4|]. split; [exact E5|]. intros s Hs Ls. rewrite VS.
  destruct (C61_validate w a (g' 0%nat) N e data s Hw HN HO He Hg' HD LD Hs ltac:(lia) ltac:(lia) ltac:(rewrite Ls; exact LN)) as (pk' & b & F1 & F2 & F3).
  rewrite E1 in F1. injection F1 as <-. exists b. split; [exact F2|]. rewrite Ls in F3. exact F3.
Qed.
Print Assumptions C63_pkcs1_partial.
Theorem C63_sha384_refuted : exists w N e d pk sk salt data sig, key_ok w N e d /\ rsa_public_key w N e = Ok pk /\ rsa_private_key w N d = Ok sk /\
  zlen salt = salt_size Pss_rsae_384 /\ Z.log2 (val N) + 1 = 8 * 98 /\
  sign w (fun k => if (k =? 4)%nat then zsup ASHA256 else zsup ASHA384) sk Pss_rsae_384 salt data = Ok sig /\ validateSignature w (hz ASHA384) pk Pss_rsae_384 data sig = Ok false.
Proof.
  assert (EN : val (words 25 N784) = N784) by (apply words_val; split; [discriminate | vm_compute; reflexivity]).
  assert (LG : Z.log2 (val (words 25 N784)) + 1 = 8 * 98) by (rewrite EN; vm_compute; reflexivity).
  destruct (C63_other_identifiers 25 (words 25 N784) (words 25 65537) (words 25 D784) 98 Pss_rsae_384 ASHA384 (fun k => if (k =? 4)%nat then zsup ASHA256 else zsup ASHA384) (hz ASHA384) (repeat 0 48) [])
    as (pk & sk & sig & b & E1 & E2 & E3 & E4 & Hb).
  { left; split; reflexivity. } { exact key784. } { exact LG. } { vm_compute; split; discriminate. } { apply zsup_ok. }
  { intros k Hk. destruct k as [|[|[|[|k]]]]; [apply zsup_ok | apply zsup_ok | apply zsup_ok | apply zsup_ok | lia]. } { apply hz_ok. }
  { constructor. } { reflexivity. } { apply bytesb_ok; reflexivity. } { reflexivity. }
  exists 25%nat, (words 25 N784), (words 25 65537), (words 25 D784), pk, sk, (repeat 0 48), [], sig.
  split; [exact key784|]. split; [exact E1|]. split; [exact E2|]. split; [reflexivity|]. split; [exact LG|]. split; [exact E3|]. rewrite E4. f_equal.
  destruct b; [exfalso|reflexivity]. pose proof (proj1 Hb eq_refl) as Q. clear - Q.
  rewrite (hash_by_model ASHA256 [] sha256_nil) in Q; [|constructor | reflexivity | vm_compute; reflexivity].
  rewrite (hash_by_model ASHA384 [] sha384_nil) in Q; [|constructor | reflexivity | vm_compute; reflexivity].
  rewrite (hash_by_model ASHA384 (repeat 0 8 ++ sha256_nil ++ repeat 0 48) [165; 137; 4; 17; 152; 196; 35; 252; 15; 227; 50; 36; 2; 255; 104; 44; 156; 251; 12; 133; 238; 110; 27; 140; 46; 227; 187; 144; 244; 34; 44; 29; 166; 29; 212; 75; 238; 203; 65; 149; 6; 121; 99; 210; 61; 203; 64; 66]) in Q;
    [|apply bytesb_ok; reflexivity | reflexivity | vm_compute; reflexivity].
  rewrite (hash_by_model ASHA384 (repeat 0 8 ++ sha384_nil ++ repeat 0 48) [225; 26; 110; 127; 59; 206; 247; 119; 246; 124; 82; 62; 222; 125; 98; 61; 84; 241; 209; 88; 158; 52; 233; 33; 108; 73; 89; 33; 199; 238; 207; 33; 3; 51; 8; 179; 255; 18; 87; 105; 84; 119; 37; 175; 100; 172; 164; 218]) in Q;
    [|apply bytesb_ok; reflexivity | reflexivity | vm_compute; reflexivity].
  discriminate Q.
Qed.
Print Assumptions C63_sha384_refuted.
Example C63_case : key_ok 25 (words 25 N784) (words 25 65537) (words 25 D784) /\ 66 <= 98 /\ pss_sha256 Pss_pss_256 /\ named Pss_rsae_384 ASHA384 /\
  named_pkcs1 Pkcs1_256 ASHA256 /\ zlen (h_asn1 ASHA256) + spec_size ASHA256 + 3 <= 98 <= 2 ^ 32.
Proof.
  split; [exact key784|]. split; [lia|]. split; [right; reflexivity|]. split; [left; split; reflexivity|]. split; [left; split; reflexivity|]. vm_compute; split; discriminate.
Qed.
