(** Property C130: how short an RSA key can be and still vouch for a certificate. *)
From Coq Require Import String Permutation Znumtheory.
From Verif Require Import Base BaseP S_Base64 M_Base64 P_Base64 S_Hash M_Hash P_Hash Prop_Hash M_HKDF P_HKDF Prop_HKDF S_Bignum M_Bignum P_Bignum Prop_Bignum M_Mont P_Mont S_RSA M_RSA P_RSA P_Fermat Prop_RSA P_Prime RSA_Keys Prop_RSA2 S_X509 M_X509 M_Trust P_X509 P_Date P_Name P_Cert P_Pem S_Verify S_Trust P_Verify P_Trust Cert_Data Prop_X509 Prop_Trust Prop_Chain Prop_Server Prop_Times.
Open Scope list_scope.
Open Scope Z_scope.

(** The last byte before the digest information keeps a standard encoding large, even cut to 512 bytes. *)
Lemma odd_pad j : Z.odd (be_val ([0; 1] ++ repeat 255 j)) = true.
Proof.
  destruct j as [|j]; [reflexivity|]. replace (repeat 255 (S j)) with (repeat 255 j ++ [255]) by (rewrite <- repeat_cons; reflexivity).
  rewrite app_assoc, be_val_app. change (zlen [255]) with 1. change (be_val [255]) with 255. rewrite Z.odd_add, Z.odd_mul. change (Z.odd (256 ^ 1)) with false. rewrite andb_false_r. reflexivity.
Qed.
Lemma emsa_large T L : bytes T -> zlen T + 1 < 512 -> 256 ^ (zlen T + 1) <= be_val (emsa_pkcs1 T L) mod 2 ^ 4096.
Proof.
  intros B H. unfold emsa_pkcs1. rewrite app_assoc, be_val_app. set (P := be_val ([0; 1] ++ _)). assert (OP : Z.odd P = true) by apply odd_pad. clearbody P.
  rewrite zlen_app. change (zlen [0]) with 1. replace (1 + zlen T) with (zlen T + 1) by lia.
  assert (R : 0 <= be_val ([0] ++ T) < 256 ^ (zlen T + 1)).
  { rewrite be_val_app. change (be_val [0]) with 0. pose proof (be_val_range T B). pose proof (zlen_nonneg T). rewrite Z.pow_add_r by lia. change (256 ^ 1) with 256. lia. }
  set (t := be_val ([0] ++ T)) in *. clearbody t. pose proof (zlen_nonneg T) as T0. set (k := zlen T + 1) in *. assert (K : 0 < k < 512) by lia. clearbody k. clear T B T0 H.
  replace (2 ^ 4096) with (256 ^ k * 256 ^ (512 - k)) by (rewrite <- Z.pow_add_r by lia; replace (k + (512 - k)) with 512 by lia; change 256 with (2 ^ 8); rewrite <- Z.pow_mul_r by lia; reflexivity).
  set (A := 256 ^ k) in *. assert (A0 : 0 < A) by lia. replace (512 - k) with (1 + (511 - k)) by lia. rewrite Z.pow_add_r by lia. change (256 ^ 1) with 256. set (C := 256 ^ (511 - k)). assert (C0 : 0 < C) by (apply Z.pow_pos_nonneg; lia). clearbody A C. clear k K.
  pose proof (Z.div_mod (P * A + t) (A * (256 * C)) ltac:(nia)) as D. pose proof (Z.mod_pos_bound (P * A + t) (A * (256 * C)) ltac:(nia)) as M. set (v := (P * A + t) mod _) in *. set (z := (P * A + t) / _) in *. clearbody v z.
  destruct (Z.le_gt_cases A v) as [|LT]; [assumption|]. exfalso. assert (E : A * (P - 256 * C * z) = v - t) by nia.
  assert (Z0 : P - 256 * C * z = 0) by nia. replace P with (2 * (128 * C * z)) in OP by lia. rewrite Z.odd_mul in OP. discriminate OP.
Qed.
(** The standard minimum for a key is eleven bytes more than the digest information (RFC 8017, 9.2).  Here it is two bytes more:
    a key has more than 416, 544 or 672 bits, depending on the hash. *)
Definition floor (a : alg) : Z := match a with ASHA256 => 2 ^ 416 | ASHA384 => 2 ^ 544 | _ => 2 ^ 672 end.
Definition long_enough (c iss : cert) : Prop := exists tbs oid sig a, laid_out (derCert c) tbs oid sig /\ sig_alg oid a /\
  forall N e key, c_pubkey iss = Some key -> bn W N -> Z.odd (val N) = true -> bn W e -> rsa_public_key W N e = Ok key -> floor a <= val N.
Lemma verify_floor g c iss : bytes (derCert c) -> zlen (derCert c) < 2 ^ 24 -> supplies_ok g -> verify g c iss = Ok true -> long_enough c iss.
Proof.
  intros HB LB HG H. destruct (verify_shape g c iss HB) as [X|[X|(tbs & oid & sig & k & NE & LO & K & X)]]; [congruence..|].
  rewrite X in H. rename k into pk. destruct (laid_out_parts _ _ _ _ HB LO) as (B1 & B2 & L1 & L2).
  destruct (sig_type_cases oid) as [T|(a & SA & V)]; [rewrite T in H; discriminate H|]. destruct (V g pk tbs (rev sig) HG) as [V1 Hg]. rewrite V1 in H. clear V V1 X.
  exists tbs, oid, sig, a. split; [exact LO|]. split; [exact SA|]. intros N e key HK HN HO He Hpk. rewrite K in HK. injection HK as <-.
  assert (HS : bytes (rev sig)) by (apply bytes_rev; exact B2). assert (LS : 0 <= zlen (rev sig) < 2 ^ 32) by (rewrite zlen_rev; pose proof (zlen_nonneg sig); lia).
  unfold validatePkcs1_5 in H. rewrite PKCS1_cases in H by (assumption || lia). destruct (_ <? _); [discriminate H|]. cbn [bind] in H.
  set (em := emsa_pkcs1 _ _) in *. assert (BE : bytes em) by (unfold em, digest_info; apply em_bytes).
  destruct (of_bytes_be W em BE) as (h & E1 & Hh & Vh). rewrite E1 in H. cbn [bind] in H. destruct (of_bytes_mod W (rev sig) HS) as (s & E2 & Hs & Vs). rewrite E2 in H. cbn [bind] in H.
  destruct (public_key_ok W N e ltac:(unfold W; lia) HN HO He) as (pk' & Epk & Gp & Pe & _). rewrite Hpk in Epk. injection Epk as <-.
  destruct (rsaep_ok W pk _ s Gp ltac:(rewrite Pe; exact He) Hs) as (r & E3 & Hr & Vr & _). rewrite E3 in H. cbn [bind] in H. injection H as H. rewrite (eq_ok W) in H by assumption. apply Z.eqb_eq in H.
  pose proof (odd_pos _ _ HN HO) as NP. apply Z.le_trans with (val h).
  - rewrite Vh. change (2 ^ (32 * Z.of_nat W)) with (2 ^ 4096). unfold em. replace (floor a) with (256 ^ (zlen (h_asn1 a) + spec_size a + 1)) by (destruct SA as [[_ ->]|[[_ ->]|[_ ->]]]; vm_compute; reflexivity). assert (Q : zlen (digest_info a tbs) = zlen (h_asn1 a) + spec_size a) by (unfold digest_info; rewrite zlen_app, spec_hash_length; reflexivity).
    rewrite <- Q. apply emsa_large; [|rewrite Q; destruct SA as [[_ ->]|[[_ ->]|[_ ->]]]; vm_compute; reflexivity].
    unfold em, emsa_pkcs1 in BE. apply bytes_app in BE as [_ BE]. apply bytes_app in BE as [_ BE]. apply bytes_app in BE as [_ BE]. exact BE.
  - rewrite H. destruct Vr as [V|[V V0]]; [|rewrite V; apply Z.le_refl]. rewrite V. apply Z.lt_le_incl, Z.mod_pos_bound, NP.
Qed.
(** A certificate that passes the check against an issuer. *)
Theorem C130_floor : forall g c iss N e key, bytes (derCert c) -> zlen (derCert c) < 2 ^ 24 -> supplies_ok g ->
  bn W N -> Z.odd (val N) = true -> bn W e -> rsa_public_key W N e = Ok key -> c_pubkey iss = Some key -> verify g c iss = Ok true -> 2 ^ 416 <= val N.
Proof.
  intros g c iss N e key HB LB HG HN HO He Hpk HK H. destruct (verify_floor g c iss HB LB HG H) as (tbs & oid & sig & a & _ & _ & F). apply Z.le_trans with (floor a); [|exact (F N e key HK HN HO He Hpk)].
  destruct a; vm_compute; discriminate.
Qed.
(** Along a whole trusted chain. *)
Theorem C130_chain : forall g s vec now out, (forall i, supplies_ok (g i)) -> (forall c, In c vec -> bytes (derCert c) /\ zlen (derCert c) < 2 ^ 24) ->
  trust g s vec now = Ok (true, out) -> exists leaf rest l, vec = leaf :: rest /\ path long_enough (get s) vec leaf l.
Proof.
  intros g s vec now out HG HV H. destruct (trust_sound _ s vec now out H) as (leaf & rest & l & E & VA & P). exists leaf, rest, l. split; [exact E|].
  apply (path_map _ long_enough (get s) vec vec) with (4 := P); [auto | | rewrite E; left; reflexivity]. intros c i IC _ (k & V). destruct (HV c IC) as [B L]. exact (verify_floor (g k) c i B L (HG k) V).
Qed.
Print Assumptions C130_floor.
Print Assumptions C130_chain.
(** But no key that takes the standard's or today's sizes for granted: a chain of keys of 496 bits, a size that has been factored, is trusted. *)
Theorem C130_refuted : forall g, (forall i, supplies_ok (g i)) -> exists root pool r cs out now, t_n (d_tbs root) < 2 ^ 496 /\ Forall (fun x => t_n (d_tbs x) < 2 ^ 496) pool /\
  parse_der (doc_der root) = Ok r /\ map parse_der (map doc_der pool) = map Ok cs /\ trust g (addCertificate [] r) cs now = Ok (true, out).
Proof.
  intros g HG. destruct C109_case as (F & ND & VA & CH).
  destruct (C109_chain_trusted g _ _ _ _ 1700000000 HG F ND VA CH (Permutation_refl _)) as (rs & c & cs & out & P1 & P2 & P3 & T).
  destruct (one_doc _ rs P1) as (r & -> & R). exists (Doc tR ASHA256 sR), [Doc tL ASHA256 sL; Doc tA ASHA256 sA], r, (c :: cs), out, 1700000000.
  split; [vm_compute; reflexivity|]. split; [constructor; [vm_compute; reflexivity | constructor; [vm_compute; reflexivity | constructor]]|]. split; [exact R|].
  split; [|exact T]. change (map parse_der (map doc_der [Doc tL ASHA256 sL; Doc tA ASHA256 sA])) with (parse_der (doc_der (Doc tL ASHA256 sL)) :: map parse_der (map doc_der [Doc tA ASHA256 sA])).
  change (map Ok (c :: cs)) with (Ok c :: map Ok cs). rewrite P2. f_equal. exact P3.
Qed.
Print Assumptions C130_refuted.
(** The hypotheses of C130_chain are met by that chain: its keys are between the floor and 496 bits. *)
Example C130_case : floor ASHA256 <= t_n tR < 2 ^ 496 /\ floor ASHA256 <= t_n tA < 2 ^ 496 /\ bytes (doc_der (Doc tL ASHA256 sL)) /\ zlen (doc_der (Doc tL ASHA256 sL)) < 2 ^ 24 /\
  exists k, pkcs1_valid (t_n tA) (t_e tA) k ASHA256 (tlv 48 (tbs_content tL)) sL.
Proof.
  split; [split; vm_compute; (reflexivity || discriminate)|]. split; [split; vm_compute; (reflexivity || discriminate)|]. split; [apply bytesb_ok; vm_compute; reflexivity|]. split; [vm_compute; reflexivity|].
  destruct issued_L as (_ & _ & _ & V). exact V.
Qed.
