(** Property C111: a server that proves to be the one named in its certificate. *)
From Coq Require Import String Permutation Znumtheory.
From Verif Require Import Base BaseP S_Base64 M_Base64 P_Base64 S_Hash M_Hash P_Hash Prop_Hash M_HKDF P_HKDF Prop_HKDF S_Bignum M_Bignum P_Bignum Prop_Bignum M_Mont P_Mont S_RSA M_RSA P_RSA P_Fermat Prop_RSA P_Prime RSA_Keys Prop_RSA2 S_X509 M_X509 M_Trust P_X509 P_Date P_Name P_Cert P_Pem S_Verify S_Trust P_Verify P_Trust Cert_Data Prop_X509 Prop_Trust Prop_Chain.
Open Scope list_scope.
Open Scope Z_scope.

(** An RSA key pair: the exponents cancel.  So they do if the modulus is the product of two
    distinct odd primes and e d = 1 modulo the least common multiple of p - 1 and q - 1 (RFC 8017, 3.2). *)
Definition rsa_pair (n e d : Z) : Prop := 1 < n /\ 0 < e /\ 0 < d /\ forall m, (n | m ^ (e * d) - m).
Theorem C111_two_primes : forall p q e d, prime p -> prime q -> p <> q -> p <> 2 -> q <> 2 -> 0 < e -> 0 < d -> (e * d - 1) mod Z.lcm (p - 1) (q - 1) = 0 -> rsa_pair (p * q) e d.
Proof.
  intros p q e d Pp Pq NE P2 Q2 E0 D0 EX. pose proof (prime_ge_2 p Pp). pose proof (prime_ge_2 q Pq). split; [nia|]. split; [exact E0|]. split; [exact D0|]. intros m. apply rsa_exponents; try assumption. nia.
Qed.
Print Assumptions C111_two_primes.

(** The certificate a holder of the issuer's private exponent makes (RFC 8017, 8.2.1, with a modulus of k bytes) ... *)
Definition signed_doc (t : tbs) (a : alg) (n d : Z) (k : nat) : doc :=
  Doc t a (be_bytes k (be_val (emsa_pkcs1 (S_Hash.digest_info a (spec_hash a (tlv 48 (tbs_content t)))) (Z.of_nat k)) ^ d mod n)).
Lemma emsa_small T k : bytes T -> zlen T + 3 <= k -> 0 <= be_val (emsa_pkcs1 T k) < 256 ^ (k - 1).
Proof.
  intros B L. pose proof (zlen_nonneg T) as T0. unfold emsa_pkcs1. set (r := repeat 255 _ ++ [0] ++ T). change ([0; 1] ++ r) with ([0] ++ 1 :: r). rewrite be_val_app. change (be_val [0]) with 0.
  assert (LR : zlen r = k - 2) by (unfold r, zlen; rewrite !app_length, repeat_length; cbn [length]; unfold zlen in *; lia).
  assert (BR : bytes (1 :: r)) by (constructor; [split; lia|]; apply bytes_app; split; [apply Forall_forall; intros x X; apply repeat_spec in X; subst x; split; lia | constructor; [split; lia | exact B]]).
  pose proof (be_val_range (1 :: r) BR) as H. assert (E : zlen (1 :: r) = k - 1) by (rewrite zlen_cons, LR; lia). rewrite E in H. rewrite Z.mul_0_l, Z.add_0_l. exact H.
Qed.
(** ... is issued by it, as C109 has it. *)
Theorem C111_issue : forall t a i d k, In a [ASHA256; ASHA384; ASHA512] -> t_issuer t = t_subject (d_tbs i) ->
  posix (t_start (d_tbs i)) <= posix (t_start t) -> posix (t_stop t) <= posix (t_stop (d_tbs i)) ->
  rsa_pair (t_n (d_tbs i)) (t_e (d_tbs i)) d -> 256 ^ (Z.of_nat k - 1) <= t_n (d_tbs i) < 256 ^ Z.of_nat k -> zlen (h_asn1 a) + spec_size a + 11 <= Z.of_nat k ->
  issued (signed_doc t a (t_n (d_tbs i)) d k) i.
Proof.
  intros t a i d k A IS V1 V2 (N1 & E0 & D0 & DV) HK LK. split; [exact IS|]. split; [exact V1|]. split; [exact V2|]. exists (Z.of_nat k). cbn [signed_doc d_tbs d_alg d_sig].
  set (T := S_Hash.digest_info a _). set (m := be_val (emsa_pkcs1 T _)).
  assert (ET : T = h_asn1 a ++ spec_hash a (tlv 48 (tbs_content t))) by (symmetry; apply (C18_prefix_partial a); [intros H; cbn [In] in *; intuition congruence | apply spec_hash_length]).
  assert (HM : 0 <= m < 256 ^ (Z.of_nat k - 1)).
  { apply emsa_small; rewrite ET; [apply bytes_app; split; [apply bytesb_ok; destruct A as [<-|[<-|[<-|[]]]]; reflexivity | apply spec_hash_bytes] | rewrite zlen_app, spec_hash_length; lia]. }
  set (n := t_n (d_tbs i)) in *. pose proof (Z.mod_pos_bound (m ^ d) n ltac:(lia)) as MB. unfold pkcs1_valid. rewrite be_val_bytes by lia.
  split; [exact HK|]. split; [unfold zlen; rewrite be_bytes_length; reflexivity|]. split; [lia|].
  assert (NP : 0 < n) by (clear - N1; lia). assert (N0 : n <> 0) by (clear - N1; lia). rewrite (pow_mod_eq n (m ^ d mod n) (m ^ d) _ NP (Z.mod_mod _ _ N0)). rewrite <- Z.pow_mul_r, (Z.mul_comm d) by lia.
  rewrite (divide_mod n _ m NP (DV m)). apply Z.mod_small. split; [apply HM | exact (Z.lt_le_trans _ _ _ (proj2 HM) (proj1 HK))].
Qed.
Print Assumptions C111_issue.
(** The two schemes of RFC 8446 4.2.3 with RSASSA-PSS and SHA-256; the salt is as long as the digest. *)
Theorem C111_server : forall g gs gc t roots leaf rest rest' now d crt text body after L data salt,
  (* the client: roots, chain and time as in C109 *)
  (forall i, supplies_ok (g i)) -> Forall good_doc (roots ++ leaf :: rest) -> NoDup (names (roots ++ leaf :: rest)) ->
  posix (t_start (d_tbs leaf)) <= now <= posix (t_stop (d_tbs leaf)) -> chain roots (leaf :: rest) leaf -> Permutation rest rest' ->
  (* the key of the certificate, of a whole number of bytes, and the server's file with it (RFC 8017 A.1.2) *)
  rsa_pair (t_n (d_tbs leaf)) (t_e (d_tbs leaf)) d -> d < 2 ^ 4096 -> Z.log2 (t_n (d_tbs leaf)) + 1 = 8 * L -> 66 <= L ->
  let der := rsa_private_der (t_n (d_tbs leaf)) (t_e (d_tbs leaf)) d crt in let file := text ++ pem "RSA PRIVATE KEY" body ++ after in
  ~ In 45 text -> bytes der -> wrapped body der -> zlen file < 2 ^ 63 -> zlen der < 2 ^ 63 ->
  (* what is signed *)
  pss_sha256 t -> bytes data -> zlen data < 2 ^ 61 -> bytes salt -> zlen salt = salt_size t ->
  (forall k, supply_ok ASHA256 (gs k)) -> (forall k, supply_ok ASHA256 (gc k)) ->
  exists rs c cs out key sk sig,
    map parse_der (map doc_der roots) = map Ok rs /\ parse_der (doc_der leaf) = Ok c /\ map parse_der (map doc_der rest') = map Ok cs /\
    trust g (fold_left addCertificate rs []) (c :: cs) now = Ok (true, out) /\
    (forall name, appliesTo c name = true <-> name = last_value (t_subject (d_tbs leaf)) [85; 4; 3]) /\
    c_pubkey c = Some key /\ parse_private_pem file = Ok (Some sk) /\ sign W gs sk t salt data = Ok sig /\ zlen sig = L /\ validateSignature W gc key t data sig = Ok true.
Proof.
  intros g gs gc t roots leaf rest rest' now d crt text body after L data salt HG F ND VA CH PM (N1 & E0 & D0 & DV) Hd HB HL der file HT BD WR LF LD PT DB DL SB SL Hgs Hgc.
  destruct (C109_chain_trusted g roots leaf rest rest' now HG F ND VA CH PM) as (rs & c & cs & out & R1 & R2 & R3 & T).
  assert (G : good_doc leaf) by (rewrite Forall_forall in F; apply F, in_or_app; right; left; reflexivity).
  destruct G as (GT & _ & _ & LL & _). set (aft := tlv 48 (tlv 6 (doc_oid leaf) ++ tlv 5 []) ++ tlv 3 (0 :: d_sig leaf)).
  destruct (C81_fields (d_tbs leaf) aft [] GT) as (c' & N & e & key & P1 & _ & _ & _ & _ & _ & AP & _ & _ & KEY & BN & VN & Be & Ve & RK); [rewrite app_nil_r; change (zlen (doc_der leaf) < 2 ^ 64); lia|].
  rewrite app_nil_r in P1. change (parse_der (doc_der leaf) = Ok c') in P1. rewrite R2 in P1. injection P1 as <-.
  pose proof GT as (_ & _ & _ & _ & _ & _ & _ & GN & GO & GE & _).
  destruct (C82_private_key (t_n (d_tbs leaf)) (t_e (d_tbs leaf)) d crt) as (N' & D & sk & S1 & BN' & VN' & BD' & VD & SK); [exact GN | exact GO | apply Z.lt_le_incl, E0 | split; [apply Z.lt_le_incl, D0 | exact Hd] | change (zlen der < 2 ^ 64); lia|].
  assert (N' = N) as -> by (apply (val_inj W); [exact BN' | exact BN | congruence]).
  assert (K : key_ok W N e D).
  { unfold key_ok. rewrite VN, Ve, VD. split; [unfold W; lia|]. split; [reflexivity|]. auto 12. }
  destruct (C63_sha256 W N e D L t gs gc salt data PT K) as (pk & sk' & sig & E1 & E2 & E3 & E4 & E5); try assumption.
  - rewrite VN. exact HB.
  - split; [exact HL|]. assert (LB : Z.log2 (t_n (d_tbs leaf)) < 4096) by (apply Z.log2_lt_pow2; [exact (Z.lt_trans 0 1 _ eq_refl N1) | exact (proj2 GN)]). clear - LB HB. lia.
  - rewrite RK in E1. injection E1 as <-. rewrite SK in E2. injection E2 as <-.
    exists rs, c, cs, out, key, sk, sig. repeat (split; [assumption|]). split; [|auto]. unfold file. rewrite (C82_pem text body der after HT BD WR LF). exact S1.
Qed.
Print Assumptions C111_server.

(** A root with a 784-bit key and a server with one of 560 bits: the hypotheses hold.  The moduli
    are products of many small primes (RSA_Keys); no digest has to be computed. *)
Lemma tlv_bytes tag c : 0 <= tag < 256 -> bytes c -> bytes (tlv tag c).
Proof. intros T B. constructor; [exact T|]. apply bytes_app. split; [apply der_length_short, zlen_nonneg | exact B]. Qed.
Lemma tlv_size tag c : zlen (tlv tag c) <= zlen c + 10.
Proof. unfold tlv. rewrite zlen_cons, zlen_app. pose proof (proj2 (der_length_short (zlen c) (zlen_nonneg c))). lia. Qed.
Lemma good_signed t a n d k : good_tbs t -> In a [ASHA256; ASHA384; ASHA512] -> bytes (tbs_content t) -> zlen (tbs_content t) < 2 ^ 20 ->
  zlen (h_asn1 a) + spec_size a + 11 <= Z.of_nat k <= 512 -> good_doc (signed_doc t a n d k).
Proof.
  intros G A B L K. set (sig := be_bytes k (be_val (emsa_pkcs1 (S_Hash.digest_info a (spec_hash a (tlv 48 (tbs_content t)))) (Z.of_nat k)) ^ d mod n)).
  assert (S1 : zlen sig = Z.of_nat k) by (unfold zlen, sig; rewrite be_bytes_length; reflexivity). assert (S2 : bytes sig) by apply be_bytes_bytes.
  change (good_doc (Doc t a sig)). split; [exact G|]. split; [exact A|]. unfold doc_der. cbn [d_tbs d_alg d_sig]. set (o := doc_oid _).
  assert (O : bytes o /\ zlen o = 9) by (unfold o, doc_oid; cbn [d_alg]; destruct A as [<-|[<-|[<-|[]]]]; (split; [apply bytesb_ok; reflexivity | reflexivity])). clearbody o sig.
  unfold cert_der. split; [|split; [|rewrite S1; exact K]].
  - apply tlv_bytes; [lia|]. apply bytes_app. split; [apply tlv_bytes; [lia | exact B]|]. apply bytes_app. split; apply tlv_bytes; try lia; [|constructor; [split; lia | exact S2]].
    apply bytes_app. split; (apply tlv_bytes; [lia|]); [apply O | constructor].
  - pose proof (tlv_size 48 (tlv 48 (tbs_content t) ++ tlv 48 (tlv 6 o ++ tlv 5 []) ++ tlv 3 (0 :: sig))) as T1. rewrite !zlen_app in T1. pose proof (tlv_size 48 (tbs_content t)) as T2.
    pose proof (tlv_size 48 (tlv 6 o ++ tlv 5 [])) as T3. rewrite zlen_app in T3. pose proof (tlv_size 6 o) as T4. pose proof (tlv_size 5 []) as T5. change (zlen []) with 0 in T5. pose proof (tlv_size 3 (0 :: sig)) as T6. rewrite zlen_cons in T6. lia.
Qed.
Definition L560 := [19; 29; 61; 73; 79; 89; 101; 107; 127; 131; 137; 139; 151; 173; 179; 191; 193; 197; 199; 251; 283; 317; 337; 347; 383; 401; 419; 433; 439; 463; 467; 479; 487; 491; 509; 521; 523; 541; 563; 569; 577; 587; 599; 601; 607; 619; 631; 643; 653; 659; 709; 733; 743; 751; 769; 787; 797; 811; 823; 829; 857; 881; 911; 929; 941; 953].
Definition N560 := 2714880538333581922999596926398596835636568096449028334035970125841864229022161143507208529238488487394504695808005995762045676952917208561017653022649653540634156723109.
Definition D560 := 1330443420563767526450545280858487675905949269633839514975049473.
Lemma K560 : N560 = prods L560 /\ key_check L560 65537 D560 = true. Proof. split; vm_compute; reflexivity. Qed.
Definition tRoot := Tbs 1 alg11 (cn "R") (day 2020) (day 2040) (cn "R") N784 65537 [].
Definition tServer := Tbs 2 alg11 (cn "R") (day 2021) (day 2030) (cn "S") N560 65537 [].
Definition key_der := rsa_private_der N560 65537 D560 [].
Lemma pair784 : rsa_pair N784 65537 D784.
Proof. destruct K784 as [-> K]. split; [vm_compute; reflexivity|]. split; [lia|]. split; [reflexivity|]. apply key_check_ok, K. Qed.
Lemma pair560 : rsa_pair N560 65537 D560.
Proof. destruct K560 as [-> K]. split; [vm_compute; reflexivity|]. split; [lia|]. split; [reflexivity|]. apply key_check_ok, K. Qed.
Example C111_case : let R := signed_doc tRoot ASHA256 N784 D784 98 in let S' := signed_doc tServer ASHA256 N784 D784 98 in let body := rfc4648 43 47 true key_der in
  Forall good_doc ([R] ++ [S']) /\ NoDup (names ([R] ++ [S'])) /\ posix (t_start (d_tbs S')) <= 1700000000 <= posix (t_stop (d_tbs S')) /\ chain [R] [S'] S' /\
  rsa_pair (t_n (d_tbs S')) (t_e (d_tbs S')) D560 /\ D560 < 2 ^ 4096 /\ Z.log2 (t_n (d_tbs S')) + 1 = 8 * 70 /\
  bytes key_der /\ wrapped body key_der /\ zlen (pem "RSA PRIVATE KEY" body) < 2 ^ 63 /\ pss_sha256 Pss_rsae_256 /\ salt_size Pss_rsae_256 = zlen (repeat 0 32).
Proof.
  cbv zeta. split; [|split; [|split; [|split; [|split; [exact pair560|]]]]].
  - constructor; [|constructor; [|constructor]]; (apply good_signed; [unfold tRoot, tServer; good_t | left; reflexivity | apply bytesb_ok; vm_compute; reflexivity | vm_compute; reflexivity | split; vm_compute; discriminate]).
  - unfold names. cbn [map app signed_doc d_tbs]. constructor; [intros [E|[]]; vm_compute in E; discriminate E|]. constructor; [intros [] | constructor].
  - cbn [signed_doc d_tbs]. split; vm_compute; discriminate.
  - apply chain_root with (signed_doc tRoot ASHA256 N784 D784 98); [left; reflexivity|].
    apply (C111_issue tServer ASHA256 (signed_doc tRoot ASHA256 N784 D784 98) D784 98); cbn [signed_doc d_tbs]; [left; reflexivity | reflexivity | vm_compute; discriminate | vm_compute; discriminate | exact pair784 | | vm_compute; discriminate].
    split; [vm_compute; discriminate | vm_compute; reflexivity].
  - split; [vm_compute; reflexivity|]. split; [cbn [signed_doc d_tbs]; vm_compute; reflexivity|]. split; [apply bytesb_ok; vm_compute; reflexivity|]. split; [vm_compute; reflexivity|]. split; [vm_compute; reflexivity|].
    split; [left; reflexivity | reflexivity].
Qed.
