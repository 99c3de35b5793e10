(** Properties C128 and C129: the key that counts is the one the certificate states, and so is the signature algorithm. *)
From Coq Require Import String Permutation Znumtheory.
From Verif Require Import Base BaseP S_Base64 M_Base64 P_Base64 S_Hash M_Hash P_Hash Prop_Hash M_HKDF P_HKDF Prop_HKDF S_Bignum M_Bignum P_Bignum Prop_Bignum M_Mont P_Mont S_RSA M_RSA P_RSA P_Fermat Prop_RSA P_Prime RSA_Keys Prop_RSA2 S_X509 M_X509 M_Trust P_X509 P_Date P_Name P_Cert P_Pem S_Verify S_Trust P_Verify P_Trust Cert_Data Prop_X509 Prop_Trust Prop_Chain Prop_Server Prop_Times.
Open Scope list_scope.
Open Scope Z_scope.

(** ** C128: the key *)
Lemma parse_pubkey_wide n e rest : 0 <= n -> Z.odd n = true -> 0 <= e -> 17 <= e mod 2 ^ Wbits -> zlen (spki_content n e) < 2 ^ 64 ->
  exists N E pk, parse_pubkey (view_of (Sp (spki_content n e) rest)) = Ok (Some pk) /\ bn W N /\ val N = n mod 2 ^ Wbits /\ bn W E /\ val E = e mod 2 ^ Wbits /\ rsa_public_key W N E = Ok pk.
Proof.
  intros Hn HO E0 He HL. unfold spki_content in *. rewrite zlen_app in HL. pose proof (tlv_length 3 (0 :: rsa_key_der n e)) as L1. rewrite zlen_cons in L1. nn.
  unfold parse_pubkey. rewrite view_of_cur. unfold rsaEncryption. rewrite read_tlv by reflexivity. cbn [bind]. change (negb (48 =? id_sequence)) with false. cbv iota.
  rewrite view_of_cur, read_tlv by reflexivity. cbn [bind s_data]. change (negb (6 =? id_object)) with false. cbv iota.
  change (negb (list_eqb _ oid_rsaEncryption)) with false. cbv iota. rewrite read_last by (rewrite zlen_cons; lia). cbn [bind drop1 s_data s_rest].
  assert (HL2 : zlen (rsa_key_der n e) < 2 ^ 64) by lia. clear HL L1. unfold rsa_key_der in *. pose proof (tlv_length 48 (integer n ++ integer e)) as L1. rewrite zlen_app in L1.
  pose proof (tlv_length 2 (int_content n)) as L2. pose proof (tlv_length 2 (int_content e)) as L3. fold (integer n) in L2. fold (integer e) in L3. nn.
  unfold parse_rsa_pubkey. rewrite view_of_cur, read_last by (rewrite zlen_app; lia). cbn [bind]. rewrite view_of_cur.
  destruct (parse_bignum_ok W n [] (integer e) rest Hn ltac:(lia)) as (N & -> & BN & VN). cbn [bind].
  rewrite <- (app_nil_r (integer e)). cbn [app]. destruct (parse_bignum_ok W e (integer n) [] rest E0 ltac:(lia)) as (E & -> & BE & VE). cbn [bind].
  fold Wbits in VN, VE. rewrite lt17 by exact BE. rewrite VE. destruct (Z.ltb_spec (e mod 2 ^ Wbits) 17) as [C|C]; [exfalso; clear - He C; lia|].
  assert (NO : Z.odd (val N) = true) by (rewrite VN, <- Z.bit0_odd, Z.mod_pow2_bits_low, Z.bit0_odd by (unfold Wbits, W; lia); exact HO).
  destruct (public_key_ok W N E ltac:(unfold W; lia) BN NO BE) as (pk & EQ & _). exists N, E, pk. rewrite EQ. cbn [bind]. split; [reflexivity|]. repeat (split; [assumption|]). reflexivity.
Qed.
(** The key taken from a certificate is the one stated, reduced modulo 2^4096, whatever its size. *)
Theorem C128_key : forall t after rest, good_frame t -> 0 <= t_n t -> Z.odd (t_n t) = true -> 0 <= t_e t -> 17 <= t_e t mod 2 ^ 4096 ->
  let inp := tlv 48 (tlv 48 (tbs_content t) ++ after) ++ rest in zlen inp < 2 ^ 64 ->
  exists c N e key, parse_der inp = Ok c /\ derCert c = inp /\ subject c = name_text (t_subject t) /\ issuer c = name_text (t_issuer t) /\
    validity_start c = posix (t_start t) /\ validity_end c = posix (t_stop t) /\
    c_pubkey c = Some key /\ bn W N /\ val N = t_n t mod 2 ^ 4096 /\ bn W e /\ val e = t_e t mod 2 ^ 4096 /\ rsa_public_key W N e = Ok key.
Proof.
  intros t after rest G N0 NO E0 E17 inp HL. change (2 ^ 4096) with (2 ^ Wbits) in *.
  destruct (parse_der_frame t after rest G HL) as (ser & ni & ns & r & S6 & EQ & _ & _ & F1 & F2 & _). fold inp in EQ.
  destruct (parse_pubkey_wide (t_n t) (t_e t) r N0 NO E0 E17 S6) as (N & E & pk & EP & HN & VN & HE & VE & RK). rewrite EP in EQ. cbn [bind] in EQ.
  eexists; exists N, E, pk. split; [exact EQ|]. cbn [derCert subject issuer validity_start validity_end c_pubkey].
  split; [reflexivity|]. split; [exact F1|]. split; [exact F2|]. repeat (split; [reflexivity || assumption|]). exact RK.
Qed.
(** One certificate below one root. *)
Lemma trust_one g r c now : (forall k, verify (g k) c r = Ok true) -> subject c <> subject r -> issuer c = subject r -> validity_start c <= now <= validity_end c ->
  trust g (addCertificate [] r) [c] now = Ok (true, [c]).
Proof.
  intros VER S12 I1 T1. unfold trust, trust_with. destruct (Z.ltb_spec now (validity_start c)); [lia|]. destruct (Z.ltb_spec (validity_end c) now); [lia|].
  assert (L1 : lookup (map (fun e => (fst e, Stored (snd e))) (addCertificate [] r)) (issuer c) = Some (Stored r)).
  { rewrite lookup_map. unfold addCertificate. rewrite lookup_insert, I1, (proj2 (list_eqb_eq (subject r) (subject r)) eq_refl). reflexivity. }
  assert (L2 : known (map (fun e => (fst e, Stored (snd e))) (addCertificate [] r)) (subject c) = false).
  { unfold known. rewrite lookup_map. unfold addCertificate. rewrite lookup_insert, (proj2 (eqb_neq _ _) S12). reflexivity. }
  change (trust_fuel (List.length [c])) with (S 4). generalize 4%nat as fuel. intros fuel. cbn [trust_loop nth_error]. rewrite L1, L2. cbn [deref bind]. rewrite VER. reflexivity.
Qed.
(** So whoever has the private key for the remainder signs for the issuer: a certificate [x] that is valid under
    the key (n mod 2^4096, e mod 2^4096) is trusted if [root] is. *)
Theorem C128_remainder : forall g root x k now, (forall i, supplies_ok (g i)) -> good_frame (d_tbs root) -> zlen (doc_der root) < 2 ^ 64 ->
  0 <= t_n (d_tbs root) -> Z.odd (t_n (d_tbs root)) = true -> 0 <= t_e (d_tbs root) -> 17 <= t_e (d_tbs root) mod 2 ^ 4096 -> good_doc x ->
  t_issuer (d_tbs x) = t_subject (d_tbs root) -> name_text (t_subject (d_tbs x)) <> name_text (t_subject (d_tbs root)) ->
  posix (t_start (d_tbs root)) <= posix (t_start (d_tbs x)) -> posix (t_stop (d_tbs x)) <= posix (t_stop (d_tbs root)) ->
  posix (t_start (d_tbs x)) <= now <= posix (t_stop (d_tbs x)) ->
  pkcs1_valid (t_n (d_tbs root) mod 2 ^ 4096) (t_e (d_tbs root) mod 2 ^ 4096) k (d_alg x) (tlv 48 (tbs_content (d_tbs x))) (d_sig x) ->
  exists r c out, parse_der (doc_der root) = Ok r /\ parse_der (doc_der x) = Ok c /\ trust g (addCertificate [] r) [c] now = Ok (true, out).
Proof.
  intros g root x k now HG GF LR N0 NO E0 E17 Gx EI NE V1 V2 VA ([K1 K2] & KL & SB & EQ).
  set (after := tlv 48 (tlv 6 (doc_oid root) ++ tlv 5 []) ++ tlv 3 (0 :: d_sig root)).
  assert (DR : tlv 48 (tlv 48 (tbs_content (d_tbs root)) ++ after) ++ [] = doc_der root) by (rewrite app_nil_r; reflexivity).
  destruct (C128_key (d_tbs root) after [] GF N0 NO E0 E17) as (r & N & e & key & P1 & _ & P3 & _ & P5 & P6 & K & BN & VN & Be & Ee & R); [rewrite DR; exact LR|]. rewrite DR in P1.
  destruct (cert_of_ok x Gx) as (_ & _ & _ & PX & D & Sx & Ix & Vs & Ve & _). pose proof Gx as (_ & A & B & L & S1).
  pose proof (zlen_nonneg (h_asn1 (d_alg x))) as AN. pose proof (spec_size_range (d_alg x)) as SR.
  assert (NOv : Z.odd (val N) = true) by (rewrite VN; change (2 ^ 4096) with (2 ^ Wbits); rewrite <- Z.bit0_odd, Z.mod_pow2_bits_low, Z.bit0_odd by (unfold Wbits, W; lia); exact NO).
  assert (VER : forall g', supplies_ok g' -> verify g' (cert_of x) r = Ok true).
  { intros g' HG'. destruct (C73_exact g' (cert_of x) r (tbs_content (d_tbs x)) (doc_oid x) (d_sig x) [] (d_alg x) N e key) as (b & E & Hb); try assumption.
    - rewrite D. exact B.
    - rewrite D. exact L.
    - rewrite app_nil_r. exact D.
    - apply oid_alg, A.
    - clear - S1 AN SR. lia.
    - rewrite VN, KL. apply Z.le_trans with (256 ^ (k - 1)); [|exact K1]. clear - S1 AN SR KL. replace (k - 1) with (Z.succ (k - 2)) by lia. rewrite Z.pow_succ_r by lia. pose proof (Z.pow_pos_nonneg 256 (k - 2)). lia.
    - rewrite E. f_equal. apply Hb. rewrite Vs, Ve, P5, P6, VN, Ee, KL. split; [split; assumption|]. rewrite EQ. f_equal. f_equal. symmetry. apply (C18_prefix_partial (d_alg x)); [|apply spec_hash_length].
      clear - A. intros H. cbn [In] in *. intuition congruence. }
  exists r, (cert_of x), [cert_of x]. split; [exact P1|]. split; [exact PX|].
  apply trust_one; [intros k'; apply VER, HG | rewrite Sx, P3; exact NE | rewrite Ix, EI, P3; reflexivity | rewrite Vs, Ve; exact VA].
Qed.
Print Assumptions C128_key.
Print Assumptions C128_remainder.
(** A root that states a key of 4097 bits.  A certificate with a signature of 98 bytes, made with a key of 784 bits,
    is trusted, although no signature of that length is valid under the key stated. *)
Definition Nwide : Z := 2 ^ 4096 + N784.
Definition tWide := Tbs 1 alg11 (cn "R") (day 2020) (day 2040) (cn "R") Nwide 65537 [].
Definition wide_root := Doc tWide ASHA256 [].
Definition wide_site := signed_doc tServer ASHA256 N784 D784 98.
Lemma wide_mod : Nwide mod 2 ^ 4096 = N784. Proof. vm_compute. reflexivity. Qed.
Lemma wide_frame : good_frame tWide.
Proof. destruct good_R as (H1 & H2 & H3 & H4 & H5 & H6 & H7 & _ & _ & _ & H8). unfold good_frame, tWide. cbn [t_serial t_issuer t_subject t_start t_stop t_tail tR] in *. tauto. Qed.
Lemma wide_good : good_doc wide_site.
Proof. apply good_signed; [unfold tServer; good_t | left; reflexivity | apply bytesb_ok; vm_compute; reflexivity | vm_compute; reflexivity | split; vm_compute; discriminate]. Qed.
Lemma wide_signed : pkcs1_valid N784 65537 98 ASHA256 (tlv 48 (tbs_content tServer)) (d_sig wide_site).
Proof.
  assert (I : issued wide_site (Doc tRoot ASHA256 [])).
  { apply (C111_issue tServer ASHA256 (Doc tRoot ASHA256 []) D784 98); cbn [d_tbs]; [left; reflexivity | reflexivity | vm_compute; discriminate | vm_compute; discriminate | exact pair784 | | vm_compute; discriminate].
    split; [vm_compute; discriminate | vm_compute; reflexivity]. }
  destruct I as (_ & _ & _ & k & V). assert (K : k = 98). { destruct V as (_ & L & _). rewrite <- L. unfold wide_site, signed_doc. cbn [d_sig]. unfold zlen. rewrite be_bytes_length. reflexivity. }
  rewrite K in V. exact V.
Qed.
Lemma wide_invalid : forall k, ~ pkcs1_valid Nwide 65537 k ASHA256 (tlv 48 (tbs_content tServer)) (d_sig wide_site).
Proof.
  intros k ([_ H] & L & _). assert (K : k = 98). { rewrite <- L. unfold wide_site, signed_doc. cbn [d_sig]. unfold zlen. rewrite be_bytes_length. reflexivity. }
  rewrite K in H. vm_compute in H. discriminate H.
Qed.
Theorem C128_refuted : forall g, (forall i, supplies_ok (g i)) -> exists root site now r c out,
  (forall k, ~ pkcs1_valid (t_n (d_tbs root)) (t_e (d_tbs root)) k (d_alg site) (tlv 48 (tbs_content (d_tbs site))) (d_sig site)) /\
  parse_der (doc_der root) = Ok r /\ parse_der (doc_der site) = Ok c /\ trust g (addCertificate [] r) [c] now = Ok (true, out).
Proof.
  intros g HG. exists wide_root, wide_site, 1700000000.
  destruct (C128_remainder g wide_root wide_site 98 1700000000 HG wide_frame) as (r & c & out & H).
  - vm_compute. reflexivity.
  - vm_compute. discriminate.
  - vm_compute. reflexivity.
  - vm_compute. discriminate.
  - vm_compute. discriminate.
  - exact wide_good.
  - reflexivity.
  - change (name_text (t_subject tServer) <> name_text (t_subject tWide)). intros E. vm_compute in E. discriminate E.
  - change (posix (t_start tWide) <= posix (t_start tServer)). vm_compute. discriminate.
  - change (posix (t_stop tServer) <= posix (t_stop tWide)). vm_compute. discriminate.
  - change (posix (t_start tServer) <= 1700000000 <= posix (t_stop tServer)). split; vm_compute; discriminate.
  - change (pkcs1_valid (Nwide mod 2 ^ 4096) 65537 98 ASHA256 (tlv 48 (tbs_content tServer)) (d_sig wide_site)). rewrite wide_mod. exact wide_signed.
  - exists r, c, out. split; [exact wide_invalid | exact H].
Qed.
Print Assumptions C128_refuted.
(** The hypotheses of both theorems hold for it. *)
Example C128_case : good_frame tWide /\ zlen (doc_der wide_root) < 2 ^ 64 /\ Z.odd (t_n tWide) = true /\ 2 ^ 4096 <= t_n tWide /\ 17 <= t_e tWide mod 2 ^ 4096 /\
  good_doc wide_site /\ pkcs1_valid (t_n tWide mod 2 ^ 4096) 65537 98 ASHA256 (tlv 48 (tbs_content tServer)) (d_sig wide_site).
Proof.
  split; [exact wide_frame|]. split; [vm_compute; reflexivity|]. split; [vm_compute; reflexivity|]. split; [vm_compute; discriminate|]. split; [vm_compute; discriminate|].
  split; [exact wide_good|]. change (t_n tWide) with Nwide. rewrite wide_mod. exact wide_signed.
Qed.

(** ** C129: the signature algorithm *)
(** RFC 5280, 4.1.1.2 and 4.1.2.3: the algorithm is stated twice, inside and outside the signed part, and both must agree. *)
Definition states_one_algorithm (x : doc) : Prop := t_sigalg (d_tbs x) = tlv 6 (doc_oid x) ++ tlv 5 [].
(** The statement inside, which the signature covers, is not looked at: it changes nothing about what is read. *)
Definition with_sigalg (a : list Z) (t : tbs) : tbs := Tbs (t_serial t) a (t_issuer t) (t_start t) (t_stop t) (t_subject t) (t_n t) (t_e t) (t_tail t).
Theorem C129_ignored : forall t a after, good_tbs t -> zlen (tlv 48 (tlv 48 (tbs_content t) ++ after)) < 2 ^ 64 -> zlen (tlv 48 (tlv 48 (tbs_content (with_sigalg a t)) ++ after)) < 2 ^ 64 ->
  exists c c', parse_der (tlv 48 (tlv 48 (tbs_content t) ++ after)) = Ok c /\ parse_der (tlv 48 (tlv 48 (tbs_content (with_sigalg a t)) ++ after)) = Ok c' /\
    serialNumber c' = serialNumber c /\ subject c' = subject c /\ issuer c' = issuer c /\ (forall name, appliesTo c' name = appliesTo c name) /\
    validity_start c' = validity_start c /\ validity_end c' = validity_end c /\ c_pubkey c' = c_pubkey c.
Proof.
  intros t a after G L1 L2. assert (G' : good_tbs (with_sigalg a t)) by exact G.
  destruct (C81_fields t after [] G) as (c & N & e & key & P1 & _ & Bs & Vs & Su & Is & Ap & S1 & S2 & K & BN & VN & Be & Ve & R); [rewrite app_nil_r; exact L1|].
  destruct (C81_fields (with_sigalg a t) after [] G') as (c' & N' & e' & key' & P1' & _ & Bs' & Vs' & Su' & Is' & Ap' & S1' & S2' & K' & BN' & VN' & Be' & Ve' & R'); [rewrite app_nil_r; exact L2|].
  rewrite app_nil_r in P1, P1'. cbn [with_sigalg t_serial t_issuer t_start t_stop t_subject t_n t_e] in *.
  assert (EN : N' = N) by (apply (val_inj W); [exact BN' | exact BN | congruence]). assert (EE : e' = e) by (apply (val_inj W); [exact Be' | exact Be | congruence]).
  exists c, c'. split; [exact P1|]. split; [exact P1'|]. split; [apply (val_inj 4); [exact Bs' | exact Bs | congruence]|]. split; [congruence|]. split; [congruence|].
  split; [|split; [congruence|]; split; [congruence|]; rewrite EN, EE in R'; rewrite K, K'; congruence].
  intros name. specialize (Ap name). specialize (Ap' name). destruct (appliesTo c name), (appliesTo c' name); try reflexivity; exfalso; clear - Ap Ap'; intuition discriminate.
Qed.
Print Assumptions C129_ignored.
(** A certificate that says it is signed with MD5 (1.2.840.113549.1.1.4) and is signed with SHA-256 is trusted. *)
Definition tSplit := with_sigalg (tlv 6 (rsa_sig_oid 4) ++ tlv 5 []) tServer.
Definition split_root := signed_doc tRoot ASHA256 N784 D784 98.
Definition split_site := signed_doc tSplit ASHA256 N784 D784 98.
Lemma split_facts : Forall good_doc ([split_root] ++ [split_site]) /\ NoDup (names ([split_root] ++ [split_site])) /\ posix (t_start (d_tbs split_site)) <= 1700000000 <= posix (t_stop (d_tbs split_site)) /\
  chain [split_root] [split_site] split_site.
Proof.
  unfold split_root, split_site. split; [|split; [|split]].
  - constructor; [|constructor; [|constructor]]; (apply good_signed; [first [unfold tRoot; good_t | assert (X : good_tbs tServer) by (unfold tServer; good_t); exact X] | left; reflexivity | apply bytesb_ok; vm_compute; reflexivity | vm_compute; reflexivity | split; vm_compute; discriminate]).
  - unfold names. cbn [map app signed_doc d_tbs]. constructor; [intros [E|[]]; vm_compute in E; discriminate E|]. constructor; [intros [] | constructor].
  - cbn [signed_doc d_tbs]. split; vm_compute; discriminate.
  - apply chain_root with (signed_doc tRoot ASHA256 N784 D784 98); [left; reflexivity|].
    apply (C111_issue tSplit ASHA256 (signed_doc tRoot ASHA256 N784 D784 98) D784 98); cbn [signed_doc d_tbs]; [left; reflexivity | reflexivity | vm_compute; discriminate | vm_compute; discriminate | exact pair784 | | vm_compute; discriminate].
    split; [vm_compute; discriminate | vm_compute; reflexivity].
Qed.
Lemma split_differs : ~ states_one_algorithm split_site.
Proof. intros E. change (tlv 6 (rsa_sig_oid 4) ++ tlv 5 [] = tlv 6 (rsa_sig_oid 11) ++ tlv 5 []) in E. vm_compute in E. discriminate E. Qed.
Theorem C129_refuted : forall g, (forall i, supplies_ok (g i)) ->
  exists root site now r c out, ~ states_one_algorithm site /\
    parse_der (doc_der root) = Ok r /\ parse_der (doc_der site) = Ok c /\ trust g (addCertificate [] r) [c] now = Ok (true, out).
Proof.
  intros g HG. destruct split_facts as (F & ND & VA & CH).
  destruct (C109_chain_trusted g [split_root] split_site [] [] 1700000000 HG F ND VA CH (Permutation_refl _)) as (rs & c & cs & out & P1 & P2 & P3 & T).
  destruct (one_doc split_root rs P1) as (r & -> & R). destruct cs as [|c2 cs]; [|discriminate P3]. exists split_root, split_site, 1700000000, r, c, out. split; [exact split_differs|]. split; [exact R|]. split; [exact P2 | exact T].
Qed.
Print Assumptions C129_refuted.
Example C129_case : good_tbs tServer /\ states_one_algorithm (Doc tServer ASHA256 []) /\ t_sigalg tSplit <> t_sigalg tServer.
Proof. split; [unfold tServer; good_t|]. split; [reflexivity|]. intros E. vm_compute in E. discriminate E. Qed.
