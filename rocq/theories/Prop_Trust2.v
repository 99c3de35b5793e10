(** Further properties of certificate checking (C95-C97). *)
From Coq Require Import String Permutation.
From Verif Require Import Base BaseP S_Base64 M_Base64 P_Base64 S_Hash M_Hash P_Hash M_HKDF P_HKDF Prop_HKDF S_Bignum M_Bignum P_Bignum Prop_Bignum M_Mont P_Mont S_RSA M_RSA P_RSA Prop_RSA P_Prime Prop_RSA2 S_X509 M_X509 M_Trust P_X509 P_Date P_Name P_Cert P_Pem S_Verify S_Trust P_Verify P_Trust Cert_Data Prop_X509 Prop_Trust.
Open Scope Z_scope.

(** ** C95: every question is answered *)
(** An issuer without an RSA key: verify reads through the null pointer. *)
Theorem C95_null_key : forall g c iss tbs oid sig, bytes (derCert c) -> zlen (derCert c) < 2 ^ 24 -> signed_der c tbs oid sig -> nested c iss -> c_pubkey iss = None -> verify g c iss = UB.
Proof.
  intros g c iss tbs oid sig HB LB SD [N1 N2] HK.
  unfold verify. destruct (Z.ltb_spec (validity_start c) (validity_start iss)); [lia|]. destruct (Z.ltb_spec (validity_end iss) (validity_end c)); [lia|]. destruct SD as (rest & E).
  rewrite E in *. unfold cert_der in *. set (inner := tlv 48 tbs ++ _) in *. pose proof (tlv_length 48 inner) as L0. rewrite zlen_app in LB. pose proof (zlen_nonneg rest) as Z0.
  assert (LI : zlen inner < 2 ^ 24) by lia. unfold inner in LI. rewrite !zlen_app in LI. pose proof (tlv_length 48 tbs) as L1. pose proof (tlv_length 48 (tlv 6 oid ++ tlv 5 [])) as L2. pose proof (tlv_length 3 (0 :: sig)) as L3.
  pose proof L2 as L4. rewrite zlen_app in L4. pose proof (tlv_length 6 oid) as L5. nn.
  rewrite whole_cur, read_tlv by lia. cbn [bind]. change (negb (48 =? id_sequence)) with false. cbv iota. rewrite view_of_cur. unfold inner at 1. rewrite read_tlv by lia. cbn [bind]. change (negb (48 =? id_sequence)) with false. cbv iota.
  rewrite read_tlv by lia. cbn [bind]. rewrite read_last by lia. cbn [bind]. change (negb (48 =? id_sequence)) with false. change (negb (3 =? id_bit_string)) with false. cbv iota.
  rewrite view_of_cur, read_tlv by lia. cbn [bind s_data]. rewrite HK. reflexivity.
Qed.
(** A signature too short for the DigestInfo: the padding loop counts down from below zero. *)
Theorem C95_short_signature : forall g c iss tbs oid sig a k, bytes (derCert c) -> zlen (derCert c) < 2 ^ 24 -> signed_der c tbs oid sig -> nested c iss -> c_pubkey iss = Some k ->
  supplies_ok g -> sig_alg oid a -> zlen sig < zlen (h_asn1 a) + spec_size a + 1 -> verify g c iss = Throw.
Proof.
  intros g c iss tbs oid sig a k HB LB SD [N1 N2] HK HG SA LS. destruct (signed_parts _ _ _ _ HB LB SD) as (B1 & B2 & L1 & L2). rewrite (verify_wf g c iss tbs oid sig k HB LB SD HK).
  destruct (Z.ltb_spec (validity_start c) (validity_start iss)); [lia|]. destruct (Z.ltb_spec (validity_end iss) (validity_end c)); [lia|]. cbn [orb].
  assert (V : validateSignature W (g (sig_type oid)) k (sig_type oid) tbs (rev sig) = validatePkcs1_5 W a (g (sig_type oid) 0%nat) k tbs (rev sig) /\ supply_ok a (g (sig_type oid) 0%nat)).
  { destruct HG as (G1 & G2 & G3). destruct SA as [[-> ->]|[[-> ->]|[-> ->]]]; split; (reflexivity || assumption). }
  destruct V as [-> V2]. unfold validatePkcs1_5. pose proof (zlen_nonneg sig). rewrite PKCS1_cases by (assumption || rewrite ?zlen_rev; lia). rewrite zlen_rev.
  destruct (Z.ltb_spec (zlen sig) (zlen (h_asn1 a) + spec_size a + 1)); [reflexivity | lia].
Qed.
(** trust() passes either on to its caller. *)
Lemma trust_first g s l rest now r : get s (issuer l) = Some r -> get s (subject l) = None -> valid_at now l ->
  (verify (g 0%nat) l r = UB -> trust g s (l :: rest) now = UB) /\ (verify (g 0%nat) l r = Throw -> trust g s (l :: rest) now = Throw).
Proof.
  intros HI HS [V1 V2]. unfold trust, trust_with. destruct (Z.ltb_spec now (validity_start l)); [lia|]. destruct (Z.ltb_spec (validity_end l) now); [lia|].
  unfold trust_fuel. cbn [trust_loop nth_error]. unfold known. rewrite !(lookup_map Stored). unfold get in HI, HS. rewrite HI, HS. cbn [option_map deref bind]. split; intros ->; reflexivity.
Qed.
(** A root with a key on the curve P-256 instead of an RSA key. *)
Definition ec_root : list Z :=
  cert_der (tlv 160 (integer 2) ++ integer 1 ++ tlv 48 alg11 ++ name_der (cn "R") ++ tlv 48 (time_of (day 2020) ++ time_of (day 2040)) ++ name_der (cn "R") ++
            tlv 48 (tlv 48 (tlv 6 [42; 134; 72; 206; 61; 2; 1] ++ tlv 6 [42; 134; 72; 206; 61; 3; 1; 7]) ++ tlv 3 (0 :: 4 :: repeat 7 64))) (rsa_sig_oid 11) sR.
Lemma ec_root_parsed : exists r, parse_der ec_root = Ok r /\ subject r = chars "CN=R" /\ c_pubkey r = None /\ validity_start r = posix (day 2020) /\ validity_end r = posix (day 2040).
Proof. eexists. split; [vm_compute; reflexivity|]. repeat split. Qed.
Lemma stored r name : get (addCertificate [] r) name = if list_eqb name (subject r) then Some r else None.
Proof. unfold get, addCertificate. rewrite lookup_insert. reflexivity. Qed.
Theorem C95_null_key_refuted : exists r l, parse_der ec_root = Ok r /\ parse_der (der_of tA sA) = Ok l /\ forall g, trust g (addCertificate [] r) [l] at_time = UB.
Proof.
  destruct ec_root_parsed as (r & P1 & P2 & P3 & P4 & P5). destruct the_world as (r0 & a & b0 & l0 & H). pose proof (w_a _ _ _ _ H) as PA. exists r, a. split; [exact P1|]. split; [apply PA|]. intros g.
  apply (trust_first g _ a [] at_time r).
  - rewrite stored, P2, (p_issuer _ _ _ PA). reflexivity.
  - rewrite stored, P2, (p_subject _ _ _ PA). reflexivity.
  - unfold valid_at. rewrite (p_start _ _ _ PA), (p_end _ _ _ PA). vm_compute. split; discriminate.
  - apply (C95_null_key _ _ _ (tbs_content tA) (rsa_sig_oid 11) sA); [rewrite (p_der _ _ _ PA); apply bytesb_ok; vm_compute; reflexivity | rewrite (p_der _ _ _ PA); vm_compute; reflexivity | exists []; rewrite app_nil_r; apply PA | | exact P3].
    unfold nested. rewrite (p_start _ _ _ PA), (p_end _ _ _ PA), P4, P5. vm_compute. split; discriminate.
Qed.
Theorem C95_short_signature_refuted : exists r l, parse_der (der_of tR sR) = Ok r /\ parse_der (der_of tA [1]) = Ok l /\
  forall g, (forall i, supplies_ok (g i)) -> trust g (addCertificate [] r) [l] at_time = Throw.
Proof.
  destruct the_world as (r & a0 & b0 & l0 & H). pose proof (w_r _ _ _ _ H) as PR. destruct (parsed_ok tA [1] good_A ltac:(vm_compute; reflexivity)) as (a & PA).
  destruct (p_key _ _ _ PR) as (N & e & k & K1 & _). exists r, a. split; [apply PR|]. split; [apply PA|]. intros g HG.
  apply (trust_first g _ a [] at_time r).
  - rewrite stored, (p_subject _ _ _ PR), (p_issuer _ _ _ PA). reflexivity.
  - rewrite stored, (p_subject _ _ _ PR), (p_subject _ _ _ PA). reflexivity.
  - unfold valid_at. rewrite (p_start _ _ _ PA), (p_end _ _ _ PA). vm_compute. split; discriminate.
  - apply (C95_short_signature _ _ _ (tbs_content tA) (rsa_sig_oid 11) [1] ASHA256 k); [rewrite (p_der _ _ _ PA); apply bytesb_ok; vm_compute; reflexivity | rewrite (p_der _ _ _ PA); vm_compute; reflexivity | exists []; rewrite app_nil_r; apply PA | | exact K1 | apply HG | left; auto | vm_compute; reflexivity].
    unfold nested. rewrite (p_start _ _ _ PA), (p_end _ _ _ PA), (p_start _ _ _ PR), (p_end _ _ _ PR). vm_compute. split; discriminate.
Qed.
(** Missing from the claim: what the two theorems above exclude, and input that is not a
    certificate at all (C69). *)
Theorem C95_answers_partial : forall g s vec now, vec <> [] -> (forall i, supplies_ok (g i)) -> (forall c, In c vec -> check_wf c) ->
  (forall i, In i vec \/ (exists name, get s name = Some i) -> c_pubkey i <> None /\ has_key i) ->
  exists b out, trust g s vec now = Ok (b, out).
Proof.
  intros g s vec now NE HG HW HK. apply trust_total; [exact NE|]. intros k c i IC II. destruct (HK i II) as [K1 K2]. destruct (c_pubkey i) as [key|] eqn:EK; [|congruence].
  destruct (verify_total c i key (HW c IC) EK (has_key_sized i K2 key EK)) as (b & B). exists b. apply B, HG.
Qed.
Print Assumptions C95_null_key.
Print Assumptions C95_short_signature.
Print Assumptions C95_null_key_refuted.
Print Assumptions C95_short_signature_refuted.
Print Assumptions C95_answers_partial.

(** ** C96: more trusted certificates, more trust *)
Lemma path_trusted (signed : cert -> cert -> Prop) (tr tr' : list Z -> option cert) pool c l : (forall name r, tr name = Some r -> tr' name = Some r) -> path signed tr pool c l -> path signed tr' pool c l.
Proof. intros H P. induction P as [c r T S|c i l I E S P IH]; [apply path_root; auto | apply path_step; auto]. Qed.
Lemma accepted_path g s vec now out : (forall i, supplies_ok (g i)) -> (forall c, In c vec -> check_wf c) -> (forall i, In i vec \/ (exists name, get s name = Some i) -> c_pubkey i <> None /\ has_key i) ->
  trust g s vec now = Ok (true, out) -> exists leaf rest l, vec = leaf :: rest /\ valid_at now leaf /\ path (fun c i => forall g, supplies_ok g -> verify g c i = Ok true) (get s) vec leaf l.
Proof.
  intros HG HW HK H. destruct (trust_sound _ s vec now out H) as (leaf & rest & l & E & VA & P). exists leaf, rest, l. split; [exact E|]. split; [exact VA|].
  apply (path_map _ _ (get s) vec vec) with (4 := P); [auto | | rewrite E; left; reflexivity]. intros c i IC II (k & V). destruct (HK i II) as [K1 K2]. destruct (c_pubkey i) as [key|] eqn:EK; [|congruence].
  destruct (verify_total c i key (HW c IC) EK (has_key_sized i K2 key EK)) as (b & B). rewrite (B _ (HG k)) in V. injection V as ->. exact B.
Qed.
(** Missing: a new certificate whose subject is that of a stored one or of one in the list. *)
Theorem C96_store_partial : forall g s d vec now out, (forall i, supplies_ok (g i)) -> (forall c, In c vec -> check_wf c /\ get s (subject c) = None) ->
  (forall i, In i vec \/ (exists name, get s name = Some i) \/ i = d -> c_pubkey i <> None /\ has_key i) -> NoDup (map subject vec) ->
  get s (subject d) = None -> ~ In (subject d) (map subject vec) ->
  trust g s vec now = Ok (true, out) -> exists out', trust g (addCertificate s d) vec now = Ok (true, out').
Proof.
  intros g s d vec now out HG HW HK ND FD ID H.
  destruct (accepted_path g s vec now out HG ltac:(intros c IC; apply HW; exact IC) ltac:(intros i [I|I]; apply HK; auto) H) as (leaf & rest & l & -> & VA & P).
  assert (GA : forall name, get (addCertificate s d) name = if list_eqb name (subject d) then Some d else get s name) by (intros name; unfold get, addCertificate; apply lookup_insert).
  apply (C77_complete_partial g (addCertificate s d) leaf rest rest now l); try assumption; [apply Permutation_refl | | |].
  - intros c IC. split; [apply HW; exact IC|]. rewrite GA. destruct (list_eqb (subject c) (subject d)) eqn:E; [|apply HW; exact IC]. apply list_eqb_eq in E. exfalso. apply ID. rewrite <- E. apply in_map; exact IC.
  - intros i [I|[name I]]; [apply HK; auto|]. rewrite GA in I. destruct (list_eqb name (subject d)); [injection I as <-; apply HK; auto | apply HK; eauto].
  - apply (path_trusted _ (get s)); [|exact P]. intros name r E. rewrite GA. destruct (list_eqb name (subject d)) eqn:Q; [apply list_eqb_eq in Q; congruence | exact E].
Qed.
(** The same for one more certificate in the list, anywhere behind the leaf. *)
Theorem C96_list_partial : forall g s d leaf rest rest' now out, (forall i, supplies_ok (g i)) -> (forall c, In c (leaf :: d :: rest) -> check_wf c /\ get s (subject c) = None) ->
  (forall i, In i (leaf :: d :: rest) \/ (exists name, get s name = Some i) -> c_pubkey i <> None /\ has_key i) -> NoDup (map subject (leaf :: d :: rest)) ->
  Permutation (d :: rest) rest' ->
  trust g s (leaf :: rest) now = Ok (true, out) -> exists out', trust g s (leaf :: rest') now = Ok (true, out').
Proof.
  intros g s d leaf rest rest' now out HG HW HK ND PM H.
  assert (IN : forall c, In c (leaf :: rest) -> In c (leaf :: d :: rest)) by (intros c [I|I]; [left | right; right]; exact I).
  destruct (accepted_path g s (leaf :: rest) now out HG ltac:(intros c IC; apply HW, IN; exact IC) ltac:(intros i [I|I]; apply HK; auto) H) as (leaf' & rest0 & l & E & VA & P). injection E as <- <-.
  apply (C77_complete_partial g s leaf (d :: rest) rest' now l); try assumption.
  refine (path_map _ _ (get s) (leaf :: rest) (leaf :: d :: rest) IN _ leaf l (or_introl eq_refl) P). auto.
Qed.

(** In general it is false: after adding the twin of the intermediate (same name, other key), or
    the leaf itself, the accepted list is refused. *)
Theorem C96_more_trust_refuted : exists r a b l, parse_der (der_of tR sR) = Ok r /\ parse_der (der_of tA sA) = Ok a /\ parse_der (der_of tB sB) = Ok b /\ parse_der (der_of tL sL) = Ok l /\
  forall g, (forall i, supplies_ok (g i)) ->
    trust g (addCertificate [] r) [l; a] at_time = Ok (true, [l; a]) /\
    trust g (addCertificate (addCertificate [] r) b) [l; a] at_time = Ok (false, [no_cert; a]) /\
    trust g (addCertificate (addCertificate [] r) l) [l; a] at_time = Ok (false, [l; a]).
Proof.
  destruct the_world as (r & a & b & l & H). exists r, a, b, l. split; [apply H|]. split; [apply H|]. split; [apply H|]. split; [apply H|]. intros g HG. split; [apply (world_walk g r a b l H HG)|].
  destruct H as [PR PA PB PL AR BR LA LB].
  assert (VA : validity_start l <= at_time <= validity_end l) by (rewrite (p_start _ _ _ PL), (p_end _ _ _ PL); vm_compute; split; discriminate).
  pose proof (p_subject _ _ _ PR) as S1. pose proof (p_subject _ _ _ PA) as S2. pose proof (p_subject _ _ _ PB) as S3. pose proof (p_subject _ _ _ PL) as S4. pose proof (p_issuer _ _ _ PA) as I2. pose proof (p_issuer _ _ _ PL) as I4.
  change (name_text (t_subject tR)) with (chars "CN=R") in S1. change (name_text (t_subject tA)) with (chars "CN=M") in S2. change (name_text (t_subject tB)) with (chars "CN=M") in S3. change (name_text (t_subject tL)) with (chars "CN=L") in S4.
  change (name_text (t_issuer tA)) with (chars "CN=R") in I2. change (name_text (t_issuer tL)) with (chars "CN=M") in I4.
  unfold trust, trust_with. destruct (Z.ltb_spec at_time (validity_start l)); [lia|]. destruct (Z.ltb_spec (validity_end l) at_time); [lia|]. change (trust_fuel (List.length [l; a])) with 10%nat.
  unfold addCertificate. rewrite S1, S3, S4. split.
  - rewrite (step_ver _ _ _ _ _ _ l (Stored b) b false); [| reflexivity | rewrite I4; reflexivity | rewrite S4; reflexivity | reflexivity | apply LB, HG]. change (upd [l; a] 0 no_cert) with [no_cert; a].
    rewrite (step_skip _ _ _ _ _ _ no_cert); [|reflexivity..].
    rewrite (step_known _ _ _ _ _ _ a (Stored r) (Stored b)); [|reflexivity | rewrite I2; reflexivity | rewrite S2; reflexivity]. apply step_end. reflexivity.
  - rewrite (step_skip _ _ _ _ _ _ l); [|reflexivity | rewrite I4; reflexivity].
    rewrite (step_ver _ _ _ _ _ _ a (Stored r) r true); [|reflexivity | rewrite I2; reflexivity | rewrite S2; reflexivity | reflexivity | apply AR, HG]. rewrite S2.
    rewrite (step_known _ _ _ _ _ _ l (Listed 1) (Stored l)); [|reflexivity | rewrite I4; reflexivity | rewrite S4; reflexivity].
    rewrite (step_known _ _ _ _ _ _ a (Stored r) (Listed 1)); [|reflexivity | rewrite I2; reflexivity | rewrite S2; reflexivity]. apply step_end. reflexivity.
Qed.
Print Assumptions C96_store_partial.
Print Assumptions C96_list_partial.
Print Assumptions C96_more_trust_refuted.
(** The hypotheses of C95 and C96: a store with the root and a list of leaf and intermediate. *)
Example C95_C96_case : exists r a l d, parse_der (der_of tA sA) = Ok a /\ check_wf l /\ check_wf a /\ get (addCertificate [] r) (subject a) = None /\ get (addCertificate [] r) (subject l) = None /\
  (forall i, In i [l; a] \/ (exists name, get (addCertificate [] r) name = Some i) \/ i = d -> c_pubkey i <> None /\ has_key i) /\ NoDup (map subject [l; a]) /\
  get (addCertificate [] r) (subject d) = None /\ ~ In (subject d) (map subject [l; a]) /\
  forall g, (forall i, supplies_ok (g i)) -> trust g (addCertificate [] r) [l; a] at_time = Ok (true, [l; a]).
Proof.
  destruct the_world as (r & a & b & l & H). destruct (parsed_ok (Tbs 9 alg11 (cn "D") (day 2020) (day 2040) (cn "D") nA 65537 []) sA ltac:(good_t) ltac:(vm_compute; reflexivity)) as (d & PD).
  exists r, a, l, d. pose proof H as [PR PA PB PL AR BR LA LB]. pose proof (p_subject _ _ _ PR) as S1. pose proof (p_subject _ _ _ PA) as S2. pose proof (p_subject _ _ _ PL) as S4. pose proof (p_subject _ _ _ PD) as S5.
  split; [apply PA|]. split; [apply (parsed_wf _ _ _ PL); vm_compute; reflexivity|]. split; [apply (parsed_wf _ _ _ PA); vm_compute; reflexivity|].
  split; [rewrite stored, S1, S2; reflexivity|]. split; [rewrite stored, S1, S4; reflexivity|]. split.
  - intros i [[<- |[<- |[]]]|[[name I]| ->]].
    + destruct (parsed_has_key _ _ _ PL); auto.
    + destruct (parsed_has_key _ _ _ PA); auto.
    + rewrite stored in I. destruct (list_eqb _ _); [injection I as <-; destruct (parsed_has_key _ _ _ PR); auto | discriminate I].
    + destruct (parsed_has_key _ _ _ PD); auto.
  - split; [cbn [map]; rewrite S2, S4; constructor; [intros [X|[]]; discriminate X | constructor; [intros [] | constructor]]|].
    split; [rewrite stored, S1, S5; reflexivity|]. split; [cbn [map]; rewrite S2, S4, S5; intros [X|[X|[]]]; discriminate X|].
    intros g HG. apply (world_walk g r a b l H HG).
Qed.

(** ** C97: extensions *)
(** Two certificates that differ only in their extensions (or issuer and subject unique
    identifiers), and in whatever follows the signed part, are parsed to the same fields. *)
Definition retail (t : tbs) (tail : list (Z * list Z)) : tbs := Tbs (t_serial t) (t_sigalg t) (t_issuer t) (t_start t) (t_stop t) (t_subject t) (t_n t) (t_e t) tail.
Theorem C97_ignored : forall t tail after after', good_tbs t -> Forall tail_tag tail ->
  let d := tlv 48 (tlv 48 (tbs_content t) ++ after) in let d' := tlv 48 (tlv 48 (tbs_content (retail t tail)) ++ after') in
  zlen d < 2 ^ 64 -> zlen d' < 2 ^ 64 ->
  exists c c', parse_der d = Ok c /\ parse_der d' = Ok c' /\ serialNumber c' = serialNumber c /\ subject c' = subject c /\ issuer c' = issuer c /\
    validity_start c' = validity_start c /\ validity_end c' = validity_end c /\ c_pubkey c' = c_pubkey c /\ forall name, appliesTo c' name = appliesTo c name.
Proof.
  intros t tail after after' G HT d d' L L'. assert (G' : good_tbs (retail t tail)) by (unfold good_tbs, retail in *; cbn [t_serial t_issuer t_subject t_start t_stop t_n t_e t_tail]; tauto).
  destruct (parse_der_ok t after [] G) as (c & N & e & k & P1 & _ & P2 & P3 & P4 & P5 & P6 & P7 & P8 & P9 & P10 & P11 & P12 & P13 & P14); [rewrite app_nil_r; exact L|].
  destruct (parse_der_ok (retail t tail) after' [] G') as (c' & N' & e' & k' & Q1 & _ & Q2 & Q3 & Q4 & Q5 & Q6 & Q7 & Q8 & Q9 & Q10 & Q11 & Q12 & Q13 & Q14); [rewrite app_nil_r; exact L'|].
  rewrite app_nil_r in P1, Q1. exists c, c'. split; [exact P1|]. split; [exact Q1|]. cbn [retail t_serial t_issuer t_subject t_start t_stop t_n t_e] in *.
  split; [apply (val_inj 4); congruence|]. repeat (split; [congruence|]). split; [|intros name; unfold appliesTo; rewrite P6, Q6; reflexivity].
  assert (N' = N) by (apply (val_inj W); congruence). assert (e' = e) by (apply (val_inj W); congruence). subst. congruence.
Qed.
Print Assumptions C97_ignored.
Definition sC : list Z := [55; 41; 144; 68; 223; 222; 112; 157; 109; 207; 254; 53; 54; 138; 225; 215; 74; 246; 241; 85; 180; 50; 41; 17; 157; 233; 101; 255; 210; 125; 29; 26; 143; 170; 101; 9; 35; 134; 222; 19; 140; 197; 98; 75; 28; 0; 148; 11; 131; 217; 8; 65; 235; 98; 25; 206; 69; 249; 69; 39; 2; 15].
Definition hC : list Z := [35; 20; 99; 183; 73; 151; 24; 101; 200; 195; 26; 171; 65; 176; 52; 218; 127; 79; 243; 253; 148; 129; 178; 118; 44; 75; 61; 246; 63; 180; 158; 3].
(** The leaf of the other examples with an unknown extension (1.2.3.4) marked critical, signed by
    the intermediate. *)
Definition critical : Z * list Z := (163, tlv 48 (tlv 48 (tlv 6 [42; 3; 4] ++ tlv 1 [255] ++ tlv 4 (tlv 5 [])))).
Definition tC : tbs := Tbs 5 alg11 (cn "M") (day 2022) (day 2025) (cn "L") nB 65537 [critical].
Lemma good_C : good_tbs tC. Proof. unfold tC. good_t. Qed.
Lemma hC_ok : spec_hash ASHA256 (der_sequence (tbs_content tC)) = hC. Proof. hashed. Qed.
(** So a certificate with a critical extension nobody looked at is trusted. *)
Theorem C97_critical_refuted : exists r a c, parse_der (der_of tR sR) = Ok r /\ parse_der (der_of tA sA) = Ok a /\ parse_der (der_of tC sC) = Ok c /\ t_tail tC = [critical] /\
  forall g, (forall i, supplies_ok (g i)) -> trust g (addCertificate [] r) [c; a] at_time = Ok (true, [c; a]).
Proof.
  destruct the_world as (r & a & b & l & H). destruct (parsed_ok tC sC good_C ltac:(vm_compute; reflexivity)) as (c & PC). exists r, a, c. split; [apply H|]. split; [apply H|]. split; [apply PC|]. split; [reflexivity|].
  intros g HG. destruct H as [PR PA PB PL AR BR LA LB].
  assert (VA : validity_start c <= at_time <= validity_end c) by (rewrite (p_start _ _ _ PC), (p_end _ _ _ PC); vm_compute; split; discriminate).
  pose proof (p_subject _ _ _ PR) as S1. pose proof (p_subject _ _ _ PA) as S2. pose proof (p_subject _ _ _ PC) as S4. pose proof (p_issuer _ _ _ PA) as I2. pose proof (p_issuer _ _ _ PC) as I4.
  change (name_text (t_subject tR)) with (chars "CN=R") in S1. change (name_text (t_subject tA)) with (chars "CN=M") in S2. change (name_text (t_subject tC)) with (chars "CN=L") in S4.
  change (name_text (t_issuer tA)) with (chars "CN=R") in I2. change (name_text (t_issuer tC)) with (chars "CN=M") in I4.
  unfold trust. apply (walk_a _ r c a (chars "CN=R") (chars "CN=M") (chars "CN=L") at_time); try assumption; try discriminate; intros k; [apply AR, HG|].
  apply (verify_parsed (g k) tC sC c tA sA a hC true PC PA good_A (HG k) hC_ok); vm_compute; reflexivity.
Qed.
Print Assumptions C97_critical_refuted.
Example C97_case : good_tbs tC /\ tC = retail (Tbs 5 alg11 (cn "M") (day 2022) (day 2025) (cn "L") nB 65537 []) [critical] /\ Forall tail_tag [critical] /\ zlen (der_of tC sC) < 2 ^ 64.
Proof. split; [exact good_C|]. split; [reflexivity|]. split; [constructor; [unfold tail_tag; cbn; tauto | constructor] | vm_compute; reflexivity]. Qed.
