(** Real certificates for the examples: SHA-256 with RSA, 496 bit keys.  The names are R (the root),
    M (two intermediates with different keys, A and B; A says that it is not a CA) and L. *)
From Coq Require Import String.
From Verif Require Import Base BaseP S_Base64 M_Base64 P_Base64 S_Hash M_Hash P_Hash M_HKDF P_HKDF Prop_HKDF S_Bignum M_Bignum P_Bignum Prop_Bignum M_Mont P_Mont S_RSA M_RSA P_RSA Prop_RSA P_Prime Prop_RSA2 S_X509 M_X509 P_X509 P_Date P_Name P_Cert S_Verify S_Trust P_Verify.
Open Scope Z_scope.

(** Key moduli; the public exponent is 65537. *)
Definition nR : Z := 168693489285926022222267207519346023194832855485615896012243541144223321697914402987821382731194653555077453206245259203174771697587309110954934479783.
Definition nA : Z := 176373942422051410163842170170127371276087926168345842786899324358249264366975972286328234975331835927390667500191145817624321256137817991688836231459.
Definition nB : Z := 160579606713027985323500237179719332718880465075498352971799042702068892853775308427771369670449149407237510006403435893768378209027602174972951437839.
Definition sR : list Z := [24; 39; 149; 35; 186; 190; 67; 54; 21; 173; 222; 175; 202; 150; 126; 102; 110; 48; 85; 49; 232; 142; 17; 211; 15; 153; 127; 87; 71; 226; 112; 78; 55; 127; 125; 176; 102; 84; 127; 192; 109; 24; 36; 95; 124; 1; 134; 154; 194; 50; 4; 196; 23; 178; 253; 180; 180; 67; 40; 96; 17; 112].
Definition sA : list Z := [67; 213; 137; 65; 109; 111; 48; 205; 141; 186; 174; 239; 113; 208; 59; 222; 221; 38; 101; 6; 78; 15; 97; 18; 19; 107; 214; 135; 76; 45; 87; 93; 104; 148; 122; 128; 80; 78; 159; 72; 251; 117; 34; 48; 188; 128; 237; 39; 44; 155; 165; 51; 203; 192; 99; 213; 243; 252; 5; 68; 148; 175].
Definition sB : list Z := [203; 3; 179; 146; 203; 100; 49; 173; 71; 135; 122; 105; 111; 10; 122; 16; 77; 86; 248; 159; 158; 122; 93; 59; 25; 232; 89; 73; 122; 21; 90; 58; 125; 93; 189; 28; 87; 140; 157; 17; 121; 18; 236; 181; 252; 218; 218; 83; 23; 3; 39; 126; 48; 163; 6; 72; 19; 25; 225; 140; 102; 181].
Definition sL : list Z := [11; 89; 68; 41; 66; 163; 146; 148; 36; 200; 35; 67; 54; 120; 29; 76; 243; 185; 163; 45; 208; 169; 157; 141; 168; 189; 61; 189; 81; 18; 149; 213; 170; 89; 127; 172; 222; 97; 70; 83; 21; 193; 76; 205; 70; 58; 173; 19; 249; 2; 1; 147; 130; 219; 47; 162; 84; 163; 218; 159; 161; 235].
Definition hR : list Z := [7; 235; 254; 9; 50; 160; 161; 227; 243; 132; 83; 79; 94; 225; 229; 202; 224; 91; 153; 202; 190; 128; 139; 167; 132; 126; 76; 120; 193; 201; 209; 134].
Definition hA : list Z := [243; 188; 213; 155; 210; 191; 77; 153; 15; 131; 157; 196; 212; 99; 219; 49; 170; 75; 15; 175; 42; 252; 115; 100; 50; 252; 100; 126; 5; 152; 160; 2].
Definition hB : list Z := [164; 91; 0; 127; 223; 7; 47; 244; 42; 210; 249; 194; 9; 148; 191; 149; 45; 25; 166; 216; 65; 245; 20; 32; 66; 87; 87; 26; 77; 22; 212; 134].
Definition hL : list Z := [27; 217; 4; 4; 73; 68; 70; 35; 60; 167; 181; 134; 206; 64; 252; 107; 161; 83; 171; 201; 133; 30; 28; 156; 109; 138; 165; 78; 88; 82; 14; 75].

Definition cn (s : string) : list attr := [Attr [85; 4; 3] 19 (chars s)].
Definition day (y : Z) : date := Date y 1 1 0 0 0.
Definition alg11 : list Z := tlv 6 (rsa_sig_oid 11) ++ tlv 5 [].
(** The basicConstraints extension with cA = FALSE. *)
Definition not_a_ca : Z * list Z := (163, tlv 48 (tlv 48 (tlv 6 [85; 29; 19] ++ tlv 4 (tlv 48 [])))).
Definition tR := Tbs 1 alg11 (cn "R") (day 2020) (day 2040) (cn "R") nR 65537 [].
Definition tA := Tbs 2 alg11 (cn "R") (day 2021) (day 2030) (cn "M") nA 65537 [not_a_ca].
Definition tB := Tbs 3 alg11 (cn "R") (day 2021) (day 2030) (cn "M") nB 65537 [].
Definition tL := Tbs 4 alg11 (cn "M") (day 2022) (day 2025) (cn "L") nB 65537 [].
Definition der_of (t : tbs) (sig : list Z) : list Z := cert_der (tbs_content t) (rsa_sig_oid 11) sig.

Ltac hashed := apply hash_by_model; [apply bytesb_ok; vm_compute; reflexivity | vm_compute; reflexivity | vm_compute; reflexivity].
Lemma hA_ok : spec_hash ASHA256 (der_sequence (tbs_content tA)) = hA. Proof. hashed. Qed.
Lemma hB_ok : spec_hash ASHA256 (der_sequence (tbs_content tB)) = hB. Proof. hashed. Qed.
Lemma hL_ok : spec_hash ASHA256 (der_sequence (tbs_content tL)) = hL. Proof. hashed. Qed.

Lemma cn_known s : Forall known_attr (cn s).
Proof. constructor; [|constructor]. split; [cbn; tauto | right; reflexivity]. Qed.
Lemma day_valid y : 1970 <= y <= 2099 -> two_digit_fields (day y) /\ 1970 <= d_year (day y) <= 2099.
Proof. intros H. unfold two_digit_fields, day. cbn [d_month d_day d_hour d_min d_sec d_year]. lia. Qed.
Ltac good_t := unfold good_tbs; cbn [t_serial t_issuer t_subject t_start t_stop t_n t_e t_tail tR tA tB tL];
  repeat (split; [first [lia | apply cn_known | apply day_valid; lia | (vm_compute; reflexivity) | (split; vm_compute; (reflexivity || discriminate))]|]); first [constructor; fail | (constructor; [unfold tail_tag; cbn; tauto | constructor])].
Lemma good_R : good_tbs tR. Proof. good_t. Qed.
Lemma good_A : good_tbs tA. Proof. good_t. Qed.
Lemma good_B : good_tbs tB. Proof. good_t. Qed.
Lemma good_L : good_tbs tL. Proof. good_t. Qed.

(** What parsing such a certificate gives. *)
Record parsed (t : tbs) (sig : list Z) (c : cert) : Prop := {
  p_parse : parse_der (der_of t sig) = Ok c; p_der : derCert c = der_of t sig;
  p_subject : subject c = name_text (t_subject t); p_issuer : issuer c = name_text (t_issuer t);
  p_start : validity_start c = posix (t_start t); p_end : validity_end c = posix (t_stop t);
  p_key : exists N E pk, c_pubkey c = Some pk /\ bn W N /\ val N = t_n t /\ bn W E /\ val E = t_e t /\ rsa_public_key W N E = Ok pk }.
Lemma parsed_ok t sig : good_tbs t -> zlen (der_of t sig) < 2 ^ 64 -> exists c, parsed t sig c.
Proof.
  intros G L. unfold der_of, cert_der in L. destruct (parse_der_ok t (tlv 48 (tlv 6 (rsa_sig_oid 11) ++ tlv 5 []) ++ tlv 3 (0 :: sig)) [] G) as (c & N & E & pk & P1 & P2 & _ & _ & P3 & P4 & _ & P5 & P6 & P7); [rewrite app_nil_r; exact L|].
  rewrite app_nil_r in P1, P2. exists c. constructor; try assumption. exists N, E, pk. exact P7.
Qed.
Lemma verify_parsed g t sig c ti si i h b : parsed t sig c -> parsed ti si i -> good_tbs ti -> supplies_ok g -> spec_hash ASHA256 (der_sequence (tbs_content t)) = h ->
  bytesb (der_of t sig) && (zlen (der_of t sig) <? 2 ^ 24) && (zlen sig =? 62) && (2 * 256 ^ 60 <=? t_n ti) && (t_e ti =? 65537)
    && (posix (t_start ti) <=? posix (t_start t)) && (posix (t_stop t) <=? posix (t_stop ti)) = true ->
  (powm (t_n ti) (be_val sig) 65537 =? be_val (emsa_pkcs1 (h_asn1 ASHA256 ++ h) 62)) = b ->
  verify g c i = Ok b.
Proof.
  intros PC PI GI HG HH CK HV. rewrite !andb_true_iff in CK. destruct CK as [[[[[[C1 C2] C3] C4] C5] C6] C7]. apply bytesb_iff in C1. rewrite Z.ltb_lt in C2. rewrite Z.leb_le in C4, C6, C7. apply Z.eqb_eq in C3, C5.
  destruct (p_key _ _ _ PI) as (N & E & pk & K1 & K2 & K3 & K4 & K5 & K6). destruct GI as (_ & _ & _ & _ & _ & _ & _ & GN & GO & _).
  destruct (verify_exact g c i (tbs_content t) (rsa_sig_oid 11) sig ASHA256 N E pk) as (b' & V & VI); try assumption.
  - rewrite (p_der _ _ _ PC); exact C1.
  - rewrite (p_der _ _ _ PC); exact C2.
  - exists []. rewrite app_nil_r. apply (p_der _ _ _ PC).
  - left; auto.
  - rewrite K3; exact GO.
  - rewrite C3. vm_compute. split; discriminate.
  - rewrite C3, K3. exact C4.
  - rewrite V. f_equal. rewrite C3, K3, K5, C5 in VI. unfold digest_info in VI. rewrite HH in VI. rewrite <- (powm_ok (t_n ti) ltac:(lia)) in VI.
    assert (NE : nested c i) by (unfold nested; rewrite (p_start _ _ _ PC), (p_end _ _ _ PC), (p_start _ _ _ PI), (p_end _ _ _ PI); lia).
    destruct b', b; try reflexivity.
    + destruct (proj1 VI eq_refl) as [_ Q]. apply Z.eqb_neq in HV. contradiction.
    + apply Z.eqb_eq in HV. apply VI. auto.
Qed.

(** The four certificates and what their checks give, whatever the buffers hold. *)
Record world (r a b l : cert) : Prop := {
  w_r : parsed tR sR r; w_a : parsed tA sA a; w_b : parsed tB sB b; w_l : parsed tL sL l;
  w_ar : forall g, supplies_ok g -> verify g a r = Ok true; w_br : forall g, supplies_ok g -> verify g b r = Ok true;
  w_la : forall g, supplies_ok g -> verify g l a = Ok true; w_lb : forall g, supplies_ok g -> verify g l b = Ok false }.
Lemma pow_A : powm nR (be_val sA) 65537 = be_val (emsa_pkcs1 (h_asn1 ASHA256 ++ hA) 62). Proof. vm_compute. reflexivity. Qed.
Lemma pow_L : powm nA (be_val sL) 65537 = be_val (emsa_pkcs1 (h_asn1 ASHA256 ++ hL) 62). Proof. vm_compute. reflexivity. Qed.
Lemma the_world : exists r a b l, world r a b l.
Proof.
  destruct (parsed_ok tR sR good_R ltac:(vm_compute; reflexivity)) as (r & PR). destruct (parsed_ok tA sA good_A ltac:(vm_compute; reflexivity)) as (a & PA).
  destruct (parsed_ok tB sB good_B ltac:(vm_compute; reflexivity)) as (b & PB). destruct (parsed_ok tL sL good_L ltac:(vm_compute; reflexivity)) as (l & PL).
  exists r, a, b, l. constructor; try assumption; intros g HG.
  - apply (verify_parsed g tA sA a tR sR r hA true PA PR good_R HG hA_ok); [vm_compute; reflexivity | apply Z.eqb_eq; exact pow_A].
  - apply (verify_parsed g tB sB b tR sR r hB true PB PR good_R HG hB_ok); vm_compute; reflexivity.
  - apply (verify_parsed g tL sL l tA sA a hL true PL PA good_A HG hL_ok); [vm_compute; reflexivity | apply Z.eqb_eq; exact pow_L].
  - apply (verify_parsed g tL sL l tB sB b hL false PL PB good_B HG hL_ok); vm_compute; reflexivity.
Qed.
