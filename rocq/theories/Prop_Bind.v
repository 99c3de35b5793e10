(** Properties C100 and C101: what a signature says about the signed bytes. *)
From Coq Require Import String.
From Verif Require Import Base BaseP S_Hash M_Hash P_Hash M_HKDF P_HKDF Prop_HKDF S_Bignum M_Bignum P_Bignum Prop_Bignum M_Mont P_Mont S_RSA M_RSA P_RSA Prop_RSA P_Prime RSA_Keys Prop_RSA2 S_X509 M_X509 P_X509 P_Date P_Name P_Cert S_Verify S_Trust P_Verify Cert_Data Prop_Trust Prop_Collide.
Open Scope Z_scope.

Lemma der_sequence_inj c c' : zlen c < 2 ^ 64 -> zlen c' < 2 ^ 64 -> der_sequence c = der_sequence c' -> c = c'.
Proof.
  intros L L' E. change (tlv 48 c = tlv 48 c') in E. pose proof (read_tlv [] 48 c [] [] L) as R. pose proof (read_tlv [] 48 c' [] [] L') as R'. rewrite E, R' in R. injection R as R. auto.
Qed.

(** ** C100: one signature, one message, up to a digest collision *)
(** Two different strings with the same digest. *)
Definition collision_of (H : list Z -> list Z) (x y : list Z) : Prop := x <> y /\ H x = H y.

Lemma em_low T T' L n : zlen T = zlen T' -> bytes T -> bytes T' -> zlen T <= n -> 0 <= n -> be_val (emsa_pkcs1 T L) mod 256 ^ n = be_val (emsa_pkcs1 T' L) mod 256 ^ n -> T = T'.
Proof.
  intros LE B B' LN N0 E. unfold emsa_pkcs1 in E. rewrite <- LE in E. set (p := repeat 255 _) in E. change ([0; 1] ++ p ++ [0] ++ T) with (([0; 1] ++ p ++ [0]) ++ T) in E || (rewrite !app_assoc in E).
  apply (f_equal (fun x => x mod 256 ^ zlen T)) in E. pose proof (zlen_nonneg T) as P0. pose proof (be_val_range T B) as R. pose proof (be_val_range T' B') as R'. rewrite <- LE in R'.
  assert (Q : forall x, x mod 256 ^ n mod 256 ^ zlen T = x mod 256 ^ zlen T).
  { intros x. replace (256 ^ n) with (256 ^ zlen T * 256 ^ (n - zlen T)) by (rewrite <- Z.pow_add_r by lia; f_equal; lia). pose proof (Z.pow_pos_nonneg 256 (zlen T) ltac:(lia) P0). pose proof (Z.pow_pos_nonneg 256 (n - zlen T) ltac:(lia) ltac:(lia)).
    rewrite Z.rem_mul_r by lia. rewrite Z.mul_comm, Z.mod_add, Z.mod_mod by lia. reflexivity. }
  rewrite !Q, !be_val_app, <- LE, !(Z.add_comm _ (be_val _)), !Z.mod_add, !Z.mod_small in E by (try (pose proof (Z.pow_pos_nonneg 256 (zlen T)); lia); try lia).
  rewrite <- (be_bytes_val T B), <- (be_bytes_val T' B'). unfold zlen in LE. apply Nat2Z.inj in LE. rewrite LE, E. reflexivity.
Qed.
(** PKCS#1 v1.5, for signatures of every length and keys of every size above the DigestInfo. *)
Lemma pkcs1_digest w a g g' N e pk data data' sig : (0 < w)%nat -> bn w N -> bn w e -> rsa_public_key w N e = Ok pk -> supply_ok a g -> supply_ok a g' ->
  bytes data -> bytes data' -> zlen data < 2 ^ 24 -> zlen data' < 2 ^ 24 -> bytes sig -> zlen sig < 2 ^ 32 -> zlen (h_asn1 a) + spec_size a <= 4 * Z.of_nat w ->
  validatePkcs1_5 w a g pk data sig = Ok true -> validatePkcs1_5 w a g' pk data' sig = Ok true -> spec_hash a (der_sequence data) = spec_hash a (der_sequence data').
Proof.
  intros Hw HN He HK Hg Hg' HD HD' LD LD' HS LS LT V V'. unfold validatePkcs1_5 in V, V'. pose proof (zlen_nonneg sig). rewrite PKCS1_cases in V, V' by (assumption || lia).
  destruct (zlen sig <? zlen (h_asn1 a) + spec_size a + 1); [discriminate V|]. cbn [bind] in V, V'. set (L := Z.max _ _) in *.
  destruct (of_bytes_be w (emsa_pkcs1 (digest_info a data) L)) as (h & E1 & Hh & Vh); [unfold digest_info; apply em_bytes|]. rewrite E1 in V. cbn [bind] in V.
  destruct (of_bytes_be w (emsa_pkcs1 (digest_info a data') L)) as (h' & E1' & Hh' & Vh'); [unfold digest_info; apply em_bytes|]. rewrite E1' in V'. cbn [bind] in V'.
  destruct (of_bytes_mod w sig HS) as (s & E2 & Hs & Vs). rewrite E2 in V, V'. cbn [bind] in V, V'.
  destruct (rsaep_total w pk s Hw (public_key_sized w N e pk Hw HN He HK) Hs) as (r & E3 & Hr). rewrite E3 in V, V'. cbn [bind] in V, V'.
  apply Ok_inj in V, V'. rewrite (eq_ok w) in V, V' by assumption. apply Z.eqb_eq in V, V'. rewrite <- V', Vh, Vh' in V. replace (2 ^ (32 * Z.of_nat w)) with (256 ^ (4 * Z.of_nat w)) in V by (rewrite pow256; f_equal; lia).
  assert (LE : forall d, zlen (digest_info a d) = zlen (h_asn1 a) + spec_size a) by (intros d; unfold digest_info; rewrite zlen_app, spec_hash_length; reflexivity).
  assert (BE : forall d, bytes (digest_info a d)).
  { intros d. pose proof (em_bytes a d 0) as B. unfold emsa_pkcs1 in B. apply bytes_app in B. destruct B as [_ B]. apply bytes_app in B. destruct B as [_ B]. apply bytes_app in B. apply B. }
  pose proof (LE data) as L1. pose proof (LE data') as L2. pose proof (BE data) as B1. pose proof (BE data') as B2.
  assert (Q : digest_info a data = digest_info a data').
  { clear - V L1 L2 B1 B2 LT. apply (em_low _ _ L (4 * Z.of_nat w)); [congruence | assumption | assumption | rewrite L1; exact LT | lia | exact V]. }
  exact (app_inv_head _ _ _ Q).
Qed.
Theorem C100_pkcs1 : forall w a g g' N e pk data data' sig, (0 < w)%nat -> bn w N -> bn w e -> rsa_public_key w N e = Ok pk -> supply_ok a g -> supply_ok a g' ->
  bytes data -> bytes data' -> zlen data < 2 ^ 24 -> zlen data' < 2 ^ 24 -> bytes sig -> zlen sig < 2 ^ 32 -> zlen (h_asn1 a) + spec_size a <= 4 * Z.of_nat w ->
  validatePkcs1_5 w a g pk data sig = Ok true -> validatePkcs1_5 w a g' pk data' sig = Ok true ->
  data = data' \/ collision_of (spec_hash a) (der_sequence data) (der_sequence data').
Proof.
  intros w a g g' N e pk data data' sig Hw HN He HK Hg Hg' HD HD' LD LD' HS LS LT V V'. destruct (list_eq_dec Z.eq_dec data data') as [D|D]; [left; exact D | right]. split; [|apply (pkcs1_digest w a g g' N e pk data data' sig); assumption].
  intros E. apply D. apply der_sequence_inj; [lia | lia | exact E].
Qed.
Print Assumptions C100_pkcs1.
(** PSS: also the salted hash counts. *)
Lemma xorl_same a b m : length a = length m -> length b = length m -> xorl a m = xorl b m -> a = b.
Proof. intros L1 L2 E. rewrite <- (xorl_cancel a m), <- (xorl_cancel b m) by lia. rewrite E. reflexivity. Qed.
Lemma pss_inj a m m' salt salt' L : zlen salt = zlen salt' -> zlen salt + spec_size a + 2 <= L -> emsa_pss (spec_hash a) (spec_size a) m salt L = emsa_pss (spec_hash a) (spec_size a) m' salt' L ->
  salt = salt' /\ spec_hash a (repeat 0 8 ++ m ++ salt) = spec_hash a (repeat 0 8 ++ m' ++ salt').
Proof.
  intros LS LL E. unfold emsa_pss in E. rewrite <- LS in E. pose proof (spec_size_range a) as SR. pose proof (zlen_nonneg salt) as S0.
  set (h := spec_hash a (_ ++ m ++ salt)) in *. set (h' := spec_hash a (_ ++ m' ++ salt')) in *. assert (Lh : zlen h = zlen h') by (unfold h, h'; rewrite !spec_hash_length; reflexivity).
  rewrite !app_assoc in E. apply app_inj_tail in E. destruct E as [E _]. set (z := repeat 0 _) in E.
  assert (CT : forall l, length (clear_top l) = length l) by (intros [|? ?]; reflexivity). pose proof (mgf1_length a h (L - spec_size a - 1) ltac:(lia)) as M1. pose proof (mgf1_length a h' (L - spec_size a - 1) ltac:(lia)) as M2.
  assert (Lz : zlen z = L - zlen salt - spec_size a - 2) by (unfold z, zlen at 1; rewrite repeat_length; lia).
  set (k := mgf1 _ _ h _) in *. set (k' := mgf1 _ _ h' _) in *. unfold zlen in *.
  assert (X : clear_top (xorl ((z ++ [1]) ++ salt) k) = clear_top (xorl ((z ++ [1]) ++ salt') k') /\ h = h').
  { apply app_inj_len in E; [exact E|]. rewrite !CT, !xorl_length, !app_length. cbn [length]. lia. }
  destruct X as [X H]. split; [|exact H]. assert (K : k' = k) by (unfold k, k'; rewrite H; reflexivity). rewrite K in X. clear E K.
  apply (f_equal (@tl Z)) in X. assert (TL : forall l, tl (clear_top l) = tl l) by (intros [|? ?]; reflexivity). rewrite !TL in X.
  assert (TX : forall u v, length u = length v -> tl (xorl u v) = xorl (tl u) (tl v)) by (intros [|? ?] [|? ?] Q; try discriminate Q; reflexivity).
  rewrite !TX in X by (rewrite !app_length; cbn [length]; lia). assert (LT : forall l : list Z, length (tl l) = (length l - 1)%nat) by (intros [|? ?]; cbn; lia).
  apply xorl_same in X; [| rewrite !LT, !app_length; cbn [length]; lia..]. destruct z as [|z0 z]; cbn [app tl] in X; [exact X | apply app_inv_head in X; exact X].
Qed.
Theorem C100_pss : forall w a sLen g g' N e pk message message' sig, (0 < w)%nat -> bn w N -> Z.odd (val N) = true -> bn w e -> rsa_public_key w N e = Ok pk ->
  supplies a g -> supplies a g' -> bytes message -> bytes message' -> zlen message < 2 ^ 61 -> zlen message' < 2 ^ 61 -> bytes sig -> 0 <= sLen -> sLen + spec_size a + 2 <= zlen sig <= 2 ^ 32 ->
  val N < 256 ^ zlen sig -> zlen sig <= 4 * Z.of_nat w ->
  validatePss w a sLen g pk message sig = Ok true -> validatePss w a sLen g' pk message' sig = Ok true ->
  message = message' \/ collision_of (spec_hash a) message message' \/
  exists salt, collision_of (spec_hash a) (repeat 0 8 ++ spec_hash a message ++ salt) (repeat 0 8 ++ spec_hash a message' ++ salt).
Proof.
  intros w a sLen g g' N e pk m m' sig Hw HN HO He HK Hg Hg' HM HM' LM LM' HS SL HL LN LW V V'. destruct (list_eq_dec Z.eq_dec m m') as [D|D]; [left; exact D | right].
  destruct (C60_pss_exactly w a sLen g N e m sig) as (pk1 & b & K1 & E1 & I1); try assumption. destruct (C60_pss_exactly w a sLen g' N e m' sig) as (pk2 & b' & K2 & E2 & I2); try assumption.
  rewrite HK in K1, K2. injection K1 as <-. injection K2 as <-. rewrite V in E1. rewrite V' in E2. injection E1 as <-. injection E2 as <-.
  destruct (proj1 I1 eq_refl) as (s & _ & L1 & Q1). destruct (proj1 I2 eq_refl) as (s' & _ & L2 & Q2). rewrite Q1 in Q2. apply pss_inj in Q2; [|congruence | lia]. destruct Q2 as [<- Q].
  destruct (list_eq_dec Z.eq_dec (spec_hash a m) (spec_hash a m')) as [X|X]; [left; split; assumption|]. right. exists s. split; [|exact Q].
  intros Y. apply app_inv_head in Y. apply X. apply (app_inv_tail s). exact Y.
Qed.
Print Assumptions C100_pss.
(** Both ends of the statement occur: the published MD5 collision of C93 gives two messages with one
    PSS/MD5 signature. *)
Lemma wang_digest : spec_hash AMD5 wang1 = spec_hash AMD5 wang2.
Proof.
  destruct C93_case as (B1 & B2 & L1 & L2 & _ & d & E1 & E2). rewrite (hash_by_model AMD5 wang1 d B1 ltac:(rewrite L1; reflexivity) E1), (hash_by_model AMD5 wang2 d B2 ltac:(rewrite L2; reflexivity) E2). reflexivity.
Qed.
Example C100_case : exists pk sig, rsa_public_key 9 (words 9 N272) (words 9 65537) = Ok pk /\ bytes sig /\ zlen sig = 34 /\ val (words 9 N272) < 256 ^ 34 /\ wang1 <> wang2 /\
  validatePss 9 AMD5 16 (hz AMD5) pk wang1 sig = Ok true /\ validatePss 9 AMD5 16 (hz AMD5) pk wang2 sig = Ok true.
Proof.
  destruct C93_case as (B1 & B2 & L1 & L2 & D & d & E1 & E2).
  destruct (C59_pss_round_trip 9 AMD5 (hz AMD5) (hz AMD5) _ _ _ 34 wang1 (repeat 0 16) key272 ltac:(vm_compute; reflexivity) (hz_ok _) (hz_ok _) B1 ltac:(rewrite L1; reflexivity) ltac:(apply bytesb_ok; reflexivity) ltac:(vm_compute; split; discriminate))
    as (pk & sk & sig & Epk & Esk & Es & Ls & V). exists pk, sig. split; [exact Epk|].
  assert (BS : bytes sig).
  { pose proof key272 as (Hw & LW & HN & He & Hd & HO & _). destruct (sign_value 9 AMD5 (hz AMD5) _ _ sk (spec_hash AMD5 wang1) (repeat 0 16) 34 Hw LW HN HO Hd Esk) as (s & Es' & _).
    { vm_compute; reflexivity. } { apply hz_ok. } { apply spec_hash_bytes. } { apply bytesb_ok; reflexivity. } { rewrite spec_hash_length; reflexivity. } { vm_compute; split; discriminate. }
    rewrite Es in Es'. apply Ok_inj in Es'. rewrite Es'. apply be_bytes_bytes. }
  split; [exact BS|]. split; [exact Ls|]. split; [vm_compute; reflexivity|]. split; [exact D|]. change (zlen (repeat 0 16)) with 16 in V. split; [exact V|].
  unfold validatePss in *. change (hz AMD5 3%nat 0%nat) with (repeat 0 64) in *. rewrite E1 in V. rewrite E2. exact V.
Qed.

(** ** C101: which bytes of a certificate its signature covers *)
(** The layout of a certificate determines its parts. *)
Lemma says_prefix n n' l l' x x' : says n l -> says n' l' -> l ++ x = l' ++ x' -> n = n' /\ l = l' /\ x = x'.
Proof.
  intros [[R ->]|(ds & B & L & -> & ->)] [[R' ->]|(ds' & B' & L' & -> & ->)] E; cbn [app] in E; pose proof (f_equal (hd 0) E) as E1; pose proof (f_equal (@tl Z) E) as E2; cbn [hd tl] in E1, E2; clear E.
  - subst; auto.
  - pose proof (zlen_nonneg ds'). lia.
  - pose proof (zlen_nonneg ds). lia.
  - assert (LL : zlen ds = zlen ds') by lia. unfold zlen in LL. apply app_inj_len in E2; [|lia]. destruct E2 as [-> ->]. auto.
Qed.
Lemma element_unique t t' l l' c c' x x' : says (zlen c) l -> says (zlen c') l' -> (t :: l ++ c) ++ x = (t' :: l' ++ c') ++ x' -> t = t' /\ c = c' /\ x = x'.
Proof.
  intros H H' E. cbn [app] in E. injection E as -> E. rewrite <- !app_assoc in E. destruct (says_prefix _ _ _ _ _ _ H H' E) as (L & _ & E'). unfold zlen in L. apply app_inj_len in E'; [|lia]. tauto.
Qed.
Lemma laid_out_unique der tbs oid sig tbs' oid' sig' : laid_out der tbs oid sig -> laid_out der tbs' oid' sig' -> tbs = tbs' /\ oid = oid' /\ sig = sig'.
Proof.
  intros (n0 & l0 & l1 & l2 & l3 & l4 & algo & tag & u & rest & more & H0 & H1 & H2 & H3 & H4 & E & E') (n0' & l0' & l1' & l2' & l3' & l4' & algo' & tag' & u' & rest' & more' & H0' & H1' & H2' & H3' & H4' & D & D').
  rewrite E in D. clear E. rewrite <- (zlen_cons u) in H3. rewrite <- (zlen_cons u') in H3'. cbn [app] in D. injection D as D. destruct (says_prefix _ _ _ _ _ _ H0 H0' D) as (_ & _ & D0).
  destruct (element_unique 48 48 _ _ _ _ _ _ H1 H1' D0) as (_ & -> & D1). destruct (element_unique 48 48 _ _ _ _ _ _ H2 H2' D1) as (_ & -> & D2). assert (QQ : tag' :: l4' ++ oid' ++ more' = tag :: l4 ++ oid ++ more) by (rewrite <- D', <- E'; cbn [app] in *; rewrite D2; reflexivity). clear E'; rename QQ into E'.
  destruct (element_unique 3 3 _ _ (u :: sig) (u' :: sig') _ _ H3 H3' D2) as (_ & D3 & _). injection D3 as -> ->. split; [reflexivity|]. split; [|reflexivity].
  change (tag :: l4 ++ oid ++ more) with ((tag :: l4) ++ oid ++ more) in E'. symmetry in E'. assert (X : (tag :: l4 ++ oid) ++ more = (tag' :: l4' ++ oid') ++ more') by (cbn [app] in *; rewrite <- !app_assoc; exact E').
  destruct (element_unique tag tag' _ _ _ _ _ _ H4 H4' X) as (_ & -> & _). reflexivity.
Qed.
(** A signature binds the to-be-signed content: two certificates that the same issuer accepts with
    the same algorithm and signature have the same content, or give a digest collision. *)
Theorem C101_content : forall g g' c c' iss tbs tbs' oid sig, has_key iss -> supplies_ok g -> supplies_ok g' ->
  bytes (derCert c) -> bytes (derCert c') -> zlen (derCert c) < 2 ^ 24 -> zlen (derCert c') < 2 ^ 24 ->
  laid_out (derCert c) tbs oid sig -> laid_out (derCert c') tbs' oid sig ->
  verify g c iss = Ok true -> verify g' c' iss = Ok true ->
  tbs = tbs' \/ exists a, sig_alg oid a /\ collision_of (spec_hash a) (der_sequence tbs) (der_sequence tbs').
Proof.
  intros g g' c c' iss tbs tbs' oid sig HK HG HG' HB HB' LB LB' LO LO' V V'.
  destruct (verify_shape g c iss HB) as [X|[X|(t1 & o1 & s1 & k & _ & LO1 & K & X)]]; [congruence..|]. destruct (verify_shape g' c' iss HB') as [Y|[Y|(t2 & o2 & s2 & k' & _ & LO2 & K' & Y)]]; [congruence..|].
  destruct (laid_out_unique _ _ _ _ _ _ _ LO LO1) as (<- & <- & <-). destruct (laid_out_unique _ _ _ _ _ _ _ LO' LO2) as (<- & <- & <-). rewrite K in K'. injection K' as <-. clear LO1 LO2.
  destruct (laid_out_parts _ _ _ _ HB LO) as (B1 & B2 & L1 & L2). destruct (laid_out_parts _ _ _ _ HB' LO') as (B1' & _ & L1' & _). rewrite X in V. rewrite Y in V'. clear X Y.
  destruct (sig_type_cases oid) as [T|(a & SA & W1)]; [rewrite T in V; discriminate V|]. destruct (W1 g k tbs (rev sig) HG) as [X S1]. destruct (W1 g' k tbs' (rev sig) HG') as [Y S2]. rewrite X in V. rewrite Y in V'.
  destruct (HK k K) as (N & e & HN & He & HR).
  destruct (C100_pkcs1 W a _ _ N e k tbs tbs' (rev sig) ltac:(unfold W; lia) HN He HR S1 S2 B1 B1' ltac:(lia) ltac:(lia) (bytes_rev _ B2) ltac:(rewrite zlen_rev; lia)) as [Q|Q]; [|exact V | exact V' | left; exact Q | right; exists a; split; assumption].
  destruct SA as [[_ ->]|[[_ ->]|[_ ->]]]; vm_compute; discriminate.
Qed.
Print Assumptions C101_content.
(** The rest is not covered: what follows the identifier of the algorithm, the number of unused bits
    of the signature and anything after the certificate can be replaced. *)
Definition loose (tbs oid par : list Z) (unused : Z) (sig rest : list Z) : list Z :=
  tlv 48 (tlv 48 tbs ++ tlv 48 (tlv 6 oid ++ par) ++ tlv 3 (unused :: sig)) ++ rest.
Lemma verify_loose g c iss tbs oid par u sig rest k : zlen (derCert c) < 2 ^ 24 -> derCert c = loose tbs oid par u sig rest -> c_pubkey iss = Some k ->
  verify g c iss = if (validity_start c <? validity_start iss) || (validity_end iss <? validity_end c) then Ok false
                   else validateSignature W (g (sig_type oid)) k (sig_type oid) tbs (rev sig).
Proof.
  intros LB E HK. unfold verify. destruct (validity_start c <? validity_start iss); [reflexivity|]. destruct (validity_end iss <? validity_end c); [reflexivity|]. cbn [orb].
  rewrite E in *. unfold loose in *. set (inner := tlv 48 tbs ++ _) in *. pose proof (tlv_length 48 inner) as L0. rewrite zlen_app in LB. pose proof (zlen_nonneg rest) as Z0.
  assert (LI : zlen inner < 2 ^ 24) by lia. unfold inner in LI. rewrite !zlen_app in LI. pose proof (tlv_length 48 tbs) as L1. pose proof (tlv_length 48 (tlv 6 oid ++ par)) as L2. pose proof (tlv_length 3 (u :: sig)) as L3.
  pose proof L2 as L4. rewrite zlen_app in L4. pose proof (tlv_length 6 oid) as L5. nn.
  rewrite whole_cur, read_tlv by lia. cbn [bind]. change (negb (48 =? id_sequence)) with false. cbv iota. rewrite view_of_cur. unfold inner at 1. rewrite read_tlv by lia. cbn [bind]. change (negb (48 =? id_sequence)) with false. cbv iota.
  rewrite read_tlv by lia. cbn [bind]. rewrite read_last by lia. cbn [bind]. change (negb (48 =? id_sequence)) with false. change (negb (3 =? id_bit_string)) with false. cbv iota.
  rewrite view_of_cur, read_tlv by lia. cbn [bind s_data]. rewrite HK. reflexivity.
Qed.
Theorem C101_uncovered : forall t oid par u sig rest par' u' rest' iss k, good_tbs t -> c_pubkey iss = Some k ->
  zlen (loose (tbs_content t) oid par u sig rest) < 2 ^ 24 -> zlen (loose (tbs_content t) oid par' u' sig rest') < 2 ^ 24 ->
  exists c c', parse_der (loose (tbs_content t) oid par u sig rest) = Ok c /\ parse_der (loose (tbs_content t) oid par' u' sig rest') = Ok c' /\
    subject c = subject c' /\ issuer c = issuer c' /\ fqdns c = fqdns c' /\ forall g, verify g c iss = verify g c' iss.
Proof.
  intros t oid par u sig rest par' u' rest' iss k GT K L L'.
  destruct (parse_der_ok t (tlv 48 (tlv 6 oid ++ par) ++ tlv 3 (u :: sig)) rest GT) as (c & N & E & pk & P1 & P2 & _ & _ & P3 & P4 & P5 & P6 & P7 & _); [unfold loose in L; lia|].
  destruct (parse_der_ok t (tlv 48 (tlv 6 oid ++ par') ++ tlv 3 (u' :: sig)) rest' GT) as (c' & N' & E' & pk' & P1' & P2' & _ & _ & P3' & P4' & P5' & P6' & P7' & _); [unfold loose in L'; lia|].
  exists c, c'. split; [exact P1|]. split; [exact P1'|]. split; [congruence|]. split; [congruence|]. split; [congruence|]. intros g.
  rewrite (verify_loose g c iss (tbs_content t) oid par u sig rest k), (verify_loose g c' iss (tbs_content t) oid par' u' sig rest' k); try assumption; [|rewrite P2'; exact L' | rewrite P2; exact L]. rewrite P6, P7, P6', P7'. reflexivity.
Qed.
Print Assumptions C101_uncovered.
(** So two different certificates pass with one signature: the intermediate of the other examples,
    and the same with 7 unused bits, other parameters and a byte after the end. *)
Theorem C101_bytes_refuted : exists r a a', parse_der (der_of tR sR) = Ok r /\ parse_der (der_of tA sA) = Ok a /\
  parse_der (loose (tbs_content tA) (rsa_sig_oid 11) [4; 2; 1; 2] 7 sA [99]) = Ok a' /\ derCert a <> derCert a' /\
  forall g, supplies_ok g -> verify g a r = Ok true /\ verify g a' r = Ok true.
Proof.
  destruct the_world as (r & a & b & l & H). destruct (p_key _ _ _ (w_r _ _ _ _ H)) as (N & E & k & K & _).
  destruct (C101_uncovered tA (rsa_sig_oid 11) (tlv 5 []) 0 sA [] [4; 2; 1; 2] 7 [99] r k good_A K ltac:(vm_compute; reflexivity) ltac:(vm_compute; reflexivity)) as (c & a' & P1 & P2 & _ & _ & _ & V).
  assert (Q : loose (tbs_content tA) (rsa_sig_oid 11) (tlv 5 []) 0 sA [] = der_of tA sA) by (unfold loose, der_of, cert_der; apply app_nil_r).
  rewrite Q, (p_parse _ _ _ (w_a _ _ _ _ H)) in P1. apply Ok_inj in P1. subst c. exists r, a, a'. split; [apply H|]. split; [apply H|]. split; [exact P2|].
  split; [|intros g HG; rewrite <- V; split; apply H; exact HG].
  destruct (parse_der_ok tA (tlv 48 (tlv 6 (rsa_sig_oid 11) ++ [4; 2; 1; 2]) ++ tlv 3 (7 :: sA)) [99] good_A ltac:(vm_compute; reflexivity)) as (c & _ & _ & _ & P3 & P4 & _).
  change (tlv 48 (tlv 48 (tbs_content tA) ++ tlv 48 (tlv 6 (rsa_sig_oid 11) ++ [4; 2; 1; 2]) ++ tlv 3 (7 :: sA)) ++ [99]) with (loose (tbs_content tA) (rsa_sig_oid 11) [4; 2; 1; 2] 7 sA [99]) in P3, P4.
  rewrite P2 in P3. apply Ok_inj in P3. subst c. rewrite P4, (p_der _ _ _ (w_a _ _ _ _ H)). intros X. apply (f_equal zlen) in X. vm_compute in X. discriminate X.
Qed.
Print Assumptions C101_bytes_refuted.
Lemma says_der n : 0 <= n < 2 ^ 64 -> says n (der_length n).
Proof.
  intros R. unfold says, der_length. destruct (Z.ltb_spec n 128) as [C|C]; [left; split; [lia | reflexivity]|]. right. destruct (minimal_be_val 8 n R) as (H1 & H2 & H3 & _).
  exists (minimal_be 8 n). split; [exact H2|]. split; [change (Z.of_nat 8) with 8 in H3; lia|]. split; [rewrite H1, Z.mod_small by exact R; reflexivity | reflexivity].
Qed.
Lemma laid_out_der tbs oid sig : 0 <= zlen tbs < 2 ^ 32 -> 0 <= zlen oid < 2 ^ 32 -> 0 <= zlen sig < 2 ^ 32 -> laid_out (cert_der tbs oid sig) tbs oid sig.
Proof.
  intros H1 H2 H3. set (algo := tlv 6 oid ++ tlv 5 []).
  assert (TL : forall t c, 0 <= zlen c < 2 ^ 33 -> zlen (tlv t c) < zlen c + 16).
  { intros t c B. unfold tlv. rewrite zlen_cons, zlen_app. unfold der_length. destruct (Z.ltb_spec (zlen c) 128); [unfold zlen at 1; cbn [length]; lia|]. cbv zeta. rewrite zlen_cons. destruct (minimal_be_val 8 (zlen c)) as (_ & _ & Q & _); [change (256 ^ Z.of_nat 8) with (2 ^ 64); lia|]. change (Z.of_nat 8) with 8 in Q. lia. }
  assert (LA : 0 <= zlen algo < 2 ^ 33) by (unfold algo; rewrite zlen_app; split; [nn; lia|]; pose proof (TL 6 oid ltac:(lia)); change (zlen (tlv 5 [])) with 2; lia).
  set (inner := tlv 48 tbs ++ tlv 48 algo ++ tlv 3 (0 :: sig)).
  assert (LI : 0 <= zlen inner < 2 ^ 36) by (unfold inner; rewrite !zlen_app; split; [nn; lia|]; pose proof (TL 48 tbs ltac:(lia)); pose proof (TL 48 algo ltac:(lia)); pose proof (TL 3 (0 :: sig) ltac:(rewrite zlen_cons; lia)) as Q; rewrite zlen_cons in Q; lia).
  exists (zlen inner), (der_length (zlen inner)), (der_length (zlen tbs)), (der_length (zlen algo)), (der_length (zlen (0 :: sig))), (der_length (zlen oid)), algo, 6, 0, [], (tlv 5 [] ++ tlv 3 (0 :: sig)).
  split; [apply says_der; lia|]. split; [apply says_der; lia|]. split; [apply says_der; lia|]. split; [rewrite <- (zlen_cons 0); apply says_der; rewrite zlen_cons; lia|]. split; [apply says_der; lia|].
  change (3 :: der_length (zlen (0 :: sig)) ++ 0 :: sig) with (tlv 3 (0 :: sig)). rewrite app_nil_r. split; [reflexivity|].
  unfold algo, tlv at 1. cbn [app]. rewrite <- !app_assoc. reflexivity.
Qed.
Example C101_case : exists r a, has_key r /\ laid_out (derCert a) (tbs_content tA) (rsa_sig_oid 11) sA /\ bytes (derCert a) /\ zlen (derCert a) < 2 ^ 24 /\
  forall g, supplies_ok g -> verify g a r = Ok true.
Proof.
  destruct the_world as (r & a & b & l & H). exists r, a. pose proof (p_der _ _ _ (w_a _ _ _ _ H)) as D. split; [apply (parsed_has_key _ _ _ (w_r _ _ _ _ H))|].
  split; [|split; [rewrite D; apply bytesb_ok; vm_compute; reflexivity|]; split; [rewrite D; vm_compute; reflexivity | apply H]].
  rewrite D. apply laid_out_der; split; (apply zlen_nonneg || (vm_compute; reflexivity)).
Qed.
