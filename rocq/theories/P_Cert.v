(** Proofs about keys and certificates in DER. *)
From Coq Require Import String.
From Verif Require Import Base BaseP M_Base64 S_Hash M_Hash M_HKDF S_Bignum M_Bignum P_Bignum Prop_Bignum M_Mont P_Mont S_RSA M_RSA P_RSA S_X509 M_X509 P_X509 P_Date P_Name.
Open Scope Z_scope.

Lemma int_content_ok z : 0 <= z -> bytes (int_content z) /\ be_val (int_content z) = z.
Proof.
  intros Hz. unfold int_content. destruct (Z.eqb_spec z 0); [subst; split; [apply bytesb_iff; reflexivity | reflexivity]|]. cbv zeta.
  assert (R : 0 <= z < 256 ^ Z.of_nat (Z.to_nat (Z.log2 z / 8 + 1))).
  { pose proof (Z.log2_nonneg z). assert (0 <= Z.log2 z / 8) by (apply Z.div_pos; lia). rewrite Z2Nat.id by lia. change 256 with (2 ^ 8). rewrite <- Z.pow_mul_r by lia. split; [lia|].
    apply Z.log2_lt_pow2; [lia|]. pose proof (Z.div_mod (Z.log2 z) 8 ltac:(lia)). pose proof (Z.mod_pos_bound (Z.log2 z) 8 ltac:(lia)). lia. }
  pose proof (be_bytes_bytes (Z.to_nat (Z.log2 z / 8 + 1)) z) as HB. pose proof (be_val_bytes _ z R) as HV.
  destruct (be_bytes _ z) as [|x b] eqn:E; [auto|]. destruct (x <? 128); [auto|]. split; [apply bytes_cons; split; [unfold byte; lia | exact HB]|].
  rewrite be_val_cons, Z.mul_0_l, Z.add_0_l. exact HV.
Qed.
Lemma strip0_ok l : bytes l -> bytes (strip0 l) /\ be_val (strip0 l) = be_val l.
Proof.
  intros H. destruct l as [|x l]; [auto|]. destruct x as [|p|p]; [|auto..]. cbn [strip0]. apply bytes_cons in H. split; [apply H|]. rewrite be_val_cons, Z.mul_0_l. reflexivity.
Qed.
Lemma parse_bignum_ok n z pre post rest : 0 <= z -> zlen (int_content z) < 2 ^ 64 ->
  exists r, parse_bignum (bits_of n) (cur pre (integer z ++ post) rest) = Ok (r, cur (pre ++ integer z) post rest) /\ bn n r /\ val r = z mod 2 ^ (32 * Z.of_nat n).
Proof.
  intros Hz HL. unfold parse_bignum, integer. rewrite read_tlv by exact HL. cbn [bind s_data]. change (negb (2 =? id_integer)) with false. cbv iota.
  destruct (int_content_ok z Hz) as [HB HV]. destruct (strip0_ok _ HB) as [SB SV].
  destruct (of_bytes_be n (strip0 (int_content z)) SB) as (r & -> & H1 & H2). exists r. cbn [bind]. split; [reflexivity|]. split; [exact H1|]. rewrite H2, SV, HV. reflexivity.
Qed.

Ltac nn := repeat match goal with
  | |- context [zlen ?l] => lazymatch goal with _ : 0 <= zlen l |- _ => fail | _ => pose proof (zlen_nonneg l) end
  | _ : context [zlen ?l] |- _ => lazymatch goal with _ : 0 <= zlen l |- _ => fail | _ => pose proof (zlen_nonneg l) end
  end.

Definition Wbits : Z := 32 * Z.of_nat W.
Lemma lt17 e : bn W e -> lt_ e (of_u32 (bits_of W) 17) = (val e <? 17).
Proof.
  intros He. destruct (of_u32_ok W 17) as [H1 H2]; [split; [discriminate | reflexivity] | unfold W; lia|]. rewrite (lt_ok W) by assumption. rewrite H2. reflexivity.
Qed.
Lemma parse_rsa_pubkey_ok n e rest : 0 <= n < 2 ^ Wbits -> Z.odd n = true -> 17 <= e < 2 ^ Wbits -> zlen (rsa_key_der n e) < 2 ^ 64 ->
  exists N E pk, parse_rsa_pubkey (view_of (Sp (rsa_key_der n e) rest)) = Ok pk /\ bn W N /\ val N = n /\ bn W E /\ val E = e /\ rsa_public_key W N E = Ok pk.
Proof.
  intros Hn HO He HL. unfold rsa_key_der in *. pose proof (tlv_length 48 (integer n ++ integer e)) as L1. rewrite zlen_app in L1.
  pose proof (tlv_length 2 (int_content n)) as L2. pose proof (tlv_length 2 (int_content e)) as L3. fold (integer n) in L2. fold (integer e) in L3. nn.
  unfold parse_rsa_pubkey. rewrite view_of_cur, read_last by (rewrite zlen_app; lia). cbn [bind]. rewrite view_of_cur.
  destruct (parse_bignum_ok W n [] (integer e) rest ltac:(lia) ltac:(lia)) as (N & -> & BN & VN). cbn [bind].
  rewrite <- (app_nil_r (integer e)). cbn [app]. destruct (parse_bignum_ok W e (integer n) [] rest ltac:(lia) ltac:(lia)) as (E & -> & BE & VE). cbn [bind].
  fold Wbits in VN, VE. rewrite Z.mod_small in VN, VE by lia. rewrite lt17 by exact BE. rewrite VE. destruct (Z.ltb_spec e 17); [lia|].
  destruct (public_key_ok W N E ltac:(unfold W; lia) BN ltac:(rewrite VN; exact HO) BE) as (pk & EQ & _). exists N, E, pk. split; [exact EQ|]. repeat (split; [assumption|]). exact EQ.
Qed.
Definition spki_content (n e : Z) : list Z := rsaEncryption ++ tlv 3 (0 :: rsa_key_der n e).
Lemma parse_pubkey_ok n e rest : 0 <= n < 2 ^ Wbits -> Z.odd n = true -> 17 <= e < 2 ^ Wbits -> zlen (spki_content n e) < 2 ^ 64 ->
  exists N E pk, parse_pubkey (view_of (Sp (spki_content n e) rest)) = Ok (Some pk) /\ bn W N /\ val N = n /\ bn W E /\ val E = e /\ rsa_public_key W N E = Ok pk.
Proof.
  intros Hn HO He HL. unfold spki_content in *. rewrite zlen_app in HL. pose proof (tlv_length 3 (0 :: rsa_key_der n e)) as L1. rewrite zlen_cons in L1. nn.
  unfold parse_pubkey. rewrite view_of_cur. unfold rsaEncryption. rewrite read_tlv by reflexivity. cbn [bind]. change (negb (48 =? id_sequence)) with false. cbv iota.
  rewrite view_of_cur, read_tlv by reflexivity. cbn [bind s_data]. change (negb (6 =? id_object)) with false. cbv iota.
  change (negb (list_eqb _ oid_rsaEncryption)) with false. cbv iota. rewrite read_last by (rewrite zlen_cons; lia). cbn [bind drop1 s_data s_rest].
  destruct (parse_rsa_pubkey_ok n e rest Hn HO He ltac:(lia)) as (N & E & pk & -> & HH). exists N, E, pk. split; [reflexivity | exact HH].
Qed.

Definition tail_tag (e : Z * list Z) : Prop := fst e = 161 \/ fst e = 162 \/ fst e = 163.
Definition tails (l : list (Z * list Z)) : list Z := concat (map (fun e => tlv (fst e) (snd e)) l).
Lemma tail_loop_ok : forall l fuel pre rest, (List.length l <= fuel)%nat -> Forall tail_tag l -> zlen (tails l) < 2 ^ 64 -> tail_loop fuel (cur pre (tails l) rest) = Ok true.
Proof.
  induction l as [|a l IH]; intros fuel pre rest HF HK HL.
  - destruct fuel; unfold tails; cbn [map concat tail_loop]; rewrite empty_cur; reflexivity.
  - cbn [List.length] in HF. destruct fuel as [|fuel]; [lia|]. change (tails (a :: l)) with (tlv (fst a) (snd a) ++ tails l) in *. cbn [tail_loop]. rewrite empty_cur.
    destruct (tlv (fst a) (snd a) ++ tails l) eqn:E; [unfold tlv in E; discriminate E|]. rewrite <- E in *. clear E.
    apply Forall_cons_iff in HK. destruct HK as [HT HK]. rewrite zlen_app in HL. pose proof (tlv_length (fst a) (snd a)). nn.
    rewrite read_tlv by lia. cbn [bind]. destruct HT as [-> |[-> | ->]]; apply IH; assumption || lia.
Qed.
Lemma tails_length l : (List.length l <= List.length (tails l))%nat.
Proof.
  induction l as [|a l IH]; [reflexivity|]. change (tails (a :: l)) with (tlv (fst a) (snd a) ++ tails l). rewrite app_length. unfold tlv at 1. cbn [List.length]. lia.
Qed.

(** The times need not exist, it is enough that they have the form of times. *)
Definition good_tbs (t : tbs) : Prop :=
  0 <= t_serial t /\ Forall known_attr (t_issuer t) /\ Forall known_attr (t_subject t) /\
  two_digit_fields (t_start t) /\ 1970 <= d_year (t_start t) <= 2099 /\ two_digit_fields (t_stop t) /\ 1970 <= d_year (t_stop t) <= 2099 /\
  0 <= t_n t < 2 ^ 4096 /\ Z.odd (t_n t) = true /\ 17 <= t_e t < 2 ^ 4096 /\ Forall tail_tag (t_tail t).
Lemma parse_time_last d pre rest : two_digit_fields d -> 1970 <= d_year d <= 2099 -> parse_date (cur pre (time_of d) rest) = Ok (posix d, cur (pre ++ time_of d) [] rest).
Proof. intros H1 H2. rewrite <- (parse_time_fields d pre [] rest H1 H2), app_nil_r. reflexivity. Qed.
Lemma parse_int_2 rest : parse_int (view_of (Sp (integer 2) rest)) = Ok (2, cur (integer 2) [] rest).
Proof. unfold parse_int. rewrite view_of_cur. unfold integer at 1. rewrite read_last by reflexivity. reflexivity. Qed.
Definition good_frame (t : tbs) : Prop :=
  0 <= t_serial t /\ Forall known_attr (t_issuer t) /\ Forall known_attr (t_subject t) /\
  two_digit_fields (t_start t) /\ 1970 <= d_year (t_start t) <= 2099 /\ two_digit_fields (t_stop t) /\ 1970 <= d_year (t_stop t) <= 2099 /\ Forall tail_tag (t_tail t).
(** All of the certificate but the times and the key. *)
Definition good_names (t : tbs) : Prop :=
  0 <= t_serial t /\ Forall known_attr (t_issuer t) /\ Forall known_attr (t_subject t) /\ Forall tail_tag (t_tail t).
Theorem parse_der_times cv t after rest : good_names t -> zlen (tlv 48 (tlv 48 (tbs_with cv t) ++ after) ++ rest) < 2 ^ 64 ->
  let inp := tlv 48 (tlv 48 (tbs_with cv t) ++ after) ++ rest in
  exists ser ni ns r r', zlen cv < 2 ^ 64 /\ zlen (spki_content (t_n t) (t_e t)) < 2 ^ 64 /\
    parse_der inp = (do t1 <- parse_date (view_of (Sp cv r')); do t2 <- parse_date (snd t1); do key <- parse_pubkey (view_of (Sp (spki_content (t_n t) (t_e t)) r)); Ok (Cert inp ser [common_name ns] (name_string ns) (name_string ni) (fst t1) (fst t2) key)) /\
    bn 4 ser /\ val ser = t_serial t mod 2 ^ 128 /\ name_string ns = name_text (t_subject t) /\ name_string ni = name_text (t_issuer t) /\ common_name ns = last_value (t_subject t) [85; 4; 3].
Proof.
  intros (G1 & G2 & G3 & G11) HL inp.
  pose proof (tlv_length 48 (tlv 48 (tbs_with cv t) ++ after)) as L1. rewrite zlen_app in HL, L1.
  pose proof (tlv_length 48 (tbs_with cv t)) as L2. pose proof (zlen_nonneg rest) as Z1. pose proof (zlen_nonneg after) as Z2.
  assert (LT : zlen (tbs_with cv t) < 2 ^ 64) by lia.
  unfold parse_der, inp. rewrite whole_cur, read_tlv by (rewrite zlen_app; lia). cbn [bind]. change (negb (48 =? id_sequence)) with false. cbv iota.
  rewrite view_of_cur, read_tlv by lia. cbn [bind]. change (negb (48 =? id_sequence)) with false. cbv iota. clear HL L1 L2 Z1 Z2.
  generalize (after ++ rest ++ []) as rest0; intros rest0. cbn [s_data]. rewrite view_of_cur. change (after ++ rest) with (after ++ rest) in inp.
  set (T := tbs_with cv t) in *. assert (TE : T = tbs_with cv t) by reflexivity. clearbody T. unfold tbs_with in TE. fold (tails (t_tail t)) in TE.
  set (e0 := tlv 160 (integer 2)) in TE. set (e1 := integer (t_serial t)) in TE. set (e2 := tlv 48 (t_sigalg t)) in TE. unfold name_der in TE. fold rdn in TE.
  change (fun a : attr => tlv 49 (tlv 48 (tlv 6 (a_oid a) ++ tlv (a_tag a) (a_value a)))) with rdn in TE.
  set (ci := concat (map rdn (t_issuer t))) in TE. set (cs := concat (map rdn (t_subject t))) in TE.
  unfold rsa_spki in TE. fold (spki_content (t_n t) (t_e t)) in TE. set (ck := spki_content (t_n t) (t_e t)) in TE. set (ts := tails (t_tail t)) in TE.
  pose proof (f_equal zlen TE) as TL. rewrite !zlen_app in TL.
  pose proof (tlv_length 2 (int_content (t_serial t))) as M1. fold (integer (t_serial t)) in M1. fold e1 in M1. pose proof (tlv_length 48 (t_sigalg t)) as M2. fold e2 in M2.
  pose proof (tlv_length 48 ci) as M3. pose proof (tlv_length 48 cv) as M4. pose proof (tlv_length 48 cs) as M5. pose proof (tlv_length 48 ck) as M6. nn.
  assert (S1 : zlen (int_content (t_serial t)) < 2 ^ 64) by lia. assert (S2 : zlen (t_sigalg t) < 2 ^ 64) by lia. assert (S3 : zlen ci < 2 ^ 64) by lia.
  assert (S4 : zlen cv < 2 ^ 64) by lia. assert (S5 : zlen cs < 2 ^ 64) by lia. assert (S6 : zlen ck < 2 ^ 64) by lia. assert (S7 : zlen ts < 2 ^ 64) by lia.
  assert (TLN : (List.length ts <= List.length T)%nat) by (unfold zlen in TL; lia).
  repeat match goal with H : context [zlen _] |- _ => lazymatch H with LT => fail | S1 => fail | S2 => fail | S3 => fail | S4 => fail | S5 => fail | S6 => fail | S7 => fail | _ => clear H end end.
  assert (PK : peek (cur [] T rest0) = Ok 160) by (rewrite TE; apply peek_cur). rewrite PK. clear PK. cbn [bind]. change (160 =? id_array0) with true. cbv iota.
  match type of TE with _ = e0 ++ ?q => pose proof (read_tlv [] 160 (integer 2) q rest0 ltac:(reflexivity)) as R0 end. fold e0 in R0. rewrite <- TE in R0. rewrite R0. clear R0. cbn [bind app].
  rewrite parse_int_2. cbn [bind fst]. change (negb (2 + 1 =? 3)) with false. cbv iota.
  destruct (parse_bignum_ok 4 (t_serial t) e0 (e2 ++ tlv 48 ci ++ tlv 48 cv ++ tlv 48 cs ++ tlv 48 ck ++ ts) rest0 G1 S1) as (ser & ES & BS & VS). fold e1 in ES.
  change (bits_of 4) with 128 in ES. rewrite ES. cbn [bind]. clear ES.
  unfold e2 at 1. rewrite read_tlv by exact S2. cbn [bind]. fold e2. change (negb (48 =? id_sequence)) with false. cbv iota.
  rewrite read_tlv by exact S3. cbn [bind]. change (negb (48 =? id_sequence)) with false. cbv iota.
  match goal with |- context [Sp ci ?r] => destruct (parse_name_ok (t_issuer t) r G2 S3) as (ni & EI & FI) end. fold ci in EI. rewrite EI. cbn [bind]. clear EI.
  rewrite read_tlv by exact S4. cbn [bind]. change (negb (48 =? id_sequence)) with false. cbv iota.
  match goal with |- context [view_of (Sp cv ?r)] => set (r' := r) end.
  assert (DONE : forall ns, Forall (fun o => field ns o = last_value (t_subject t) o) (map fst labels) -> bn 4 ser /\ val ser = t_serial t mod 2 ^ 128 /\ name_string ns = name_text (t_subject t) /\ name_string ni = name_text (t_issuer t) /\ common_name ns = last_value (t_subject t) [85; 4; 3]).
  { intros ns FS. split; [exact BS|]. split; [exact VS|]. split; [apply name_text_ok; exact FS|]. split; [apply name_text_ok; exact FI|]. apply common_name_ok; exact FS. }
  destruct (parse_date (view_of (Sp cv r'))) as [[start d5v]| | |] eqn:ED;
    [|destruct (parse_name_ok (t_subject t) [] G3 S5) as (ns & _ & FS); exists ser, ni, ns, [], r'; rewrite ED; (split; [exact S4|]; split; [exact S6|]; split; [reflexivity | exact (DONE ns FS)])..].
  cbn [bind fst snd].
  destruct (parse_date d5v) as [[stop v6]| | |] eqn:ED2;
    [|destruct (parse_name_ok (t_subject t) [] G3 S5) as (ns & _ & FS); exists ser, ni, ns, [], r'; rewrite ED; cbn [bind fst snd]; rewrite ED2; (split; [exact S4|]; split; [exact S6|]; split; [reflexivity | exact (DONE ns FS)])..].
  cbn [bind fst snd].
  rewrite read_tlv by exact S5. cbn [bind]. change (negb (48 =? id_sequence)) with false. cbv iota.
  match goal with |- context [Sp cs ?r] => destruct (parse_name_ok (t_subject t) r G3 S5) as (ns & EI & FS) end. fold cs in EI. rewrite EI. cbn [bind]. clear EI.
  rewrite read_tlv by exact S6. cbn [bind]. change (negb (48 =? id_sequence)) with false. cbv iota.
  pose proof (tails_length (t_tail t)) as TL. fold ts in TL.
  match goal with |- context [view_of (Sp ck ?r)] => exists ser, ni, ns, r, r' end. split; [exact S4|]. split; [exact S6|]. split; [|exact (DONE ns FS)].
  rewrite ED. cbn [bind fst snd]. rewrite ED2. cbn [bind fst snd].
  fold ck. match goal with |- bind ?x _ = _ => destruct x as [key| | |] end; cbn [bind]; [|reflexivity..].
  unfold ts. rewrite tail_loop_ok by (assumption || lia). reflexivity.
Qed.
(** All of the certificate but the key. *)
Theorem parse_der_frame t after rest : good_frame t -> zlen (tlv 48 (tlv 48 (tbs_content t) ++ after) ++ rest) < 2 ^ 64 ->
  let inp := tlv 48 (tlv 48 (tbs_content t) ++ after) ++ rest in
  exists ser ni ns r, zlen (spki_content (t_n t) (t_e t)) < 2 ^ 64 /\
    parse_der inp = (do key <- parse_pubkey (view_of (Sp (spki_content (t_n t) (t_e t)) r)); Ok (Cert inp ser [common_name ns] (name_string ns) (name_string ni) (posix (t_start t)) (posix (t_stop t)) key)) /\
    bn 4 ser /\ val ser = t_serial t mod 2 ^ 128 /\ name_string ns = name_text (t_subject t) /\ name_string ni = name_text (t_issuer t) /\ common_name ns = last_value (t_subject t) [85; 4; 3].
Proof.
  intros (G1 & G2 & G3 & G4 & G5 & G6 & G7 & G11) HL inp.
  change (tbs_content t) with (tbs_with (time_of (t_start t) ++ time_of (t_stop t)) t) in *.
  destruct (parse_der_times _ t after rest ltac:(unfold good_names; tauto) HL) as (ser & ni & ns & r & r' & _ & S6 & EQ & F). exists ser, ni, ns, r. split; [exact S6|]. split; [|exact F].
  unfold inp. rewrite EQ. rewrite view_of_cur, parse_time_fields by assumption. cbn [bind fst snd]. rewrite parse_time_last by assumption. reflexivity.
Qed.
Theorem parse_der_ok t after rest : good_tbs t -> zlen (tlv 48 (tlv 48 (tbs_content t) ++ after) ++ rest) < 2 ^ 64 ->
  let inp := tlv 48 (tlv 48 (tbs_content t) ++ after) ++ rest in
  exists c N E pk, parse_der inp = Ok c /\ derCert c = inp /\ bn 4 (serialNumber c) /\ val (serialNumber c) = t_serial t mod 2 ^ 128 /\
    subject c = name_text (t_subject t) /\ issuer c = name_text (t_issuer t) /\ fqdns c = [last_value (t_subject t) [85; 4; 3]] /\
    validity_start c = posix (t_start t) /\ validity_end c = posix (t_stop t) /\
    c_pubkey c = Some pk /\ bn W N /\ val N = t_n t /\ bn W E /\ val E = t_e t /\ rsa_public_key W N E = Ok pk.
Proof.
  intros (G1 & G2 & G3 & G4 & G5 & G6 & G7 & G8 & G9 & G10 & G11) HL inp. change (2 ^ 4096) with (2 ^ Wbits) in G8, G10.
  destruct (parse_der_frame t after rest) as (ser & ni & ns & r & S6 & EQ & BS & VS & F1 & F2 & F3); [unfold good_frame; tauto | exact HL|]. fold inp in EQ.
  destruct (parse_pubkey_ok (t_n t) (t_e t) r G8 G9 G10 S6) as (N & E & pk & EP & HN & VN & HE & VE & RK). rewrite EP in EQ. cbn [bind] in EQ.
  eexists; exists N, E, pk. split; [exact EQ|]. cbn [derCert serialNumber subject issuer fqdns validity_start validity_end c_pubkey]. rewrite F3.
  repeat (split; [reflexivity || assumption|]). exact RK.
Qed.
(** The modulus zero never gets past the key parser: the reduction loop does not end. *)
Lemma inverse_total : forall fuel n A, (n <= fuel)%nat -> (0 < n)%nat -> bn n A -> exists r, inverse_rec fuel n A = Ok r /\ bn n r.
Proof.
  induction fuel as [|fuel IH]; intros n A HF Hn HA; [lia|]. cbn [inverse_rec].
  destruct (Nat.leb_spec n 1) as [C|C].
  - assert (n = 1%nat) by lia; subst n. destruct (bn_S _ _ HA) as (a & r & -> & Ha & Hr). apply bn_nil in Hr; subst r.
    cbn [getz nth_error Z.leb Z.compare Z.to_nat bind].
    assert (R1 : 0 <= inverse_word a < 2 ^ 32) by (unfold inverse_word; unfold newton32 at 1; apply w32_range).
    destruct (of_u32_ok 1 (inverse_word a) R1 ltac:(lia)) as [W0 V]. eexists; split; [reflexivity | exact W0].
  - set (h := Nat.div (n + 1) 2). assert (Hh : (h < n /\ 0 < h /\ n <= h + h)%nat).
    { unfold h. pose proof (Nat.div_mod (n + 1) 2 ltac:(lia)). pose proof (Nat.mod_upper_bound (n + 1) 2 ltac:(lia)). lia. }
    destruct (slice_ok n h 0 A HA ltac:(lia)) as (low & E & HL & VL). change (32 * Z.of_nat 0) with 0 in *. rewrite E; cbn [bind]; clear E.
    destruct (IH h low ltac:(lia) ltac:(lia) HL) as (r0 & E & H0). rewrite E; cbn [bind]; clear E.
    destruct (convert_up h (bits_of n) n r0 H0 (nwords_mult _) ltac:(lia)) as [Hr Vr].
    set (r := convert (bits_of h) (bits_of n) r0) in *.
    destruct (mul_ok n r A Hr HA) as (ra & E & Hra & Vra). rewrite E; cbn [bind]; clear E.
    destruct (slice_ok (n + n) n 0 ra Hra ltac:(lia)) as (ra0 & E & Hra0 & Vra0). change (32 * Z.of_nat 0) with 0 in *. rewrite E; cbn [bind]; clear E.
    destruct (of_u32_ok n 2 ltac:(lia) ltac:(lia)) as [H2 V2].
    destruct (sub_val n _ ra0 H2 Hra0) as (Hs & Vs & _). set (s := snd (sub (of_u32 (bits_of n) 2) ra0)) in *.
    destruct (mul_ok n r s Hr Hs) as (p & E & Hp & Vp). rewrite E; cbn [bind]; clear E.
    destruct (convert_ok (n + n) n p Hp) as [Hc Vc]. replace (bits_of (n + n)) with (2 * bits_of n) in * by lia.
    eexists; split; [reflexivity | exact Hc].
Qed.
Lemma mont_state_zero n N : (0 < n)%nat -> bn n N -> val N = 0 -> mont_state n N = Diverge.
Proof.
  intros Hn HN V0. unfold mont_state, inverse. destruct (inverse_total n n N ltac:(lia) Hn HN) as (inv & -> & Hi). cbn [bind].
  assert (NW : nwords (2 * bits_of n + 1) = Z.of_nat (S (n + n))) by (unfold nwords; symmetry; apply Z.div_unique with 0; lia).
  unfold zero_words; rewrite NW, Nat2Z.id.
  destruct (set_bit_ok (S (n + n)) (repeat 0 (S (n + n))) (2 * bits_of n) (bn_repeat0 _) ltac:(lia)) as (Rw & -> & HR & VR). cbn [bind].
  rewrite (naive_reduce_zero n (S (n + n))) by (assumption || lia). reflexivity.
Qed.
(** Every modulus that the container truncates to zero. *)
Theorem parse_der_zero t after rest : good_frame t -> 0 <= t_n t -> t_n t mod 2 ^ 4096 = 0 -> 17 <= t_e t < 2 ^ 4096 ->
  zlen (tlv 48 (tlv 48 (tbs_content t) ++ after) ++ rest) < 2 ^ 64 ->
  parse_der (tlv 48 (tlv 48 (tbs_content t) ++ after) ++ rest) = Diverge.
Proof.
  intros G N0 NZ He HL. change (2 ^ 4096) with (2 ^ Wbits) in NZ, He.
  destruct (parse_der_frame t after rest G HL) as (ser & ni & ns & r & S6 & -> & _). set (n := t_n t) in *. set (e := t_e t) in *.
  unfold spki_content in *. rewrite zlen_app in S6. pose proof (tlv_length 3 (0 :: rsa_key_der n e)) as L1. rewrite zlen_cons in L1. nn.
  unfold parse_pubkey. rewrite view_of_cur. unfold rsaEncryption. rewrite read_tlv by reflexivity. cbn [bind]. change (negb (48 =? id_sequence)) with false. cbv iota.
  rewrite view_of_cur, read_tlv by reflexivity. cbn [bind s_data]. change (negb (6 =? id_object)) with false. cbv iota.
  change (negb (list_eqb _ oid_rsaEncryption)) with false. cbv iota. rewrite read_last by (rewrite zlen_cons; lia). cbn [bind drop1 s_data s_rest].
  unfold rsa_key_der in *. pose proof (tlv_length 48 (integer n ++ integer e)) as M1. rewrite zlen_app in M1.
  pose proof (tlv_length 2 (int_content n)) as M2. pose proof (tlv_length 2 (int_content e)) as M3. fold (integer n) in M2. fold (integer e) in M3. nn.
  unfold parse_rsa_pubkey. rewrite view_of_cur, read_last by (rewrite zlen_app; lia). cbn [bind]. rewrite view_of_cur.
  destruct (parse_bignum_ok W n [] (integer e) r ltac:(lia) ltac:(lia)) as (N & -> & BN & VN). cbn [bind].
  rewrite <- (app_nil_r (integer e)). cbn [app]. destruct (parse_bignum_ok W e (integer n) [] r ltac:(lia) ltac:(lia)) as (E & -> & BE & VE). cbn [bind].
  fold Wbits in VN, VE. rewrite NZ in VN. rewrite Z.mod_small in VE by lia. rewrite lt17 by exact BE. rewrite VE. destruct (Z.ltb_spec e 17); [lia|].
  unfold rsa_public_key. rewrite mont_state_zero by (assumption || (unfold W; lia)). reflexivity.
Qed.
