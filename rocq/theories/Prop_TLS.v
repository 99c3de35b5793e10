(** Properties C107 and C108: TLS 1.3 records, and a channel from two X25519 keys. *)
From Coq Require Import String.
From Verif Require Import Base BaseP S_Hash M_Hash P_Hash S_HKDF M_HKDF P_HKDF M_AES S_AES P_AES M_GCM S_GCM P_Ghash P_GHM P_GCM Prop_GCM Prop_HKDF.
From Verif Require Import S_X25519 M_X25519 Prop_X25519 Prop_DH.
Open Scope Z_scope.
Open Scope list_scope.

(** RFC 8446, 5.3: the record sequence number in network byte order, padded to the left with zeros to the
    length of the IV, xored with the IV. *)
Definition nonce (iv : list Z) (seqnum : Z) : list Z := xorl (repeat 0 (length iv - 8) ++ be_bytes 8 seqnum) iv.
(** 5.2: the records of a sender, each text sealed with the associated data that goes with it. *)
Fixpoint records (E : list Z -> list Z) (iv : list Z) (n : Z) (ms : list message) : list (list Z * list Z) :=
  match ms with [] => [] | (P, A) :: t => GCM_AE E (nonce iv n) P A :: records E iv (n + 1) t end.

Lemma nonce_length iv n : length iv = 12%nat -> length (nonce iv n) = 12%nat.
Proof. intros L. unfold nonce. rewrite xorl_length, app_length, repeat_length, be_bytes_length, L. reflexivity. Qed.
Lemma nonce_bytes iv n : length iv = 12%nat -> bytes iv -> bytes (nonce iv n).
Proof. intros L B. unfold nonce. apply bytes_xorl; [apply bytes_app; split; [apply bytes_repeat0 | apply be_bytes_bytes] | exact B]. Qed.
Lemma with_counter_nonce H iv n : length iv = 12%nat -> with_counter (iv ++ [0; 0; 0; 1]) n = J0 H (nonce iv n).
Proof.
  intros L. unfold J0. replace (zlen (nonce iv n) =? 12) with true by (symmetry; apply Z.eqb_eq; unfold zlen; rewrite nonce_length by exact L; reflexivity).
  unfold with_counter, nonce. pose proof (be_bytes_length 8 n) as Lb. rewrite L. set (b := be_bytes 8 n) in *. clearbody b.
  do 12 (destruct iv as [|? iv]; [discriminate L|]). destruct iv; [|discriminate L]. do 8 (destruct b as [|? b]; [discriminate Lb|]). destruct b; [|discriminate Lb].
  unfold xorl. cbn [Nat.sub repeat app firstn skipn map2 Z.lxor]. repeat (f_equal; try apply Z.lxor_comm).
Qed.
Lemma init12 E iv : length iv = 12%nat -> bytes iv -> exists g, gcm_init E iv = Ok g /\ usable E g /\ g_iv g = iv /\ g_count g = 0.
Proof.
  intros L B. unfold gcm_init. assert (zlen iv = 12) as Z by (unfold zlen; lia). rewrite Z. eexists. split; [reflexivity|]. split; [|split; reflexivity].
  split; [reflexivity|]. cbn [g_iv g_count]. split; [left; exact Z|]. split; [exact B | lia].
Qed.
Lemma mblock_nonce H g : length (g_iv g) = 12%nat -> mblock g = J0 H (nonce (g_iv g) (g_count g)).
Proof.
  intros L. unfold mblock, J, last_bytes. assert (zlen (g_iv g) = 12) as Z by (unfold zlen; lia). rewrite Z. cbn [Z.eqb Pos.eqb]. rewrite firstn_all2 by lia. apply with_counter_nonce, L.
Qed.
Lemma encrypt_record E g P A : cipher E -> usable E g -> length (g_iv g) = 12%nat -> message_ok (P, A) ->
  exists u, Encrypt E g P A = Ok (fst (GCM_AE E (nonce (g_iv g) (g_count g)) P A), snd (GCM_AE E (nonce (g_iv g) (g_count g)) P A), next g, u).
Proof.
  intros HE U L (BP & BA & LP & LA). pose proof (Encrypt_ok E g P A HE U BP BA LP LA) as En. cbv zeta in En. rewrite (mblock_nonce (be_val (E (repeat 0 16))) g L) in En. eexists. exact En.
Qed.
Lemma send_records E : cipher E -> forall ms g, usable E g -> length (g_iv g) = 12%nat -> Forall message_ok ms -> g_count g + Z.of_nat (length ms) <= 2 ^ 64 ->
  send_all E g ms = Ok (records E (g_iv g) (g_count g) ms).
Proof.
  intros HE. induction ms as [|[P A] t IH]; intros g U L F HN; [reflexivity|]. inversion_clear F as [|? ? Hm Ht]. cbn [send_all records length] in *.
  destruct (encrypt_record E g P A HE U L Hm) as (u & ->). cbn [bind]. pose proof U as (_ & _ & _ & UC).
  destruct t as [|m' t']; [cbn [send_all bind records]; destruct (GCM_AE E _ P A); reflexivity|].
  assert (C1 : g_count (next g) = g_count g + 1) by (cbn [next g_count]; apply w64_small; cbn [length] in HN; lia).
  rewrite (IH (next g) (next_usable E g U) L Ht ltac:(rewrite C1; lia)). cbn [bind]. rewrite C1. cbn [next g_iv]. destruct (GCM_AE E _ P A); reflexivity.
Qed.
Lemma AE_ext E F iv P A : (forall b, block b -> E b = F b) -> length iv = 12%nat -> bytes iv -> GCM_AE E iv P A = GCM_AE F iv P A.
Proof.
  intros X L B. assert (Z0 : block (repeat 0 16)) by (split; [reflexivity | apply bytes_repeat; unfold byte; lia]).
  assert (BJ : forall H, block (J0 H iv)) by (intros H; unfold J0; assert (zlen iv = 12) as -> by (unfold zlen; lia); cbn [Z.eqb Pos.eqb]; split; [rewrite app_length, L; reflexivity | apply bytes_app; split; [exact B | apply bytesb_iff; reflexivity]]).
  unfold GCM_AE, seal_from, GCTR. rewrite (X _ Z0). rewrite !(gctr_ext _ _ X) by (try apply inc32_block; apply BJ). reflexivity.
Qed.
Lemma records_ext E F iv : (forall b, block b -> E b = F b) -> length iv = 12%nat -> bytes iv -> forall ms n, records E iv n ms = records F iv n ms.
Proof. intros X L B. induction ms as [|[P A] t IH]; intros n; [reflexivity|]. cbn [records]. rewrite (AE_ext E F) by first [exact X | apply nonce_length, L | apply nonce_bytes; assumption]. rewrite IH. reflexivity. Qed.

(** ** C107: an object with a 12 byte IV seals records *)
(** After any calls, the next message is the record of RFC 8446 with as many records before it. *)
Theorem C107_sealed : forall key rks iv cs P A, aes_schedule key rks -> length iv = 12%nat -> bytes iv -> Forall call_ok cs -> Z.of_nat (length cs) < 2 ^ 64 -> message_ok (P, A) ->
  exists g g' us C T g'' u, gcm_init (AesEncrypt rks) iv = Ok g /\ run_calls (AesEncrypt rks) g cs = Ok (g', us) /\
    Encrypt (AesEncrypt rks) g' P A = Ok (C, T, g'', u) /\ (C, T) = GCM_AE (AES key) (nonce iv (Z.of_nat (length cs))) P A.
Proof.
  intros key rks iv cs P A HS L B F HN HM. pose proof (blockfun_cipher _ (aes_blockfun key rks HS)) as HE. destruct (init12 (AesEncrypt rks) iv L B) as (g & Eg & U & Iv & C0).
  pose proof (run_ok _ HE cs g U F) as Rn. destruct (nexts_ok _ (length cs) g U) as (U2 & I2 & C2). set (g' := nexts (length cs) g) in *.
  destruct (encrypt_record _ g' P A HE U2 ltac:(rewrite I2, Iv; exact L) HM) as (u & En). rewrite I2, Iv, C2, C0, Z.add_0_l, w64_small in En by lia.
  rewrite (AE_ext _ (AES key)) in En by first [intros b Bb; apply (aes_ok key rks HS b Bb) | apply nonce_length, L | apply nonce_bytes; assumption].
  destruct (GCM_AE (AES key) (nonce iv (Z.of_nat (length cs))) P A) as [C T] eqn:EQ. cbn [fst snd] in En.
  exists g, g'. eexists. exists C, T, (next g'), u. split; [exact Eg|]. split; [exact Rn|]. split; [exact En | reflexivity].
Qed.
(** And the next Decrypt says valid exactly for the record with that number. *)
Theorem C107_opened : forall key rks iv cs C A T, aes_schedule key rks -> length iv = 12%nat -> bytes iv -> Forall call_ok cs -> Z.of_nat (length cs) < 2 ^ 64 -> message_ok (C, A) ->
  exists g g' us P valid g'' u, gcm_init (AesEncrypt rks) iv = Ok g /\ run_calls (AesEncrypt rks) g cs = Ok (g', us) /\
    Decrypt (AesEncrypt rks) g' C A T = Ok (P, valid, g'', u) /\ (valid = true <-> (C, T) = GCM_AE (AES key) (nonce iv (Z.of_nat (length cs))) P A).
Proof.
  intros key rks iv cs C A T HS L B F HN (BC & BA & LC & LA). cbn [fst snd] in *. pose proof (blockfun_cipher _ (aes_blockfun key rks HS)) as HE.
  assert (HI : iv_ok iv) by (split; [exact B | right; unfold zlen; lia]).
  destruct (C30_exact_tag (AesEncrypt rks) iv cs C A T (aes_blockfun key rks HS) HI F BC BA LC LA) as (g & g' & us & P & v & g'' & u & E1 & E2 & E3 & E4 & E5). cbv zeta in E4, E5.
  exists g, g', us, P, v, g'', u. split; [exact E1|]. split; [exact E2|]. split; [exact E3|]. rewrite E5.
  assert (M : message_block (AesEncrypt rks) iv (Z.of_nat (length cs) mod 2 ^ 64) = J0 (be_val (AesEncrypt rks (repeat 0 16))) (nonce iv (Z.of_nat (length cs)))).
  { rewrite Z.mod_small by lia. rewrite <- with_counter_nonce by exact L. unfold message_block, with_counter, J0. assert (zlen iv = 12) as -> by (unfold zlen; lia). reflexivity. }
  rewrite M in E4 |- *. rewrite <- (AE_ext (AesEncrypt rks) (AES key)) by first [intros b Bb; apply (aes_ok key rks HS b Bb) | apply nonce_length, L | apply nonce_bytes; assumption].
  unfold GCM_AE, seal_from. assert (BJ : block (inc32 (J0 (be_val (AesEncrypt rks (repeat 0 16))) (nonce iv (Z.of_nat (length cs)))))).
  { apply inc32_block. unfold J0. rewrite (proj2 (Z.eqb_eq _ _)) by (unfold zlen; rewrite nonce_length by exact L; reflexivity). split; [rewrite app_length, nonce_length by exact L; reflexivity | apply bytes_app; split; [apply nonce_bytes; assumption | apply bytesb_iff; reflexivity]]. }
  assert (CC : GCTR (AesEncrypt rks) (inc32 (J0 (be_val (AesEncrypt rks (repeat 0 16))) (nonce iv (Z.of_nat (length cs))))) P = C) by (rewrite E4; apply gctr_twice; [exact HE | exact BJ]).
  rewrite CC. unfold spec_tag. split; [intros -> ; reflexivity | intros Q; injection Q as Q; exact Q].
Qed.
Print Assumptions C107_sealed.
Print Assumptions C107_opened.

(** ** C108: a channel *)
(** What the two sides call: the handshake secret of the X25519 output, for application data the master
    secret, and the key and IV of one direction ([g] are the uninitialised buffers of the hash objects). *)
Definition derive (a : alg) (g : nat -> supply) (ks : Z) (shared th : list Z) (client hs : bool) : res (list Z * list Z) :=
  do s <- HKDF_HandshakeSecret a (g 0%nat) shared;
  if hs then get_key_iv a (g 1%nat) ks 12 s th client true
  else do m <- HKDF_MasterSecret a (g 2%nat) s; get_key_iv a (g 1%nat) ks 12 m th client false.
(** RFC 8446, 7.1 and 7.3, for the hash H with block size B and output size N. *)
Definition rfc_secret (a : alg) (shared th : list Z) (client hs : bool) : list Z :=
  let H := spec_hash a in let B := spec_block a in let N := spec_size a in
  let s := handshake_secret H B N shared in
  traffic_secret H B N (if hs then s else master_secret H B N s) th client hs.
Definition rfc_key (a : alg) (ks : Z) (shared th : list Z) (client hs : bool) : list Z :=
  traffic_key (spec_hash a) (spec_block a) (spec_size a) (rfc_secret a shared th client hs) ks.
Definition rfc_iv (a : alg) (shared th : list Z) (client hs : bool) : list Z :=
  traffic_iv (spec_hash a) (spec_block a) (spec_size a) (rfc_secret a shared th client hs) 12.
Lemma derive_ok a g ks shared th client hs : a = ASHA256 \/ a = ASHA512 -> (forall k, supply_ok a (g k)) -> ks = 16 \/ ks = 32 -> bytes shared -> zlen shared < 2 ^ 59 -> bytes th -> zlen th <= 255 ->
  derive a g ks shared th client hs = Ok (rfc_key a ks shared th client hs, rfc_iv a shared th client hs) /\
  zlen (rfc_key a ks shared th client hs) = ks /\ bytes (rfc_key a ks shared th client hs) /\ zlen (rfc_iv a shared th client hs) = 12 /\ bytes (rfc_iv a shared th client hs).
Proof.
  intros HA Hg HK BS LS BT LT. assert (HG : good a) by (destruct HA as [-> | ->]; reflexivity). pose proof (spec_size_range a) as SR.
  destruct (C23_schedule_partial a HA (g 0%nat) (Hg 0%nat)) as (S1 & _). destruct (C23_schedule_partial a HA (g 1%nat) (Hg 1%nat)) as (_ & _ & S3 & _). destruct (C23_schedule_partial a HA (g 2%nat) (Hg 2%nat)) as (_ & S2 & _).
  set (s := handshake_secret (spec_hash a) (spec_block a) (spec_size a) shared) in *. assert (Fs : zlen s = spec_size a /\ bytes s) by apply hmac_facts. set (m := master_secret (spec_hash a) (spec_block a) (spec_size a) s) in *. assert (Fm : zlen m = spec_size a /\ bytes m) by apply hmac_facts.
  destruct Fs as [Ls Bs], Fm as [Lm Bm].
  assert (D : derive a g ks shared th client hs = Ok (rfc_key a ks shared th client hs, rfc_iv a shared th client hs)).
  { unfold derive, rfc_key, rfc_iv, rfc_secret. cbv zeta. rewrite (S1 shared BS LS). fold s. cbn [bind]. destruct hs.
    - destruct (S3 s th client true Bs Ls BT LT) as [_ Q]. apply Q; lia.
    - rewrite (S2 s Bs Ls). fold m. cbn [bind]. destruct (S3 m th client false Bm Lm BT LT) as [_ Q]. apply Q; lia. }
  split; [exact D|].
  assert (T : zlen (rfc_secret a shared th client hs) = spec_size a /\ bytes (rfc_secret a shared th client hs)) by (unfold rfc_secret; cbv zeta; fold s; destruct hs; [|fold m]; apply traffic_secret_facts; assumption).
  destruct T as [TL TB]. pose proof (good_block a HG) as GB. assert (N0 : bytes []) by constructor. assert (N1 : zlen (@nil Z) <= 255) by (vm_compute; discriminate). assert (K : zlen (str "key") <= 249) by (vm_compute; discriminate). assert (V : zlen (str "iv") <= 249) by (vm_compute; discriminate).
  destruct (expand_label_facts a (rfc_secret a shared th client hs) (str "key") [] ks HG TB ltac:(lia) (str_bytes _) N0 K N1 ltac:(lia)) as [K1 K2].
  destruct (expand_label_facts a (rfc_secret a shared th client hs) (str "iv") [] 12 HG TB ltac:(lia) (str_bytes _) N0 V N1 ltac:(lia)) as [V1 V2].
  split; [exact K1|]. split; [exact K2|]. split; [exact V1 | exact V2].
Qed.
(** The constructor of GCM for a key of 16 or 32 bytes ([old] is what the buffer for the round keys held). *)
Definition schedule (old key : list Z) : res (list (list Z)) := if zlen key =? 16 then sched128 old key else sched256 key.
Lemma schedule_ok old key : zlen key = 16 \/ zlen key = 32 -> bytes key -> exists rks, schedule old key = Ok rks /\ aes_schedule key rks.
Proof.
  intros [L|L] B; unfold schedule; rewrite L; cbn [Z.eqb Pos.eqb]; unfold zlen in L.
  - destruct (sched128_ok old key ltac:(lia) B) as (r & E & _). exists r. split; [exact E|]. apply (aes128 old); [lia | exact B | exact E].
  - destruct (sched256_ok key ltac:(lia) B) as (r & E & _). exists r. split; [exact E|]. apply aes256; [lia | exact B | exact E].
Qed.
Lemma channel a ks g old shared th client hs ms : a = ASHA256 \/ a = ASHA512 -> ks = 16 \/ ks = 32 -> (forall k, supply_ok a (g k)) -> bytes shared -> zlen shared < 2 ^ 59 -> bytes th -> zlen th <= 255 ->
  Forall message_ok ms -> Z.of_nat (length ms) <= 2 ^ 64 ->
  let wire := records (AES (rfc_key a ks shared th client hs)) (rfc_iv a shared th client hs) 0 ms in
  exists key iv rks o, derive a g ks shared th client hs = Ok (key, iv) /\ schedule old key = Ok rks /\ gcm_init (AesEncrypt rks) iv = Ok o /\
    send_all (AesEncrypt rks) o ms = Ok wire /\ receive_all (AesEncrypt rks) o ms wire = Ok (map (fun m => (fst m, true)) ms).
Proof.
  intros HA HK Hg BS LS BT LT F HN wire. destruct (derive_ok a g ks shared th client hs HA Hg HK BS LS BT LT) as (D & KL & KB & VL & VB).
  set (key := rfc_key a ks shared th client hs) in *. set (iv := rfc_iv a shared th client hs) in *. assert (VL' : length iv = 12%nat) by (unfold zlen in VL; lia).
  destruct (schedule_ok old key ltac:(destruct HK; lia) KB) as (rks & R1 & R2). pose proof (blockfun_cipher _ (aes_blockfun key rks R2)) as HE.
  destruct (init12 (AesEncrypt rks) iv VL' VB) as (o & Eo & U & Iv & C0).
  pose proof (send_records _ HE ms o U ltac:(rewrite Iv; exact VL') F ltac:(rewrite C0; lia)) as SD. rewrite Iv, C0 in SD.
  rewrite (records_ext _ (AES key)) in SD by first [intros b Bb; apply (aes_ok key rks R2 b Bb) | assumption].
  destruct (lockstep _ HE ms o U F) as (w & W1 & _ & W3). rewrite SD in W1. injection W1 as <-.
  exists key, iv, rks, o. split; [exact D|]. split; [exact R1|]. split; [exact Eo|]. split; [exact SD | exact W3].
Qed.
(** Two parties with private keys [ka] and [kb] exchange public keys and derive a direction's key: what one
    seals are the records of TLS 1.3 for the RFC 7748 secret, and the other opens them, all of them. *)
Theorem C108_channel : forall a ks ka kb ga gb olda oldb th client hs ms, a = ASHA256 \/ a = ASHA512 -> ks = 16 \/ ks = 32 ->
  bytes ka -> length ka = 32%nat -> bytes kb -> length kb = 32%nat -> (forall k, supply_ok a (ga k)) -> (forall k, supply_ok a (gb k)) -> bytes th -> zlen th <= 255 ->
  Forall message_ok ms -> Z.of_nat (length ms) <= 2 ^ 64 ->
  exists pa pb s, x25519_bytes ka base_point = Ok pa /\ x25519_bytes kb base_point = Ok pb /\ x25519_bytes ka pb = Ok s /\ x25519_bytes kb pa = Ok s /\
    s = rfc_x25519_bytes ka (rfc_x25519_bytes kb base_point) /\
    let wire := records (AES (rfc_key a ks s th client hs)) (rfc_iv a s th client hs) 0 ms in
    (exists key iv rks o, derive a ga ks s th client hs = Ok (key, iv) /\ schedule olda key = Ok rks /\ gcm_init (AesEncrypt rks) iv = Ok o /\ send_all (AesEncrypt rks) o ms = Ok wire) /\
    (exists key iv rks o, derive a gb ks s th client hs = Ok (key, iv) /\ schedule oldb key = Ok rks /\ gcm_init (AesEncrypt rks) iv = Ok o /\
       receive_all (AesEncrypt rks) o ms wire = Ok (map (fun m => (fst m, true)) ms)).
Proof.
  intros a ks ka kb ga gb olda oldb th client hs ms HA HK Ba La Bb Lb Ga Gb BT LT F HN. destruct C66_case as (B9 & L9 & V9 & _).
  destruct (C66_agreement ka kb base_point Ba Bb B9 La Lb L9) as (pa & pb & s & E1 & E2 & Bs & Ls & E3 & E4).
  exists pa, pb, s. split; [exact E1|]. split; [exact E2|]. split; [exact E3|]. split; [exact E4|]. split.
  - rewrite (C65_x25519_partial kb base_point) in E2 by first [assumption | rewrite V9; reflexivity]. injection E2 as <-.
    destruct (C65_total kb base_point Bb B9 Lb L9) as (r & R1 & R2 & R3 & R4 & _). rewrite (C65_x25519_partial kb base_point) in R1 by first [assumption | rewrite V9; reflexivity]. injection R1 as <-.
    rewrite C65_x25519_partial in E3 by first [assumption | lia]. injection E3 as <-. reflexivity.
  - assert (ZS : zlen s < 2 ^ 59) by (unfold zlen; rewrite Ls; reflexivity). cbv zeta. split.
    + destruct (channel a ks ga olda s th client hs ms HA HK Ga Bs ZS BT LT F HN) as (k & v & r & o & X1 & X2 & X3 & X4 & _). exists k, v, r, o. split; [exact X1|]. split; [exact X2|]. split; [exact X3 | exact X4].
    + destruct (channel a ks gb oldb s th client hs ms HA HK Gb Bs ZS BT LT F HN) as (k & v & r & o & X1 & X2 & X3 & _ & X5). exists k, v, r, o. split; [exact X1|]. split; [exact X2|]. split; [exact X3 | exact X5].
Qed.
Print Assumptions C108_channel.

(** Meeting the hypotheses: the shared secret of RFC 8448, section 3, with some transcript hash. *)
Definition sup0 (a : alg) : nat -> supply := fun _ _ => repeat 0 (buflen a).
Definition shared8448 : list Z := be_bytes 32 0x8bd4054fb55b9d63fdfbacf9f04b9f0d35e6d63f537563efd46272900f89492d.
Definition some_hash : list Z := be_bytes 32 0x860c06edc07858ee8e78f0e7428c58edd6b43f2ca3e6e95f02f063cf0e1cadd8.
Example C108_case : (exists key iv, derive ASHA256 (sup0 ASHA256) 16 shared8448 some_hash false true = Ok (key, iv) /\ zlen key = 16 /\ zlen iv = 12) /\
  (forall k, supply_ok ASHA256 (sup0 ASHA256 k)) /\ bytes some_hash /\ zlen some_hash <= 255 /\ Forall message_ok [([1; 2; 3], [23; 3; 3; 0; 19])].
Proof.
  split.
  { destruct (derive_ok ASHA256 (sup0 ASHA256) 16 shared8448 some_hash false true (or_introl eq_refl) ltac:(intros k j; reflexivity) (or_introl eq_refl) (be_bytes_bytes _ _) eq_refl (be_bytes_bytes _ _) ltac:(vm_compute; discriminate)) as (D & K & _ & V & _).
    eexists _, _. split; [exact D|]. split; [exact K | exact V]. }
  split; [intros k j; reflexivity|]. split; [apply be_bytes_bytes|]. split; [vm_compute; discriminate|].
  constructor; [|constructor]. split; [apply bytesb_iff; reflexivity|]. split; [apply bytesb_iff; reflexivity|]. split; reflexivity.
Qed.
(** The nonces of the first records. *)
Example C107_case : nonce [1; 2; 3; 4; 5; 6; 7; 8; 9; 10; 11; 12] 0 = [1; 2; 3; 4; 5; 6; 7; 8; 9; 10; 11; 12] /\ nonce [1; 2; 3; 4; 5; 6; 7; 8; 9; 10; 11; 12] 257 = [1; 2; 3; 4; 5; 6; 7; 8; 9; 10; 10; 13] /\
  aes_schedule (repeat 7 16) (match sched128 [] (repeat 7 16) with Ok r => r | _ => [] end).
Proof. split; [reflexivity|]. split; [reflexivity|]. apply (aes128 []); [reflexivity | apply bytesb_iff; reflexivity | vm_compute; reflexivity]. Qed.
