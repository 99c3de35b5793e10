(** Property theorems for HMAC, HKDF and the TLS 1.3 key schedule (C19 - C23). *)
From Coq Require Import String.
From Verif Require Import Base BaseP S_Hash M_Hash P_Hash S_HKDF M_HKDF P_HKDF.
Open Scope Z_scope.

(** ** C19: HMAC *)
(** Full statement, for one hash class. *)
Definition hmac_right (a : alg) : Prop := forall g key text,
  supply_ok a g -> bytes key -> bytes text -> zlen key < 2 ^ 59 -> zlen text < 2 ^ 59 ->
  HMAC a g text key = Ok (hmac_alg a key text).

Definition zsup (a : alg) : supply := fun _ => repeat 0 (buflen a).
Lemma zsup_ok a : supply_ok a (zsup a). Proof. intros k; apply repeat_length. Qed.
Definition hmac_differs (a : alg) (key text : list Z) : bool :=
  match HMAC a (zsup a) text key with
  | Ok d => negb (list_eqb d (hmac (mh a) (spec_block a) key text))
  | _ => true
  end.
Lemma hmac_differs_ok a key text : bytes key -> bytes text -> zlen key < 2 ^ 59 -> zlen text < 2 ^ 59 ->
  hmac_differs a key text = true -> ~ hmac_right a.
Proof.
  intros HK HT LK LT HD HR; unfold hmac_differs in HD.
  rewrite (HR _ key text (zsup_ok a) HK HT LK LT) in HD; unfold hmac_alg in HD.
  rewrite hmac_mh in HD by (try assumption; destruct a; cbn; lia).
  rewrite list_eqb_refl in HD; discriminate HD.
Qed.

(** Witnesses: SHA-1 with a two-byte key and SHA-384 with a 48-byte key (twice the digest size
    is not the block size), SHA-256 with a 65-byte key (cut instead of hashed). *)
Definition info_of (a : alg) : list Z := hkdf_label (spec_size a) (str "c hs traffic") [] ++ [1].
Lemma differ1 : hmac_differs ASHA1 [1; 2] [104; 105] = true. Proof. vm_compute; reflexivity. Qed.
Lemma differ256 : hmac_differs ASHA256 (repeat 7 65) [] = true. Proof. vm_compute; reflexivity. Qed.
Lemma differ384 : hmac_differs ASHA384 (repeat 9 48) (info_of ASHA384) = true. Proof. vm_compute; reflexivity. Qed.
Lemma bytesb_ok l : forallb (fun b => (0 <=? b) && (b <? 256)) l = true -> bytes l.
Proof.
  intros H; rewrite forallb_forall in H; apply Forall_forall; intros b Hb; specialize (H b Hb).
  apply andb_true_iff in H; unfold byte; lia.
Qed.
Theorem C19_hmac_refuted : ~ hmac_right ASHA1 /\ ~ hmac_right ASHA256 /\ ~ hmac_right ASHA384.
Proof.
  split; [|split].
  - refine (hmac_differs_ok ASHA1 [1; 2] [104; 105] _ _ _ _ differ1); try reflexivity; apply bytesb_ok; reflexivity.
  - refine (hmac_differs_ok ASHA256 (repeat 7 65) [] _ _ _ _ differ256); try reflexivity; apply bytesb_ok; reflexivity.
  - refine (hmac_differs_ok ASHA384 (repeat 9 48) (info_of ASHA384) _ _ _ _ differ384); try reflexivity; apply bytesb_ok; reflexivity.
Qed.
Print Assumptions C19_hmac_refuted.

(** Partial: SHA-256 and SHA-512 with keys of at most one block. *)
Theorem C19_hmac_partial : forall a g key text, a = ASHA256 \/ a = ASHA512 ->
  supply_ok a g -> bytes key -> bytes text -> zlen key <= spec_block a -> zlen text < 2 ^ 60 ->
  HMAC a g text key = Ok (hmac_alg a key text).
Proof.
  intros a g key text HA Hg HK HT LK LT; rewrite HMAC_ok by assumption; f_equal.
  apply mac_code_rfc; [destruct HA as [-> | ->]; reflexivity | exact LK].
Qed.
Print Assumptions C19_hmac_partial.

(** What the code computes for every class: RFC 2104 with block size 2 * hashsize on the
    key cut to that size. *)
Theorem C19_hmac_as_coded : forall a g key text, supply_ok a g -> bytes key -> bytes text -> zlen text < 2 ^ 60 ->
  HMAC a g text key = Ok (hmac (spec_hash a) (2 * spec_size a) (firstn (Z.to_nat (2 * spec_size a)) key) text).
Proof.
  intros a g key text Hg HK HT LT; rewrite HMAC_ok by assumption; f_equal; unfold mac_code, hmac.
  pose proof (spec_size_range a) as SR; set (B := 2 * spec_size a) in *.
  replace (spec_size a * 2) with B by lia.
  destruct (Z.ltb_spec B (zlen (firstn (Z.to_nat B) key))) as [C|C].
  - unfold zlen in C; rewrite firstn_length in C; lia.
  - unfold resize; replace (Z.to_nat B - length key)%nat with (Z.to_nat (B - zlen (firstn (Z.to_nat B) key)));
      [reflexivity|]. unfold zlen; rewrite firstn_length; lia.
Qed.
Print Assumptions C19_hmac_as_coded.

(** Consequence: keys that agree on the first 2 * hashsize bytes authenticate each other's
    messages. *)
Theorem C19_long_keys_collide : forall a g1 g2 k1 k2 text, supply_ok a g1 -> supply_ok a g2 ->
  bytes k1 -> bytes k2 -> bytes text -> zlen text < 2 ^ 60 ->
  spec_size a * 2 <= zlen k1 -> spec_size a * 2 <= zlen k2 ->
  firstn (Z.to_nat (spec_size a * 2)) k1 = firstn (Z.to_nat (spec_size a * 2)) k2 ->
  HMAC a g1 text k1 = HMAC a g2 text k2.
Proof. intros; rewrite !HMAC_ok by assumption; f_equal; apply mac_code_truncates; assumption. Qed.
Print Assumptions C19_long_keys_collide.

(** RFC 4231 test case 1 (20-byte key, "Hi There"). *)
Example C19_case : HMAC ASHA256 (zsup ASHA256) (str "Hi There") (repeat 0x0b 20)
  = Ok [0xb0; 0x34; 0x4c; 0x61; 0xd8; 0xdb; 0x38; 0x53; 0x5c; 0xa8; 0xaf; 0xce; 0xaf; 0x0b; 0xf1; 0x2b;
        0x88; 0x1d; 0xc2; 0x00; 0xc9; 0x83; 0x3d; 0xa7; 0x26; 0xe9; 0x37; 0x6c; 0x2e; 0x32; 0xcf; 0xf7].
Proof. vm_compute; reflexivity. Qed.

(** ** C20: HKDF-Expand *)
(** Length, for every class and every request. *)
Theorem C20_expand_length : forall a g prk info len, supply_ok a g -> bytes prk -> bytes info ->
  zlen info < 2 ^ 59 -> 0 <= len < 2 ^ 60 ->
  exists okm, HKDF_Expand a g prk info len = Ok okm /\ zlen okm = len /\ bytes okm.
Proof. exact expand_length. Qed.
Print Assumptions C20_expand_length.

(** Shorter outputs are prefixes of longer ones. *)
Theorem C20_expand_prefix : forall a g1 g2 prk info l1 l2, supply_ok a g1 -> supply_ok a g2 -> bytes prk -> bytes info ->
  zlen info < 2 ^ 59 -> 0 <= l1 <= l2 -> l2 < 2 ^ 60 ->
  exists o1 o2, HKDF_Expand a g1 prk info l1 = Ok o1 /\ HKDF_Expand a g2 prk info l2 = Ok o2 /\ o1 = firstn (Z.to_nat l1) o2.
Proof. exact expand_prefix. Qed.
Print Assumptions C20_expand_prefix.

(** RFC 5869, for every class, relative to the MAC of C19_hmac_as_coded ... *)
Theorem C20_expand_is_rfc5869_over_its_mac : forall a g prk info len, supply_ok a g -> bytes prk -> bytes info ->
  zlen info < 2 ^ 59 -> 0 <= len <= 255 * spec_size a ->
  HKDF_Expand a g prk info len
  = Ok (hkdf_expand (fun key => hmac (spec_hash a) (2 * spec_size a) (firstn (Z.to_nat (2 * spec_size a)) key))
          (spec_size a) prk info len).
Proof.
  intros a g prk info len Hg HP HI LI HL; apply expand_rfc; try assumption.
  intros text; unfold mac_code, hmac.
  pose proof (spec_size_range a) as SR; set (B := 2 * spec_size a) in *.
  replace (spec_size a * 2) with B by lia.
  destruct (Z.ltb_spec B (zlen (firstn (Z.to_nat B) prk))) as [C|C].
  - unfold zlen in C; rewrite firstn_length in C; lia.
  - unfold resize; replace (Z.to_nat B - length prk)%nat with (Z.to_nat (B - zlen (firstn (Z.to_nat B) prk)));
      [reflexivity|]. unfold zlen; rewrite firstn_length; lia.
Qed.
Print Assumptions C20_expand_is_rfc5869_over_its_mac.

(** ... and outright for SHA-256 and SHA-512 (PRK of at most one block). *)
Theorem C20_expand_is_rfc5869 : forall a g prk info len, a = ASHA256 \/ a = ASHA512 ->
  supply_ok a g -> bytes prk -> bytes info -> zlen prk <= spec_block a ->
  zlen info < 2 ^ 59 -> 0 <= len <= 255 * spec_size a ->
  HKDF_Expand a g prk info len = Ok (hkdf_expand (hmac_alg a) (spec_size a) prk info len).
Proof.
  intros a g prk info len HA Hg HP HI LP LI HL; apply expand_rfc; try assumption.
  intros text; symmetry; apply mac_code_rfc; [destruct HA as [-> | ->]; reflexivity | exact LP].
Qed.
Print Assumptions C20_expand_is_rfc5869.

Example C20_case : supply_ok ASHA256 (zsup ASHA256) /\ bytes (repeat 7 32) /\ zlen (repeat 7 32) <= spec_block ASHA256
  /\ 0 <= 42 <= 255 * spec_size ASHA256 /\ Nblocks ASHA256 42 = 2%nat.
Proof.
  refine (conj (zsup_ok _) (conj _ _)); [apply bytesb_ok; reflexivity|].
  repeat split; vm_compute; discriminate || reflexivity.
Qed.

(** ** C21: over-long requests *)
(** Full statement: a request beyond 255 * HashLen is refused.  False for every class, PRK
    and info: the request succeeds. *)
Theorem C21_overlong_refuted : forall a, exists g prk info len,
  supply_ok a g /\ bytes prk /\ bytes info /\ 255 * spec_size a < len /\
  exists okm, HKDF_Expand a g prk info len = Ok okm /\ zlen okm = len.
Proof.
  intros a; exists (zsup a), [1], [], (255 * spec_size a + 1); pose proof (spec_size_range a).
  destruct (expand_length a (zsup a) [1] [] (255 * spec_size a + 1) (zsup_ok a)) as (okm & E & L & _);
    try (repeat constructor; unfold byte; lia); try reflexivity; try lia.
  repeat split; try (repeat constructor; unfold byte; lia); try apply zsup_ok; try lia; eauto.
Qed.
Print Assumptions C21_overlong_refuted.

(** What happens instead: block i is keyed with the counter byte i mod 256, so block 256
    uses counter 0 and block 257 repeats counter 1. *)
Theorem C21_counter_wraps : forall a g prk info len, supply_ok a g -> bytes prk -> bytes info ->
  zlen info < 2 ^ 59 -> 0 <= len < 2 ^ 60 ->
  exists blocks : nat -> list Z,
    blocks 0%nat = [] /\
    (forall i, blocks (S i) = hmac (spec_hash a) (2 * spec_size a) (firstn (Z.to_nat (2 * spec_size a)) prk)
                                (blocks i ++ info ++ [Z.of_nat (S i) mod 256])) /\
    HKDF_Expand a g prk info len
    = Ok (firstn (Z.to_nat len) (flat_map blocks (seq 1 (Z.to_nat ((len + spec_size a - 1) / spec_size a))))).
Proof.
  intros a g prk info len Hg HP HI LI HL; exists (Tw a prk info); split; [reflexivity|]; split.
  - intros i; cbn [Tw].
    assert (Bt : bytes (Tw a prk info i ++ info ++ [Z.of_nat (S i) mod 256])).
    { apply Forall_app_intro; [apply Tw_bytes|]; apply Forall_app_intro; [exact HI|].
      constructor; [|constructor]; apply Z.mod_pos_bound; lia. }
    assert (Lt : zlen (Tw a prk info i ++ info ++ [Z.of_nat (S i) mod 256]) < 2 ^ 60).
    { rewrite !zlen_app; change (zlen [Z.of_nat (S i) mod 256]) with 1; pose proof (spec_size_range a).
      destruct i; [cbn [Tw]; change (zlen (@nil Z)) with 0; lia|]; rewrite Tw_length; lia. }
    pose proof (C19_hmac_as_coded a (zsup a) prk _ (zsup_ok a) HP Bt Lt) as E.
    rewrite (HMAC_ok a (zsup a) _ prk (zsup_ok a) Bt HP Lt) in E; injection E as E; exact E.
  - apply expand_code_ok; assumption.
Qed.
Print Assumptions C21_counter_wraps.

(** ** C22: labels *)
Theorem C22_label_encoding : forall len label context,
  0 <= len < 65536 -> zlen label <= 249 -> zlen context <= 255 ->
  label_info len label context = hkdf_label len label context.
Proof. exact label_info_spec. Qed.
Print Assumptions C22_label_encoding.

Theorem C22_label_injective : forall n1 l1 c1 n2 l2 c2,
  0 <= n1 < 65536 -> zlen l1 <= 249 -> zlen c1 <= 255 ->
  0 <= n2 < 65536 -> zlen l2 <= 249 -> zlen c2 <= 255 ->
  label_info n1 l1 c1 = label_info n2 l2 c2 -> n1 = n2 /\ l1 = l2 /\ c1 = c2.
Proof.
  intros n1 l1 c1 n2 l2 c2 ? ? ? ? ? ? H; rewrite !label_info_spec in H by assumption.
  apply hkdf_label_inj; assumption.
Qed.
Print Assumptions C22_label_injective.

Example C22_case : label_info 16 (str "key") [] = [0; 16; 9; 116; 108; 115; 49; 51; 32; 107; 101; 121; 0].
Proof. vm_compute; reflexivity. Qed.

(** Beyond the limits nothing is refused and different triples collide: a 300-byte label
    with empty context and a shorter label with the rest as context. *)
Theorem C22_beyond_limits_refuted : exists len l1 c1 l2 c2,
  0 <= len < 65536 /\ bytes l1 /\ bytes c1 /\ bytes l2 /\ bytes c2 /\ (l1, c1) <> (l2, c2) /\
  label_info len l1 c1 = label_info len l2 c2.
Proof.
  (* both: length byte 0x08 (264 and 8), then the same bytes *)
  exists 16, (repeat 97 2 ++ [0] ++ repeat 0 255), [], (repeat 97 2), (repeat 0 256).
  repeat split; try lia; try (repeat constructor; unfold byte; lia); try discriminate.
Qed.
Print Assumptions C22_beyond_limits_refuted.

(** ** C23: the TLS 1.3 key schedule *)
(** Full statement, for one hash class: every secret is the one of RFC 8446. *)
Definition schedule_right (a : alg) : Prop := forall g, supply_ok a g ->
  (forall shared, bytes shared -> zlen shared < 2 ^ 59 ->
     HKDF_HandshakeSecret a g shared = Ok (handshake_secret (spec_hash a) (spec_block a) (spec_size a) shared)) /\
  (forall s, bytes s -> zlen s = spec_size a ->
     HKDF_MasterSecret a g s = Ok (master_secret (spec_hash a) (spec_block a) (spec_size a) s)) /\
  (forall s th client hs, bytes s -> zlen s = spec_size a -> bytes th -> zlen th <= 255 ->
     let ts := traffic_secret (spec_hash a) (spec_block a) (spec_size a) s th client hs in
     get_traffic_secret a g s th client hs = Ok ts /\
     (forall ks vs, 0 <= ks <= 255 * spec_size a -> 0 <= vs <= 255 * spec_size a ->
        get_key_iv a g ks vs s th client hs
        = Ok (traffic_key (spec_hash a) (spec_block a) (spec_size a) ts ks,
              traffic_iv (spec_hash a) (spec_block a) (spec_size a) ts vs))) /\
  (forall s th client, bytes s -> zlen s = spec_size a -> bytes th -> zlen th <= 255 ->
     get_finished_key a g s th client
     = Ok (finished_key (spec_hash a) (spec_block a) (spec_size a)
             (traffic_secret (spec_hash a) (spec_block a) (spec_size a) s th client true))).

(** Partial: SHA-256 (TLS_AES_128_GCM_SHA256, TLS_CHACHA20_POLY1305_SHA256) and SHA-512. *)
Theorem C23_schedule_partial : forall a, a = ASHA256 \/ a = ASHA512 -> schedule_right a.
Proof.
  intros a HA g Hg; assert (HG : good a) by (destruct HA as [-> | ->]; reflexivity).
  split; [|split; [|split]].
  - intros shared HS LS; apply handshake_ok; try assumption; lia.
  - intros s HS LS; apply master_ok; assumption.
  - intros s th client hs HS LS HT LT ts; split; [apply traffic_secret_ok; assumption|].
    intros ks vs HK HV; apply key_iv_ok; assumption.
  - intros s th client HS LS HT LT; apply finished_ok; assumption.
Qed.
Print Assumptions C23_schedule_partial.

Lemma Ok_inj {A} (x y : A) : Ok x = Ok y -> x = y. Proof. intros H; injection H as ->; reflexivity. Qed.
Lemma info_of_facts a : bytes (info_of a) /\ zlen (info_of a) < 2 ^ 59 /\
  bytes (hkdf_label (spec_size a) (str "c hs traffic") []) /\ zlen (hkdf_label (spec_size a) (str "c hs traffic") []) < 2 ^ 59.
Proof.
  assert (B : bytes (hkdf_label (spec_size a) (str "c hs traffic") [])).
  { apply hkdf_label_bytes; auto using str_bytes, bytes_nil; vm_compute; discriminate. }
  assert (L : zlen (info_of a) = 23) by (destruct a; reflexivity).
  assert (L2 : zlen (hkdf_label (spec_size a) (str "c hs traffic") []) = 22) by (destruct a; reflexivity).
  rewrite L, L2; repeat split; try assumption; try lia.
  apply Forall_app_intro; [exact B|]; constructor; [unfold byte; lia | constructor].
Qed.
(** A correct schedule would give a correct HMAC on this text. *)
Lemma schedule_no_diff a s : schedule_right a -> bytes s -> zlen s = spec_size a -> hmac_differs a s (info_of a) = false.
Proof.
  intros H HS LS; destruct (H (zsup a) (zsup_ok a)) as (_ & _ & HT & _); clear H.
  pose proof (spec_size_range a) as SR; destruct (info_of_facts a) as (IB & IL & JB & JL).
  destruct (HT s [] true true HS LS bytes_nil ltac:(vm_compute; discriminate)) as [E _]; clear HT.
  unfold get_traffic_secret, traffic_secret, derive_secret, expand_label, HKDF_Expand_Label, traffic_label in E.
  assert (C : zlen (str "c hs traffic") <= 249) by (vm_compute; discriminate).
  assert (N : zlen (@nil Z) <= 255) by (vm_compute; discriminate).
  rewrite LS, label_info_spec in E by (assumption || lia).
  rewrite C20_expand_is_rfc5869_over_its_mac in E by (try apply zsup_ok; try assumption; lia).
  rewrite (expand_one (fun key => hmac (spec_hash a) (2 * spec_size a) (firstn (Z.to_nat (2 * spec_size a)) key))) in E
    by (try lia; intros; apply (hmac_facts a)).
  rewrite expand_one in E by (try lia; intros; apply (hmac_facts a)).
  fold (info_of a) in E; apply Ok_inj in E; cbv beta in E.
  unfold hmac_differs; rewrite C19_hmac_as_coded by (try apply zsup_ok; try assumption; lia).
  rewrite E, hmac_mh by (try assumption; try lia; destruct a; cbn [spec_block]; lia).
  rewrite list_eqb_refl; reflexivity.
Qed.
(** SHA-384 (TLS_AES_256_GCM_SHA384): traffic secrets are wrong, through HMAC's block size. *)
Theorem C23_sha384_refuted : ~ schedule_right ASHA384.
Proof.
  intros H; apply (schedule_no_diff ASHA384 (repeat 9 48)) in H.
  - rewrite differ384 in H; discriminate H.
  - apply bytesb_ok; reflexivity.
  - reflexivity.
Qed.
Print Assumptions C23_sha384_refuted.

Example C23_case : exists d, HKDF_HandshakeSecret ASHA256 (zsup ASHA256) (repeat 0x8b 32) = Ok d /\ zlen d = 32.
Proof.
  destruct (C23_schedule_partial ASHA256 (or_introl eq_refl) (zsup ASHA256) (zsup_ok ASHA256)) as [H _].
  eexists; split; [apply H|]; [apply bytesb_ok; reflexivity | reflexivity |].
  unfold handshake_secret, hkdf_extract; apply (hmac_facts ASHA256).
Qed.
