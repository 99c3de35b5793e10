(** HMAC and HKDF: the code against the RFCs. *)
From Coq Require Import String.
From Verif Require Import Base BaseP S_MD S_Hash M_Hash P_Hash S_HKDF M_HKDF.
Open Scope Z_scope.

Definition supply_ok (a : alg) (g : supply) : Prop := forall k, length (g k) = buflen a.
Lemma shift_ok a g n : supply_ok a g -> supply_ok a (shift g n).
Proof. intros H k; apply H. Qed.

(** What the code's HMAC computes: the key cut or zero-filled to twice the digest size. *)
Definition mac_code (a : alg) (key text : list Z) : list Z :=
  let k0 := resize key (spec_size a * 2) in
  spec_hash a (map (fun b => Z.lxor b 0x5c) k0 ++ spec_hash a (map (fun b => Z.lxor b 0x36) k0 ++ text)).

Lemma h_size_spec a : h_size a = spec_size a. Proof. destruct a; reflexivity. Qed.
Lemma spec_size_range a : 16 <= spec_size a <= 64. Proof. destruct a; cbn; lia. Qed.

Lemma resize_length l n : 0 <= n -> zlen (resize l n) = n.
Proof.
  intros H; unfold resize, zlen; rewrite app_length, firstn_length, repeat_length; lia.
Qed.
Lemma bytes_repeat0 n : bytes (repeat 0 n).
Proof. apply Forall_forall; intros x Hx; apply repeat_spec in Hx; subst; unfold byte; lia. Qed.
Lemma resize_bytes l n : bytes l -> bytes (resize l n).
Proof. intros H; unfold resize; apply Forall_app_intro; [apply bytes_firstn, H | apply bytes_repeat0]. Qed.
Lemma byte_lxor b c : byte b -> byte c -> byte (Z.lxor b c).
Proof.
  unfold byte; intros Hb Hc; split; [apply Z.lxor_nonneg; lia|].
  destruct (Z.eq_dec (Z.lxor b c) 0) as [->|N]; [lia|].
  assert (0 <= Z.lxor b c) by (apply Z.lxor_nonneg; lia).
  change 256 with (2 ^ 8); apply Z.log2_lt_pow2; [lia|].
  eapply Z.le_lt_trans; [apply Z.log2_lxor; lia|].
  assert (forall x, 0 <= x < 256 -> Z.log2 x < 8).
  { intros x Hx; destruct (Z.eq_dec x 0) as [->|]; [reflexivity|]; apply Z.log2_lt_pow2; lia. }
  apply Z.max_lub_lt; auto.
Qed.
Lemma bytes_xor_const l c : bytes l -> byte c -> bytes (map (fun b => Z.lxor b c) l).
Proof.
  intros H Hc; apply Forall_forall; intros x Hx; apply in_map_iff in Hx; destruct Hx as (b & <- & Hb).
  apply byte_lxor; [|exact Hc]; unfold bytes in H; rewrite Forall_forall in H; auto.
Qed.
Lemma zlen_map {A B} (f : A -> B) l : zlen (map f l) = zlen l.
Proof. unfold zlen; rewrite map_length; reflexivity. Qed.

Lemma HMAC_ok a g text key : supply_ok a g -> bytes text -> bytes key -> zlen text < 2 ^ 60 ->
  HMAC a g text key = Ok (mac_code a key text).
Proof.
  intros Hg HT HK HL; unfold HMAC, mac_code; rewrite h_size_spec.
  pose proof (spec_size_range a) as SR.
  set (k0 := resize key (spec_size a * 2)).
  assert (Hk0 : bytes k0) by (apply resize_bytes; exact HK).
  assert (Lk0 : zlen k0 = spec_size a * 2) by (apply resize_length; lia).
  assert (B36 : byte 0x36) by (unfold byte; lia).
  assert (B5c : byte 0x5c) by (unfold byte; lia).
  rewrite h_hash_ok; [|apply Hg| |].
  - cbn [concat bind]; rewrite app_nil_r; rewrite h_hash_ok; [|apply Hg| |].
    + cbn [concat]; rewrite app_nil_r; reflexivity.
    + constructor; [|constructor]; apply Forall_app_intro; [apply bytes_xor_const; assumption | apply spec_hash_bytes].
    + cbn [concat]; rewrite app_nil_r, zlen_app, zlen_map, spec_hash_length; lia.
  - constructor; [|constructor]; apply Forall_app_intro; [apply bytes_xor_const; assumption | exact HT].
  - cbn [concat]; rewrite app_nil_r, zlen_app, zlen_map; lia.
Qed.

Lemma resize_short l n : zlen l <= n -> resize l n = l ++ repeat 0 (Z.to_nat (n - zlen l)).
Proof.
  intros H; unfold resize, zlen in *; rewrite firstn_all2 by lia; do 2 f_equal; lia.
Qed.

(** The two functions whose block size is twice their digest size. *)
Lemma mac_code_rfc a key text : spec_block a = 2 * spec_size a -> zlen key <= spec_block a ->
  mac_code a key text = hmac_alg a key text.
Proof.
  intros HB HK; unfold mac_code, hmac_alg, hmac.
  destruct (Z.ltb_spec (spec_block a) (zlen key)); [lia|].
  rewrite resize_short by lia.
  replace (spec_size a * 2) with (spec_block a) by lia; reflexivity.
Qed.

(** Keys longer than the block only count with their first bytes. *)
Lemma mac_code_truncates a k1 k2 text : spec_size a * 2 <= zlen k1 -> spec_size a * 2 <= zlen k2 ->
  firstn (Z.to_nat (spec_size a * 2)) k1 = firstn (Z.to_nat (spec_size a * 2)) k2 ->
  mac_code a k1 text = mac_code a k2 text.
Proof.
  intros H1 H2 HE; unfold mac_code.
  assert (E : resize k1 (spec_size a * 2) = resize k2 (spec_size a * 2)).
  { unfold resize; rewrite HE; do 2 f_equal; unfold zlen in *; lia. }
  rewrite E; reflexivity.
Qed.

(** ** Expand *)
(** T(i) with the counter byte the code uses. *)
Fixpoint Tw (a : alg) (prk info : list Z) (i : nat) : list Z :=
  match i with
  | O => []
  | S k => mac_code a prk (Tw a prk info k ++ info ++ [Z.of_nat i mod 256])
  end.
Definition Tcat (a : alg) (prk info : list Z) (n : nat) : list Z := flat_map (Tw a prk info) (seq 1 n).

Lemma Tw_length a prk info i : zlen (Tw a prk info (S i)) = spec_size a.
Proof. cbn [Tw]; unfold mac_code; apply spec_hash_length. Qed.
Lemma Tw_bytes a prk info i : bytes (Tw a prk info i).
Proof. destruct i; cbn [Tw]; [apply bytes_nil | unfold mac_code; apply spec_hash_bytes]. Qed.
Lemma Tcat_S a prk info n : Tcat a prk info (S n) = Tcat a prk info n ++ Tw a prk info (S n).
Proof. unfold Tcat; rewrite seq_S, flat_map_app; cbn [flat_map]; rewrite app_nil_r; reflexivity. Qed.
Lemma Tcat_length a prk info n : zlen (Tcat a prk info n) = Z.of_nat n * spec_size a.
Proof.
  induction n as [|n IH]; [reflexivity|]; rewrite Tcat_S, zlen_app, IH, Tw_length; lia.
Qed.
Lemma Tcat_prefix a prk info n m : (n <= m)%nat -> exists t, Tcat a prk info m = Tcat a prk info n ++ t.
Proof.
  induction 1 as [|m H [t IH]]; [exists []; rewrite app_nil_r; reflexivity|].
  rewrite Tcat_S, IH, <- app_assoc; eexists; reflexivity.
Qed.

Definition Nblocks (a : alg) (len : Z) : nat := Z.to_nat ((len + spec_size a - 1) / spec_size a).

Lemma Nblocks_spec a len : 0 <= len ->
  Z.of_nat (Nblocks a len) * spec_size a >= len /\ (Z.of_nat (Nblocks a len) - 1) * spec_size a < len /\ Z.of_nat (Nblocks a len) <= len.
Proof.
  intros H; pose proof (spec_size_range a) as SR; unfold Nblocks.
  set (s := spec_size a) in *; clearbody s.
  assert (0 <= (len + s - 1) / s) by (apply Z.div_pos; lia).
  rewrite Z2Nat.id by assumption.
  pose proof (Z.div_mod (len + s - 1) s ltac:(lia)); pose proof (Z.mod_pos_bound (len + s - 1) s ltac:(lia)).
  set (q := (len + s - 1) / s) in *; nia.
Qed.

Lemma expand_loop_ok a prk info len : bytes prk -> bytes info -> zlen info < 2 ^ 59 -> 0 <= len < 2 ^ 60 ->
  forall fuel k g, supply_ok a g -> (k <= Nblocks a len)%nat -> (Nblocks a len <= k + fuel)%nat ->
  expand_loop a g fuel prk info len (Tcat a prk info k) (Tw a prk info k) (Z.of_nat k + 1)
  = Ok (Tcat a prk info (Nblocks a len)).
Proof.
  intros HP HI LI HL; pose proof (Nblocks_spec a len ltac:(lia)) as (N1 & N2 & N3).
  pose proof (spec_size_range a) as SR.
  induction fuel as [|fuel IH]; intros k g Hg Hk Hf; cbn [expand_loop]; rewrite Tcat_length.
  - replace k with (Nblocks a len) in * by lia.
    destruct (Z.ltb_spec (Z.of_nat (Nblocks a len) * spec_size a) len); [lia|reflexivity].
  - destruct (Z.ltb_spec (Z.of_nat k * spec_size a) len) as [Lt|Ge].
    + rewrite HMAC_ok; [|exact Hg| |exact HP|].
      * cbn [bind].
        assert (Hw : w8 (Z.of_nat k + 1) = Z.of_nat (S k) mod 256) by (unfold w8; f_equal; lia).
        rewrite Hw; change (mac_code a prk (Tw a prk info k ++ info ++ [Z.of_nat (S k) mod 256])) with (Tw a prk info (S k)).
        rewrite <- Tcat_S.
        replace (w64 (Z.of_nat k + 1 + 1)) with (Z.of_nat (S k) + 1) by (unfold w64; rewrite Z.mod_small by lia; lia).
        assert (S k <= Nblocks a len)%nat by nia.
        apply IH; [apply shift_ok; exact Hg | assumption | lia].
      * apply Forall_app_intro; [apply Tw_bytes|]; apply Forall_app_intro; [exact HI|].
        constructor; [|constructor]; apply Z.mod_pos_bound; lia.
      * rewrite !zlen_app; change (zlen [w8 (Z.of_nat k + 1)]) with 1.
        destruct k; [cbn [Tw]; change (zlen (@nil Z)) with 0; lia|]; rewrite Tw_length; lia.
    + assert (k = Nblocks a len) by nia; subst k; reflexivity.
Qed.

Lemma expand_code_ok a g prk info len : supply_ok a g -> bytes prk -> bytes info -> zlen info < 2 ^ 59 -> 0 <= len < 2 ^ 60 ->
  HKDF_Expand a g prk info len = Ok (firstn (Z.to_nat len) (Tcat a prk info (Nblocks a len))).
Proof.
  intros Hg HP HI LI HL; unfold HKDF_Expand.
  pose proof (Nblocks_spec a len ltac:(lia)) as (N1 & N2 & N3).
  pose proof (expand_loop_ok a prk info len HP HI LI HL (Z.to_nat len) 0 g Hg ltac:(lia) ltac:(lia)) as E.
  change (Tcat a prk info 0) with (@nil Z) in E; cbn [Tw] in E; change (Z.of_nat 0 + 1) with 1 in E.
  rewrite E; cbn [bind].
  f_equal; unfold resize.
  pose proof (Tcat_length a prk info (Nblocks a len)) as TL; unfold zlen in TL.
  replace (Z.to_nat len - length (Tcat a prk info (Nblocks a len)))%nat with 0%nat by lia.
  cbn [repeat]; rewrite app_nil_r; reflexivity.
Qed.

Lemma expand_length a g prk info len : supply_ok a g -> bytes prk -> bytes info -> zlen info < 2 ^ 59 -> 0 <= len < 2 ^ 60 ->
  exists okm, HKDF_Expand a g prk info len = Ok okm /\ zlen okm = len /\ bytes okm.
Proof.
  intros Hg HP HI LI HL; eexists; split; [apply expand_code_ok; assumption|].
  pose proof (Nblocks_spec a len ltac:(lia)) as (N1 & N2 & N3).
  pose proof (Tcat_length a prk info (Nblocks a len)) as TL; split.
  - unfold zlen in *; rewrite firstn_length; lia.
  - apply bytes_firstn; apply Forall_forall; intros x Hx; apply in_flat_map in Hx; destruct Hx as (i & _ & Hi).
    pose proof (Tw_bytes a prk info i) as B; unfold bytes in B; rewrite Forall_forall in B; auto.
Qed.

Lemma firstn_prefix {A} n (l t : list A) : (n <= length l)%nat -> firstn n (l ++ t) = firstn n l.
Proof. intros H; rewrite firstn_app; replace (n - length l)%nat with 0%nat by lia; cbn [firstn]; apply app_nil_r. Qed.

Lemma expand_prefix a g1 g2 prk info l1 l2 : supply_ok a g1 -> supply_ok a g2 -> bytes prk -> bytes info -> zlen info < 2 ^ 59 ->
  0 <= l1 <= l2 -> l2 < 2 ^ 60 ->
  exists o1 o2, HKDF_Expand a g1 prk info l1 = Ok o1 /\ HKDF_Expand a g2 prk info l2 = Ok o2 /\ o1 = firstn (Z.to_nat l1) o2.
Proof.
  intros Hg1 Hg2 HP HI LI H12 H2; do 2 eexists.
  split; [apply expand_code_ok; try assumption; lia|]; split; [apply expand_code_ok; try assumption; lia|].
  pose proof (Nblocks_spec a l1 ltac:(lia)) as (N1 & _ & _).
  pose proof (Tcat_length a prk info (Nblocks a l1)) as TL; unfold zlen in TL.
  rewrite firstn_firstn; replace (Init.Nat.min (Z.to_nat l1) (Z.to_nat l2)) with (Z.to_nat l1) by lia.
  destruct (Tcat_prefix a prk info (Nblocks a l1) (Nblocks a l2)) as [t E].
  { unfold Nblocks; pose proof (spec_size_range a); apply Z2Nat.inj_le; try (apply Z.div_pos; lia).
    apply Z.div_le_mono; lia. }
  rewrite E, firstn_prefix by lia; reflexivity.
Qed.

Lemma Tw_T a mac prk info n : (forall text, mac prk text = mac_code a prk text) -> (n < 256)%nat ->
  Tw a prk info n = T mac prk info n.
Proof.
  intros HM; induction n as [|n IH]; intros Hn; [reflexivity|].
  cbn [Tw T]; rewrite HM, IH, Z.mod_small by lia; reflexivity.
Qed.

(** For a MAC function that agrees with the code's on this PRK. *)
Lemma expand_rfc a g mac prk info len : (forall text, mac prk text = mac_code a prk text) ->
  supply_ok a g -> bytes prk -> bytes info -> zlen info < 2 ^ 59 -> 0 <= len <= 255 * spec_size a ->
  HKDF_Expand a g prk info len = Ok (hkdf_expand mac (spec_size a) prk info len).
Proof.
  intros HM Hg HP HI LI HL; pose proof (spec_size_range a) as SR.
  rewrite expand_code_ok by (try assumption; lia); f_equal; unfold hkdf_expand; fold (Nblocks a len).
  f_equal; unfold Tcat.
  assert (NB : (Nblocks a len <= 255)%nat) by (pose proof (Nblocks_spec a len ltac:(lia)); nia).
  assert (E : forall l, Forall (fun i => (i < 256)%nat) l -> flat_map (Tw a prk info) l = flat_map (fun i => T mac prk info i) l).
  { induction 1 as [|i l Hi Hl IH]; [reflexivity|]; cbn [flat_map]; rewrite IH, (Tw_T a mac) by assumption; reflexivity. }
  apply E, Forall_forall; intros i Hi; apply in_seq in Hi; lia.
Qed.

(** ** Labels *)
Lemma label_info_spec len label context : 0 <= len < 65536 -> zlen label <= 249 -> zlen context <= 255 ->
  label_info len label context = hkdf_label len label context.
Proof.
  intros HL H1 H2; unfold label_info, hkdf_label, vec8.
  assert (E6 : zlen (str "tls13 ") = 6) by reflexivity.
  assert (L1 : zlen (str "tls13 " ++ label) = 6 + zlen label) by (rewrite zlen_app, E6; reflexivity).
  set (l := str "tls13 " ++ label) in *.
  pose proof (zlen_nonneg label); pose proof (zlen_nonneg context).
  unfold w8; rewrite !Z.mod_small by lia.
  change 255 with (Z.ones 8); rewrite !Z.land_ones, Z.shiftr_div_pow2 by lia.
  unfold be_bytes; cbn [le_bytes rev app]; change (2 ^ 8) with 256; reflexivity.
Qed.

Lemma app_inj_len {A} (l1 l2 t1 t2 : list A) : length l1 = length l2 -> l1 ++ t1 = l2 ++ t2 -> l1 = l2 /\ t1 = t2.
Proof.
  revert l2; induction l1 as [|x l1 IH]; intros [|y l2] L H; cbn in *; try discriminate L; [auto|].
  injection H as -> H; injection L as L; destruct (IH l2 L H) as [-> ->]; auto.
Qed.
Lemma vec8_inj l1 l2 t1 t2 : vec8 l1 ++ t1 = vec8 l2 ++ t2 -> l1 = l2 /\ t1 = t2.
Proof.
  unfold vec8; cbn [app]; intros H; injection H as HL H.
  apply app_inj_len; [unfold zlen in HL; lia | exact H].
Qed.

Lemma hkdf_label_inj n1 l1 c1 n2 l2 c2 : 0 <= n1 < 65536 -> 0 <= n2 < 65536 ->
  hkdf_label n1 l1 c1 = hkdf_label n2 l2 c2 -> n1 = n2 /\ l1 = l2 /\ c1 = c2.
Proof.
  intros H1 H2 H; unfold hkdf_label in H.
  assert (HB : be_bytes 2 n1 = be_bytes 2 n2 /\ vec8 (str "tls13 " ++ l1) ++ vec8 c1 = vec8 (str "tls13 " ++ l2) ++ vec8 c2).
  { apply app_inj_len; [rewrite !be_bytes_length; reflexivity | exact H]. }
  destruct HB as [HN HV]; apply vec8_inj in HV; destruct HV as [HLb HC].
  split; [|split].
  - rewrite <- (be_val_bytes 2 n1), <- (be_val_bytes 2 n2), HN by (cbn; lia); reflexivity.
  - apply app_inv_head in HLb; exact HLb.
  - rewrite <- (app_nil_r (vec8 c1)), <- (app_nil_r (vec8 c2)) in HC; apply vec8_inj in HC; tauto.
Qed.

(** ** The key schedule *)
Definition good (a : alg) : Prop := spec_block a = 2 * spec_size a.

Lemma str_bytes s : bytes (str s).
Proof.
  unfold str; apply Forall_forall; intros x Hx; apply in_map_iff in Hx; destruct Hx as (c & <- & _).
  pose proof (Ascii.nat_ascii_bounded c); unfold byte; lia.
Qed.
Lemma hkdf_label_bytes len label context : bytes label -> bytes context -> zlen label <= 249 -> zlen context <= 255 ->
  bytes (hkdf_label len label context).
Proof.
  intros H1 H2 L1 L2; unfold hkdf_label, vec8.
  assert (E6 : zlen (str "tls13 ") = 6) by reflexivity.
  pose proof (zlen_nonneg label); pose proof (zlen_nonneg context).
  repeat match goal with |- bytes (_ ++ _) => apply Forall_app_intro end.
  - apply be_bytes_bytes.
  - apply bytes_cons; split; [rewrite zlen_app, E6; unfold byte; lia|].
    apply Forall_app_intro; [apply str_bytes | exact H1].
  - apply bytes_cons; split; [unfold byte; lia | exact H2].
Qed.
Lemma hkdf_label_short len label context : zlen label <= 249 -> zlen context <= 255 -> zlen (hkdf_label len label context) < 2 ^ 59.
Proof.
  intros; unfold hkdf_label, vec8; rewrite !zlen_app, !zlen_cons, zlen_app.
  assert (E6 : zlen (str "tls13 ") = 6) by reflexivity.
  assert (E2 : zlen (be_bytes 2 len) = 2) by (unfold zlen; rewrite be_bytes_length; reflexivity); lia.
Qed.

Lemma expand_label_ok a g prk label context len : good a -> supply_ok a g ->
  bytes prk -> zlen prk <= spec_block a -> bytes label -> bytes context -> zlen label <= 249 -> zlen context <= 255 ->
  0 <= len <= 255 * spec_size a ->
  HKDF_Expand_Label a g prk label context len
  = Ok (expand_label (spec_hash a) (spec_block a) (spec_size a) prk label context len).
Proof.
  intros HG Hg HP LP HLb HC LL LC HL; unfold HKDF_Expand_Label, expand_label.
  pose proof (spec_size_range a).
  rewrite label_info_spec by (try assumption; lia).
  apply expand_rfc; try assumption.
  - intros text; symmetry; apply mac_code_rfc; assumption.
  - apply hkdf_label_bytes; assumption.
  - apply hkdf_label_short; assumption.
Qed.

Lemma expand_label_facts a prk label context len : good a ->
  bytes prk -> zlen prk <= spec_block a -> bytes label -> bytes context -> zlen label <= 249 -> zlen context <= 255 ->
  0 <= len <= 255 * spec_size a ->
  let r := expand_label (spec_hash a) (spec_block a) (spec_size a) prk label context len in zlen r = len /\ bytes r.
Proof.
  intros HG HP LP HLb HC LL LC HL r; pose proof (spec_size_range a).
  set (g := fun _ : nat => repeat 0 (buflen a)); assert (Hg : supply_ok a g) by (intros k; apply repeat_length).
  pose proof (expand_label_ok a g prk label context len HG Hg HP LP HLb HC LL LC HL) as E; fold r in E.
  unfold HKDF_Expand_Label in E.
  destruct (expand_length a g prk (label_info len label context) len Hg HP) as (okm & E2 & L2 & B2);
    rewrite ?label_info_spec by lia; try (apply hkdf_label_bytes; assumption); try (apply hkdf_label_short; assumption); try lia.
  rewrite E2 in E; injection E as <-; auto.
Qed.

Lemma extract_ok a g salt ikm : good a -> supply_ok a g -> bytes salt -> zlen salt <= spec_block a -> bytes ikm -> zlen ikm < 2 ^ 60 ->
  HKDF_Extract a g salt ikm = Ok (hkdf_extract (hmac (spec_hash a) (spec_block a)) salt ikm).
Proof.
  intros HG Hg HS LS HI LI; unfold HKDF_Extract, hkdf_extract.
  rewrite HMAC_ok by assumption; f_equal; apply mac_code_rfc; assumption.
Qed.
Lemma hmac_facts a B k t : zlen (hmac (spec_hash a) B k t) = spec_size a /\ bytes (hmac (spec_hash a) B k t).
Proof. unfold hmac; split; [apply spec_hash_length | apply spec_hash_bytes]. Qed.

Lemma nothing_zeros a : resize [] (h_size a) = zeros (spec_size a).
Proof. rewrite h_size_spec; unfold resize, zeros; cbn [length]; rewrite firstn_nil, Nat.sub_0_r; reflexivity. Qed.
Lemma zeros_facts a : zlen (zeros (spec_size a)) = spec_size a /\ bytes (zeros (spec_size a)).
Proof.
  pose proof (spec_size_range a); unfold zeros; split; [unfold zlen; rewrite repeat_length; lia | apply bytes_repeat0].
Qed.
Lemma good_block a : good a -> spec_size a <= spec_block a. Proof. unfold good; pose proof (spec_size_range a); lia. Qed.
Lemma empty_hash a g : length g = buflen a -> h_hash a g [] = Ok (spec_hash a []).
Proof. intros H; rewrite h_hash_ok; [reflexivity | exact H | constructor | reflexivity]. Qed.

Lemma handshake_ok a g shared : good a -> supply_ok a g -> bytes shared -> zlen shared < 2 ^ 60 ->
  HKDF_HandshakeSecret a g shared = Ok (handshake_secret (spec_hash a) (spec_block a) (spec_size a) shared).
Proof.
  intros HG Hg HS LS; unfold HKDF_HandshakeSecret, handshake_secret, derive_secret, early_secret.
  pose proof (spec_size_range a) as SR; pose proof (good_block a HG) as GB; destruct (zeros_facts a) as [ZL ZB].
  rewrite nothing_zeros, h_size_spec.
  rewrite extract_ok by (try assumption; lia); cbn [bind].
  rewrite empty_hash by apply Hg; cbn [bind].
  unfold hkdf_extract; destruct (hmac_facts a (spec_block a) (zeros (spec_size a)) (zeros (spec_size a))) as [ML MB].
  pose proof (spec_hash_length a []) as EL; pose proof (spec_hash_bytes a []) as EB.
  assert (DL : zlen (str "derived") <= 249) by (vm_compute; discriminate).
  rewrite expand_label_ok by (try assumption; try apply str_bytes; try apply shift_ok; try assumption; lia); cbn [bind].
  destruct (expand_label_facts a (hmac (spec_hash a) (spec_block a) (zeros (spec_size a)) (zeros (spec_size a)))
     (str "derived") (spec_hash a []) (spec_size a) HG MB ltac:(lia) (str_bytes _) EB DL ltac:(lia) ltac:(lia)) as [RL RB].
  rewrite extract_ok; try assumption; try lia; try reflexivity; apply shift_ok; assumption.
Qed.

Lemma master_ok a g hs : good a -> supply_ok a g -> bytes hs -> zlen hs = spec_size a ->
  HKDF_MasterSecret a g hs = Ok (master_secret (spec_hash a) (spec_block a) (spec_size a) hs).
Proof.
  intros HG Hg HS LS; unfold HKDF_MasterSecret, master_secret, derive_secret.
  pose proof (spec_size_range a) as SR; pose proof (good_block a HG) as GB; destruct (zeros_facts a) as [ZL ZB].
  rewrite nothing_zeros, h_size_spec.
  rewrite empty_hash by apply Hg; cbn [bind].
  pose proof (spec_hash_length a []) as EL; pose proof (spec_hash_bytes a []) as EB.
  assert (DL : zlen (str "derived") <= 249) by (vm_compute; discriminate).
  rewrite expand_label_ok by (try assumption; try apply str_bytes; try apply shift_ok; try assumption; lia); cbn [bind].
  destruct (expand_label_facts a hs (str "derived") (spec_hash a []) (spec_size a) HG HS ltac:(lia) (str_bytes _) EB DL ltac:(lia) ltac:(lia)) as [RL RB].
  rewrite extract_ok; try assumption; try lia; try reflexivity; apply shift_ok; assumption.
Qed.

Lemma traffic_label_facts c h : bytes (traffic_label c h) /\ zlen (traffic_label c h) <= 249.
Proof. destruct c, h; split; try apply str_bytes; vm_compute; discriminate. Qed.

Lemma traffic_secret_ok a g data th client handshake : good a -> supply_ok a g ->
  bytes data -> zlen data = spec_size a -> bytes th -> zlen th <= 255 ->
  get_traffic_secret a g data th client handshake
  = Ok (traffic_secret (spec_hash a) (spec_block a) (spec_size a) data th client handshake).
Proof.
  intros HG Hg HD LD HT LT; unfold get_traffic_secret, traffic_secret, derive_secret.
  pose proof (spec_size_range a) as SR; pose proof (good_block a HG) as GB.
  destruct (traffic_label_facts client handshake) as [TB TL].
  replace (if client then if handshake then str "c hs traffic" else str "c ap traffic"
           else if handshake then str "s hs traffic" else str "s ap traffic") with (traffic_label client handshake)
    by (destruct client, handshake; reflexivity).
  rewrite LD; apply expand_label_ok; try assumption; lia.
Qed.
Lemma traffic_secret_facts a data th client handshake : good a ->
  bytes data -> zlen data = spec_size a -> bytes th -> zlen th <= 255 ->
  let r := traffic_secret (spec_hash a) (spec_block a) (spec_size a) data th client handshake in
  zlen r = spec_size a /\ bytes r.
Proof.
  intros HG HD LD HT LT; destruct (traffic_label_facts client handshake) as [TB TL].
  pose proof (spec_size_range a) as SR; pose proof (good_block a HG) as GB.
  apply expand_label_facts; try assumption; lia.
Qed.

Lemma key_iv_ok a g ks vs data th client handshake : good a -> supply_ok a g ->
  bytes data -> zlen data = spec_size a -> bytes th -> zlen th <= 255 ->
  0 <= ks <= 255 * spec_size a -> 0 <= vs <= 255 * spec_size a ->
  let ts := traffic_secret (spec_hash a) (spec_block a) (spec_size a) data th client handshake in
  get_key_iv a g ks vs data th client handshake
  = Ok (traffic_key (spec_hash a) (spec_block a) (spec_size a) ts ks,
        traffic_iv (spec_hash a) (spec_block a) (spec_size a) ts vs).
Proof.
  intros HG Hg HD LD HT LT HK HV ts; unfold get_key_iv.
  pose proof (spec_size_range a) as SR; pose proof (good_block a HG) as GB.
  rewrite traffic_secret_ok by assumption; cbn [bind]; fold ts.
  destruct (traffic_secret_facts a data th client handshake HG HD LD HT LT) as [TL TB]; fold ts in TL, TB.
  assert (K : zlen (str "key") <= 249) by (vm_compute; discriminate).
  assert (V : zlen (str "iv") <= 249) by (vm_compute; discriminate).
  assert (N : zlen (@nil Z) <= 255) by (vm_compute; discriminate).
  rewrite !expand_label_ok by (try assumption; try apply str_bytes; try apply shift_ok; try apply bytes_nil; try assumption; lia).
  reflexivity.
Qed.

Lemma finished_ok a g data th client : good a -> supply_ok a g ->
  bytes data -> zlen data = spec_size a -> bytes th -> zlen th <= 255 ->
  get_finished_key a g data th client
  = Ok (finished_key (spec_hash a) (spec_block a) (spec_size a)
          (traffic_secret (spec_hash a) (spec_block a) (spec_size a) data th client true)).
Proof.
  intros HG Hg HD LD HT LT; unfold get_finished_key.
  pose proof (spec_size_range a) as SR; pose proof (good_block a HG) as GB.
  rewrite traffic_secret_ok by assumption; cbn [bind].
  destruct (traffic_secret_facts a data th client true HG HD LD HT LT) as [TL TB].
  assert (K : zlen (str "finished") <= 249) by (vm_compute; discriminate).
  assert (N : zlen (@nil Z) <= 255) by (vm_compute; discriminate).
  rewrite h_size_spec.
  rewrite !expand_label_ok by (try assumption; try apply str_bytes; try apply shift_ok; try apply bytes_nil; try assumption; lia).
  reflexivity.
Qed.

(** ** Evaluating the specification through the model (for the refutations) *)
Definition mh (a : alg) (m : list Z) : list Z :=
  match h_hash a (repeat 0 (buflen a)) [m] with Ok d => d | _ => [] end.
Lemma mh_ok a m : bytes m -> zlen m < 2 ^ 61 -> spec_hash a m = mh a m.
Proof.
  intros HB HL; unfold mh; rewrite h_hash_ok; cbn [concat]; rewrite ?app_nil_r; auto using repeat_length.
Qed.
Lemma hmac_mh a B key text : bytes key -> bytes text -> zlen key < 2 ^ 59 -> zlen text < 2 ^ 59 -> 0 <= B < 2 ^ 59 ->
  hmac (spec_hash a) B key text = hmac (mh a) B key text.
Proof.
  intros HK HT LK LT HB; unfold hmac.
  assert (EK : (if B <? zlen key then spec_hash a key else key) = if B <? zlen key then mh a key else key)
    by (destruct (B <? zlen key); [apply mh_ok; [exact HK|lia]|reflexivity]).
  set (k := if B <? zlen key then spec_hash a key else key) in *; rewrite <- EK.
  assert (Bk : bytes k) by (unfold k; destruct (B <? zlen key); [apply spec_hash_bytes | exact HK]).
  assert (Lk : zlen k < 2 ^ 59) by (unfold k; destruct (B <? zlen key); [rewrite spec_hash_length; pose proof (spec_size_range a); lia | exact LK]).
  set (k0 := k ++ repeat 0 (Z.to_nat (B - zlen k))).
  assert (Bk0 : bytes k0) by (apply Forall_app_intro; [exact Bk | apply bytes_repeat0]).
  assert (Lk0 : zlen k0 < 2 ^ 60).
  { unfold k0; rewrite zlen_app; unfold zlen at 2; rewrite repeat_length.
    destruct (Z.le_gt_cases B (zlen k)); [replace (Z.to_nat (B - zlen k)) with 0%nat by lia; lia|]. pose proof (zlen_nonneg k); lia. }
  assert (Bi : bytes (map (fun b => Z.lxor b 0x36) k0)) by (apply bytes_xor_const; [exact Bk0 | unfold byte; lia]).
  assert (Bo : bytes (map (fun b => Z.lxor b 0x5c) k0)) by (apply bytes_xor_const; [exact Bk0 | unfold byte; lia]).
  assert (EI : spec_hash a (map (fun b => Z.lxor b 0x36) k0 ++ text) = mh a (map (fun b => Z.lxor b 0x36) k0 ++ text)).
  { apply mh_ok; [apply Forall_app_intro; assumption|]; rewrite zlen_app, zlen_map; lia. }
  rewrite <- EI; apply mh_ok; [apply Forall_app_intro; [assumption | apply spec_hash_bytes]|].
  rewrite zlen_app, zlen_map, spec_hash_length; pose proof (spec_size_range a); lia.
Qed.
Lemma expand_one (mac : list Z -> list Z -> list Z) n prk info : 0 < n -> (forall k t, zlen (mac k t) = n) ->
  hkdf_expand mac n prk info n = mac prk (info ++ [1]).
Proof.
  intros Hn HM; unfold hkdf_expand.
  rewrite <- (Z.div_unique (n + n - 1) n 1 (n - 1)) by lia.
  change (Z.to_nat 1) with 1%nat; cbn [seq flat_map T app]; rewrite app_nil_r.
  pose proof (HM prk (info ++ [1])) as HL; apply firstn_all2; unfold zlen in HL; change (Z.of_nat 1) with 1; lia.
Qed.
