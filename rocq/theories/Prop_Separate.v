(** C121: keys for different purposes, transcripts and secrets differ, unless the computation ran into a
    collision of the hash function, which is named. *)
From Coq Require Import String.
From Verif Require Import Base BaseP S_MD S_Hash M_Hash P_Hash S_HKDF M_HKDF P_HKDF.
Open Scope Z_scope.

(** The two messages hashed for one MAC (RFC 2104 with blocks of twice the digest size, which is what the code
    does, C19): the key is cut or zero-filled. *)
Definition padded (a : alg) (key : list Z) : list Z :=
  let B := Z.to_nat (2 * spec_size a) in firstn B key ++ repeat 0 (B - length key).
Definition inner_msg (a : alg) (key text : list Z) : list Z := map (fun b => Z.lxor b 0x36) (padded a key) ++ text.
Definition outer_msg (a : alg) (key text : list Z) : list Z := map (fun b => Z.lxor b 0x5c) (padded a key) ++ spec_hash a (inner_msg a key text).

(** The MACs of (key, text) and (key', text') were computed by hashing two different messages whose digests
    agree on the first n bytes (all of them when n is at least the digest size). *)
Definition clash (a : alg) (n : Z) (key text key' text' : list Z) : Prop :=
  exists x y, (x = inner_msg a key text /\ y = inner_msg a key' text' \/ x = outer_msg a key text /\ y = outer_msg a key' text') /\
    x <> y /\ firstn (Z.to_nat n) (spec_hash a x) = firstn (Z.to_nat n) (spec_hash a y).

Lemma resize_padded a key : resize key (spec_size a * 2) = padded a key.
Proof. unfold resize, padded; rewrite (Z.mul_comm 2); reflexivity. Qed.
Lemma mac_outer a key text : mac_code a key text = spec_hash a (outer_msg a key text).
Proof. unfold mac_code, outer_msg, inner_msg; rewrite resize_padded; reflexivity. Qed.
Lemma padded_len a key : length (padded a key) = Z.to_nat (2 * spec_size a).
Proof. unfold padded; rewrite app_length, firstn_length, repeat_length; lia. Qed.
Lemma xor_inj c l : forall l', map (fun b => Z.lxor b c) l = map (fun b => Z.lxor b c) l' -> l = l'.
Proof.
  induction l as [|x l IH]; intros [|y l'] H; cbn [map] in H; try discriminate H; [reflexivity|].
  injection H as HX HL; f_equal; [|apply IH, HL].
  apply (f_equal (fun z => Z.lxor z c)) in HX; rewrite !Z.lxor_assoc, Z.lxor_nilpotent, !Z.lxor_0_r in HX; exact HX.
Qed.
Lemma xor_app_inj a c k k' t t' : map (fun b => Z.lxor b c) (padded a k) ++ t = map (fun b => Z.lxor b c) (padded a k') ++ t' -> padded a k = padded a k' /\ t = t'.
Proof.
  intros H; apply app_inj_len in H; [|rewrite !map_length, !padded_len; reflexivity].
  destruct H as [H ->]; split; [apply (xor_inj c), H | reflexivity].
Qed.

Lemma mac_same a n k t k' t' : firstn (Z.to_nat n) (mac_code a k t) = firstn (Z.to_nat n) (mac_code a k' t') ->
  (padded a k = padded a k' /\ t = t') \/ clash a n k t k' t'.
Proof.
  rewrite !mac_outer; intros E.
  destruct (list_eq_dec Z.eq_dec (outer_msg a k t) (outer_msg a k' t')) as [O|O].
  - unfold outer_msg in O; apply xor_app_inj in O; destruct O as [P HI].
    destruct (list_eq_dec Z.eq_dec (inner_msg a k t) (inner_msg a k' t')) as [I|I].
    + left; unfold inner_msg in I; apply xor_app_inj in I; exact I.
    + right; exists (inner_msg a k t), (inner_msg a k' t'); split; [left; split; reflexivity|]; split; [exact I | rewrite HI; reflexivity].
  - right; exists (outer_msg a k t), (outer_msg a k' t'); split; [right; split; reflexivity|]; split; [exact O | exact E].
Qed.
Lemma padded_short a k k' : zlen k = zlen k' -> zlen k <= 2 * spec_size a -> padded a k = padded a k' -> k = k'.
Proof.
  unfold padded, zlen; intros L S H; rewrite !firstn_all2 in H by lia.
  apply app_inj_len in H; [apply H | lia].
Qed.

(** HMAC: one tag for two (key, text) pairs.  Keys are compared as the code uses them, cut or zero-filled. *)
Theorem C121_hmac : forall a g g' k t k' t' d, supply_ok a g -> supply_ok a g' -> bytes k -> bytes k' -> bytes t -> bytes t' ->
  zlen t < 2 ^ 60 -> zlen t' < 2 ^ 60 -> HMAC a g t k = Ok d -> HMAC a g' t' k' = Ok d ->
  (padded a k = padded a k' /\ t = t') \/ clash a (spec_size a) k t k' t'.
Proof.
  intros a g g' k t k' t' d G G' K K' B B' L L' E E'; rewrite HMAC_ok in E, E' by assumption.
  apply mac_same; congruence.
Qed.
Print Assumptions C121_hmac.

(** HKDF-Expand: one output of len bytes. *)
Lemma expand_first a g prk info len o : supply_ok a g -> bytes prk -> bytes info -> zlen info < 2 ^ 59 -> 0 <= len < 2 ^ 60 ->
  HKDF_Expand a g prk info len = Ok o -> firstn (Z.to_nat len) (mac_code a prk (info ++ [1])) = firstn (Z.to_nat (Z.min len (spec_size a))) o.
Proof.
  intros G P I L HL E; rewrite expand_code_ok in E by assumption; injection E as <-.
  pose proof (spec_size_range a) as SR; pose proof (Nblocks_spec a len ltac:(lia)) as (N1 & N2 & _).
  destruct (Z.eq_dec len 0) as [->|N0]; [rewrite Z.min_l by lia; reflexivity|].
  destruct (Tcat_prefix a prk info 1 (Nblocks a len)) as [t ->]; [nia|].
  assert (E1 : Tcat a prk info 1 = mac_code a prk (info ++ [1])) by (unfold Tcat; cbn [seq flat_map]; rewrite app_nil_r; reflexivity).
  rewrite E1; set (m := mac_code a prk (info ++ [1])).
  assert (Lm : zlen m = spec_size a) by (apply spec_hash_length). unfold zlen in Lm.
  rewrite firstn_firstn; destruct (Z.le_gt_cases len (spec_size a)) as [C|C].
  - rewrite Z.min_l, Nat.min_id by lia; symmetry; apply firstn_prefix; lia.
  - rewrite Z.min_r by lia; rewrite Nat.min_l by lia; rewrite firstn_all2 by lia; rewrite firstn_prefix by lia.
    rewrite firstn_all2 by lia; reflexivity.
Qed.
Theorem C121_expand : forall a g g' k i k' i' len o, supply_ok a g -> supply_ok a g' -> bytes k -> bytes k' -> bytes i -> bytes i' ->
  zlen i < 2 ^ 59 -> zlen i' < 2 ^ 59 -> 0 <= len < 2 ^ 60 -> HKDF_Expand a g k i len = Ok o -> HKDF_Expand a g' k' i' len = Ok o ->
  (padded a k = padded a k' /\ i = i') \/ clash a len k (i ++ [1]) k' (i' ++ [1]).
Proof.
  intros a g g' k i k' i' len o G G' K K' I I' L L' HL E E'.
  apply expand_first in E; try assumption; apply expand_first in E'; try assumption.
  destruct (mac_same a len k (i ++ [1]) k' (i' ++ [1])) as [[P Q]|C]; [congruence | left | right; exact C].
  split; [exact P|]; apply app_inj_tail in Q; apply Q.
Qed.
Print Assumptions C121_expand.

(** With TLS labels. *)
Definition label_text (len : Z) (label context : list Z) : list Z := hkdf_label len label context ++ [1].
Lemma label_same a g g' k l c k' l' c' len o : supply_ok a g -> supply_ok a g' -> bytes k -> bytes k' -> zlen k = zlen k' -> zlen k <= 2 * spec_size a ->
  bytes l -> bytes l' -> bytes c -> bytes c' -> zlen l <= 249 -> zlen l' <= 249 -> zlen c <= 255 -> zlen c' <= 255 -> 0 <= len < 65536 ->
  HKDF_Expand_Label a g k l c len = Ok o -> HKDF_Expand_Label a g' k' l' c' len = Ok o ->
  (k = k' /\ l = l' /\ c = c') \/ clash a len k (label_text len l c) k' (label_text len l' c').
Proof.
  unfold HKDF_Expand_Label, label_text; intros G G' K K' LK SK BL BL' BC BC' LL LL' LC LC' HL E E'.
  rewrite label_info_spec in E, E' by assumption.
  destruct (C121_expand a g g' k (hkdf_label len l c) k' (hkdf_label len l' c') len o) as [[P Q]|C]; try assumption; try lia;
    try (apply hkdf_label_bytes; assumption); try (apply hkdf_label_short; assumption).
  - left; apply hkdf_label_inj in Q; [|lia|lia]; destruct Q as (_ & Q1 & Q2).
    split; [apply (padded_short a); assumption | split; assumption].
  - right; exact C.
Qed.
Lemma model_label (client handshake : bool) : (if client then (if handshake then str "c hs traffic" else str "c ap traffic")
               else (if handshake then str "s hs traffic" else str "s ap traffic")) = traffic_label client handshake.
Proof. destruct client, handshake; reflexivity. Qed.
Lemma traffic_label_inj c h c' h' : traffic_label c h = traffic_label c' h' -> c = c' /\ h = h'.
Proof. destruct c, h, c', h'; intros H; split; try reflexivity; vm_compute in H; discriminate H. Qed.

Lemma size16 a : 0 <= spec_size a < 65536. Proof. pose proof (spec_size_range a); lia. Qed.
(** Traffic secrets: for two secrets, transcript hashes, sides and stages. *)
Theorem C121_traffic : forall a g g' s th c h s' th' c' h' o, supply_ok a g -> supply_ok a g' -> bytes s -> bytes s' ->
  zlen s = spec_size a -> zlen s' = spec_size a -> bytes th -> bytes th' -> zlen th <= 255 -> zlen th' <= 255 ->
  get_traffic_secret a g s th c h = Ok o -> get_traffic_secret a g' s' th' c' h' = Ok o ->
  (s = s' /\ th = th' /\ c = c' /\ h = h') \/
  clash a (spec_size a) s (label_text (spec_size a) (traffic_label c h) th) s' (label_text (spec_size a) (traffic_label c' h') th').
Proof.
  unfold get_traffic_secret; intros a g g' s th c h s' th' c' h' o G G' S S' L L' T T' LT LT' E E'.
  rewrite model_label in E, E'. rewrite L in E; rewrite L' in E'.
  pose proof (spec_size_range a) as SR.
  destruct (label_same a g g' s (traffic_label c h) th s' (traffic_label c' h') th' (spec_size a) o) as [(Q & Q1 & Q2)|C];
    try assumption; try apply traffic_label_facts; try apply size16; try lia.
  - left; apply traffic_label_inj in Q1; destruct Q1; auto.
  - right; exact C.
Qed.
Print Assumptions C121_traffic.

(** The transcript itself: hashed by the library. *)
Theorem C121_transcript : forall a g g' b b' s m th c h s' m' th' c' h' o, supply_ok a g -> supply_ok a g' -> length b = buflen a -> length b' = buflen a ->
  bytes s -> bytes s' -> zlen s = spec_size a -> zlen s' = spec_size a -> bytes m -> bytes m' -> zlen m < 2 ^ 61 -> zlen m' < 2 ^ 61 ->
  h_hash a b [m] = Ok th -> h_hash a b' [m'] = Ok th' ->
  get_traffic_secret a g s th c h = Ok o -> get_traffic_secret a g' s' th' c' h' = Ok o ->
  (s = s' /\ m = m' /\ c = c' /\ h = h') \/ (m <> m' /\ spec_hash a m = spec_hash a m') \/
  clash a (spec_size a) s (label_text (spec_size a) (traffic_label c h) th) s' (label_text (spec_size a) (traffic_label c' h') th').
Proof.
  intros a g g' b b' s m th c h s' m' th' c' h' o G G' HB HB' S S' L L' M M' LM LM' H H' E E'.
  rewrite h_hash_ok in H, H'; try assumption; try (constructor; [assumption|constructor]); try (cbn [concat]; rewrite app_nil_r; assumption).
  cbn [concat] in H, H'; rewrite app_nil_r in H, H'; injection H as <-; injection H' as <-.
  pose proof (spec_size_range a) as SR. pose proof (spec_hash_length a m) as Lh. pose proof (spec_hash_length a m') as Lh'.
  destruct (C121_traffic a g g' s (spec_hash a m) c h s' (spec_hash a m') c' h' o) as [(Q & Q1 & Q2 & Q3)|C]; try assumption; try apply spec_hash_bytes; try lia.
  - destruct (list_eq_dec Z.eq_dec m m') as [D|D]; [left; auto | right; left; auto].
  - right; right; exact C.
Qed.
Print Assumptions C121_transcript.

Lemma label_length a g k l c len : supply_ok a g -> bytes k -> bytes l -> bytes c -> zlen l <= 249 -> zlen c <= 255 -> 0 <= len < 65536 ->
  exists o, HKDF_Expand_Label a g k l c len = Ok o /\ zlen o = len /\ bytes o.
Proof.
  intros G K BL BC LL LC HL; unfold HKDF_Expand_Label; rewrite label_info_spec by assumption.
  apply expand_length; try assumption; try lia; [apply hkdf_label_bytes; assumption | apply hkdf_label_short; assumption].
Qed.
Lemma traffic_length a g s th c h : supply_ok a g -> bytes s -> zlen s = spec_size a -> bytes th -> zlen th <= 255 ->
  exists o, get_traffic_secret a g s th c h = Ok o /\ zlen o = spec_size a /\ bytes o.
Proof.
  intros G S L T LT; unfold get_traffic_secret; rewrite model_label, L.
  apply label_length; try assumption; try apply traffic_label_facts; apply size16.
Qed.

(** Traffic keys of the same length: the secrets they come from are the same or there is a clash on the way. *)
Theorem C121_keys : forall a g g' ks vs vs' s th c h s' th' c' h' key iv iv', supply_ok a g -> supply_ok a g' -> bytes s -> bytes s' ->
  zlen s = spec_size a -> zlen s' = spec_size a -> bytes th -> bytes th' -> zlen th <= 255 -> zlen th' <= 255 -> 0 <= ks < 65536 ->
  get_key_iv a g ks vs s th c h = Ok (key, iv) -> get_key_iv a g' ks vs' s' th' c' h' = Ok (key, iv') ->
  (s = s' /\ th = th' /\ c = c' /\ h = h') \/
  clash a (spec_size a) s (label_text (spec_size a) (traffic_label c h) th) s' (label_text (spec_size a) (traffic_label c' h') th') \/
  exists ts ts', get_traffic_secret a g s th c h = Ok ts /\ get_traffic_secret a g' s' th' c' h' = Ok ts' /\
    clash a ks ts (label_text ks (str "key") []) ts' (label_text ks (str "key") []).
Proof.
  unfold get_key_iv; intros a g g' ks vs vs' s th c h s' th' c' h' key iv iv' G G' S S' L L' T T' LT LT' HK E E'.
  destruct (traffic_length a g s th c h) as (ts & X & LX & BX); try assumption.
  destruct (traffic_length a g' s' th' c' h') as (ts' & X' & LX' & BX'); try assumption.
  rewrite X in E; rewrite X' in E'; cbn [bind] in E, E'.
  destruct (HKDF_Expand_Label _ _ ts (str "key") [] ks) as [k1| | |] eqn:F; try discriminate E; cbn [bind] in E.
  destruct (HKDF_Expand_Label _ _ ts' (str "key") [] ks) as [k2| | |] eqn:F'; try discriminate E'; cbn [bind] in E'.
  destruct (HKDF_Expand_Label _ _ ts (str "iv") [] vs) as [v1| | |]; try discriminate E; cbn [bind] in E; injection E as -> ->.
  destruct (HKDF_Expand_Label _ _ ts' (str "iv") [] vs') as [v2| | |]; try discriminate E'; cbn [bind] in E'; injection E' as -> ->.
  pose proof (spec_size_range a) as SR.
  destruct (label_same a _ _ _ _ _ _ _ _ _ _ (shift_ok _ _ _ G) (shift_ok _ _ _ G') BX BX' ltac:(congruence) ltac:(lia) (str_bytes "key") (str_bytes "key") bytes_nil bytes_nil
    ltac:(vm_compute; discriminate) ltac:(vm_compute; discriminate) ltac:(vm_compute; discriminate) ltac:(vm_compute; discriminate) HK F F') as [(Q & _)|C].
  - subst ts'; destruct (C121_traffic a g g' s th c h s' th' c' h' ts) as [W|W]; auto.
  - right; right; exists ts, ts'; auto.
Qed.
Print Assumptions C121_keys.

(** Keys of the Finished messages. *)
Theorem C121_finished : forall a g g' s th c s' th' c' key, supply_ok a g -> supply_ok a g' -> bytes s -> bytes s' ->
  zlen s = spec_size a -> zlen s' = spec_size a -> bytes th -> bytes th' -> zlen th <= 255 -> zlen th' <= 255 ->
  get_finished_key a g s th c = Ok key -> get_finished_key a g' s' th' c' = Ok key ->
  (s = s' /\ th = th' /\ c = c') \/
  clash a (spec_size a) s (label_text (spec_size a) (traffic_label c true) th) s' (label_text (spec_size a) (traffic_label c' true) th') \/
  exists ts ts', get_traffic_secret a g s th c true = Ok ts /\ get_traffic_secret a g' s' th' c' true = Ok ts' /\
    clash a (spec_size a) ts (label_text (spec_size a) (str "finished") []) ts' (label_text (spec_size a) (str "finished") []).
Proof.
  unfold get_finished_key; intros a g g' s th c s' th' c' key G G' S S' L L' T T' LT LT' F F'.
  destruct (traffic_length a g s th c true) as (ts & X & LX & BX); try assumption.
  destruct (traffic_length a g' s' th' c' true) as (ts' & X' & LX' & BX'); try assumption.
  rewrite X in F; rewrite X' in F'; cbn [bind] in F, F'; rewrite h_size_spec in F, F'.
  pose proof (spec_size_range a) as SR.
  destruct (label_same a _ _ _ _ _ _ _ _ _ _ (shift_ok _ _ _ G) (shift_ok _ _ _ G') BX BX' ltac:(congruence) ltac:(lia) (str_bytes "finished") (str_bytes "finished") bytes_nil bytes_nil
    ltac:(vm_compute; discriminate) ltac:(vm_compute; discriminate) ltac:(vm_compute; discriminate) ltac:(vm_compute; discriminate) (size16 a) F F') as [(Q & _)|C].
  - subst ts'; destruct (C121_traffic a g g' s th c true s' th' c' true ts) as [(W & W1 & W2 & _)|W]; auto.
  - right; right; exists ts, ts'; auto.
Qed.
Print Assumptions C121_finished.

(** The handshake secret and the shared secret it is made from; [d] is the salt, the same for every handshake. *)
Lemma no_supply a g g' k l c len : supply_ok a g -> supply_ok a g' -> bytes k -> bytes l -> bytes c -> zlen l <= 249 -> zlen c <= 255 -> 0 <= len < 65536 ->
  HKDF_Expand_Label a g k l c len = HKDF_Expand_Label a g' k l c len.
Proof.
  intros; unfold HKDF_Expand_Label; rewrite label_info_spec by assumption.
  rewrite !expand_code_ok; try assumption; try lia; try reflexivity; try (apply hkdf_label_bytes; assumption); apply hkdf_label_short; assumption.
Qed.
Theorem C121_handshake : forall a g g' x x' s, supply_ok a g -> supply_ok a g' -> bytes x -> bytes x' -> zlen x < 2 ^ 60 -> zlen x' < 2 ^ 60 ->
  HKDF_HandshakeSecret a g x = Ok s -> HKDF_HandshakeSecret a g' x' = Ok s ->
  x = x' \/ exists early d, HKDF_Extract a g (zeros (spec_size a)) (zeros (spec_size a)) = Ok early /\
    HKDF_Expand_Label a g early (str "derived") (spec_hash a []) (spec_size a) = Ok d /\ clash a (spec_size a) d x d x'.
Proof.
  intros a g g' x x' s G G' X X' L L' E E'; pose proof (spec_size_range a) as SR; destruct (zeros_facts a) as [ZL ZB].
  unfold HKDF_HandshakeSecret in E, E'; rewrite nothing_zeros, h_size_spec in E, E'.
  unfold HKDF_Extract in E, E' |- *. rewrite (HMAC_ok a g) in E |- * by (assumption || lia). rewrite (HMAC_ok a g') in E' by (assumption || lia).
  cbn [bind] in E, E'; rewrite empty_hash in E, E' by (apply shift_ok; assumption); cbn [bind] in E, E'.
  set (early := mac_code a (zeros (spec_size a)) (zeros (spec_size a))) in *.
  assert (BE : bytes early) by apply spec_hash_bytes.
  pose proof (spec_hash_length a []) as LH. pose proof (spec_hash_bytes a []) as BH.
  assert (LB : zlen (str "derived") <= 249) by (vm_compute; discriminate).
  destruct (label_length a g early (str "derived") (spec_hash a []) (spec_size a) G BE (str_bytes _) BH LB ltac:(lia) (size16 a)) as (d & D & LD & BD).
  rewrite (no_supply a (shift g 3) g early _ _ _ (shift_ok _ _ _ G) G BE (str_bytes _) BH LB ltac:(lia) (size16 a)), D in E.
  rewrite (no_supply a (shift g' 3) g early _ _ _ (shift_ok _ _ _ G') G BE (str_bytes _) BH LB ltac:(lia) (size16 a)), D in E'.
  cbn [bind] in E, E'.
  destruct (C121_hmac a _ _ d x d x' s (shift_ok _ _ _ G) (shift_ok _ _ _ G') BD BD X X' L L' E E') as [[_ Q]|C]; [left; exact Q | right].
  exists early, d; auto.
Qed.
Print Assumptions C121_handshake.

(** The master secret and the handshake secret. *)
Theorem C121_master : forall a g g' x x' s, supply_ok a g -> supply_ok a g' -> bytes x -> bytes x' -> zlen x = spec_size a -> zlen x' = spec_size a ->
  HKDF_MasterSecret a g x = Ok s -> HKDF_MasterSecret a g' x' = Ok s ->
  x = x' \/ clash a (spec_size a) x (label_text (spec_size a) (str "derived") (spec_hash a [])) x' (label_text (spec_size a) (str "derived") (spec_hash a [])) \/
  exists d d', HKDF_Expand_Label a g x (str "derived") (spec_hash a []) (spec_size a) = Ok d /\
    HKDF_Expand_Label a g x' (str "derived") (spec_hash a []) (spec_size a) = Ok d' /\
    clash a (spec_size a) d (zeros (spec_size a)) d' (zeros (spec_size a)).
Proof.
  intros a g g' x x' s G G' X X' L L' E E'; pose proof (spec_size_range a) as SR; destruct (zeros_facts a) as [ZL ZB].
  pose proof (spec_hash_length a []) as LH. pose proof (spec_hash_bytes a []) as BH.
  unfold HKDF_MasterSecret in E, E'; rewrite nothing_zeros, h_size_spec in E, E'.
  rewrite empty_hash in E, E' by (apply G || apply G'); cbn [bind] in E, E'.
  assert (LB : zlen (str "derived") <= 249) by (vm_compute; discriminate).
  destruct (label_length a g x (str "derived") (spec_hash a []) (spec_size a) G X (str_bytes _) BH LB ltac:(lia) (size16 a)) as (d & D & LD & BD).
  destruct (label_length a g x' (str "derived") (spec_hash a []) (spec_size a) G X' (str_bytes _) BH LB ltac:(lia) (size16 a)) as (d' & D' & LD' & BD').
  rewrite (no_supply a (shift g 1) g x _ _ _ (shift_ok _ _ _ G) G X (str_bytes _) BH LB ltac:(lia) (size16 a)), D in E.
  rewrite (no_supply a (shift g' 1) g x' _ _ _ (shift_ok _ _ _ G') G X' (str_bytes _) BH LB ltac:(lia) (size16 a)), D' in E'.
  cbn [bind] in E, E'; unfold HKDF_Extract in E, E'.
  destruct (C121_hmac a _ _ d (zeros (spec_size a)) d' (zeros (spec_size a)) s (shift_ok _ _ _ G) (shift_ok _ _ _ G') BD BD' ZB ZB ltac:(lia) ltac:(lia) E E') as [[Q _]|C].
  - apply padded_short in Q; [|lia|lia]; subst d'.
    destruct (label_same a g g x (str "derived") (spec_hash a []) x' (str "derived") (spec_hash a []) (spec_size a) d) as [(Q & _)|C];
      try assumption; try apply str_bytes; try apply size16; try lia; auto.
  - right; right; exists d, d'; auto.
Qed.
Print Assumptions C121_master.

(** Meeting the hypotheses: one tag for two keys that differ only in a zero at the end; and secrets of two sides differ. *)
Example C121_case : HMAC AMD5 (fun _ => repeat 0 64) [7; 8] [1] = HMAC AMD5 (fun _ => repeat 0 64) [7; 8] [1; 0] /\ padded AMD5 [1] = padded AMD5 [1; 0] /\
  exists o o', get_traffic_secret ASHA256 (fun _ => repeat 0 64) (repeat 3 32) (repeat 5 32) true true = Ok o /\
    get_traffic_secret ASHA256 (fun _ => repeat 0 64) (repeat 3 32) (repeat 5 32) false true = Ok o' /\ firstn 1 o <> firstn 1 o'.
Proof. split; [vm_compute; reflexivity|]; split; [reflexivity|]; do 2 eexists; split; [vm_compute; reflexivity|]; split; [vm_compute; reflexivity|]; vm_compute; discriminate. Qed.
