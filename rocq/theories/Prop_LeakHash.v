(** C118 and C119: what an observer learns from hashing, HMAC and key derivation with SHA-2, and
    from the text form of a hash. *)
From Coq Require Import String.
From Verif Require Import Base BaseP S_Hash M_MD M_SHA2 M_Hash P_Hash S_HKDF M_HKDF M_Leak P_Leak M_LeakHash P_LeakHash.
Open Scope Z_scope.
Open Scope list_scope.

(** ** Specification: a function of secrets shows only lengths *)
(** [run] and [run'] are the recorded executions, [r] and [r'] the results of the models without
    records: both runs give those results, and their records are the same. *)
Definition shows_the_same {A} (run run' : traced A) (r r' : res A) : Prop :=
  fst run = fst run' /\ snd run = r /\ snd run' = r' /\ (exists x, r = Ok x) /\ (exists x, r' = Ok x).
Lemma both_shows {A} (m m' : traced A) r r' Q : both m m' r r' Q -> shows_the_same m m' r r'.
Proof. intros (T & a & a' & E & F & E' & F' & _). split; [exact T|]. split; [congruence|]. split; [congruence|]. split; [exists a; exact F | exists a'; exact F']. Qed.

(** ** C118 *)
(** Hashing, in any number of pieces. *)
Theorem C118_hash : forall a g g' ps ps', sha2 a = true -> List.length g = buflen a -> List.length g' = buflen a ->
  map zlen ps = map zlen ps' -> Forall (fun p => zlen p < 2 ^ 64) ps ->
  shows_the_same (h_hash_t a g ps) (h_hash_t a g' ps') (h_hash a g ps) (h_hash a g' ps').
Proof.
  intros a g g' ps ps' SA L L' E F. eapply both_shows. apply h_hash_both; try assumption.
  clear F. revert ps' E. induction ps as [|p ps IH]; intros [|p' ps'] E; cbn [map] in E; try discriminate E; constructor.
  - assert (H : zlen p = zlen p') by congruence. unfold same_len, zlen in *. lia.
  - apply IH. congruence.
Qed.
(** Message authentication: neither the key nor the text shows. *)
Theorem C118_hmac : forall a g g' text text' key key', sha2 a = true -> fresh a g -> fresh a g' ->
  zlen text = zlen text' -> zlen key = zlen key' -> zlen text < 2 ^ 63 ->
  shows_the_same (HMAC_t a g text key) (HMAC_t a g' text' key') (HMAC a g text key) (HMAC a g' text' key').
Proof. intros. eapply both_shows. apply HMAC_both; assumption. Qed.
(** Key derivation. *)
Theorem C118_expand : forall a g g' prk prk' info info' len, sha2 a = true -> fresh a g -> fresh a g' ->
  zlen prk = zlen prk' -> zlen info = zlen info' -> zlen info < 2 ^ 62 -> 0 <= len ->
  shows_the_same (HKDF_Expand_t a g prk info len) (HKDF_Expand_t a g' prk' info' len) (HKDF_Expand a g prk info len) (HKDF_Expand a g' prk' info' len).
Proof. intros. eapply both_shows. apply expand_both; assumption. Qed.

(** The key schedule of TLS: from the shared secret to the keys and back to no record of either. *)
Lemma traffic_both a : sha2 a = true -> forall g g' data data' h h' client hs, fresh a g -> fresh a g' -> zlen data = zlen data' -> zlen h = zlen h' -> zlen h < 2 ^ 60 ->
  both (get_traffic_secret_t a g data h client hs) (get_traffic_secret_t a g' data' h' client hs) (get_traffic_secret a g data h client hs) (get_traffic_secret a g' data' h' client hs) (sized (zlen data)).
Proof.
  intros SA g g' data data' h h' client hs G G' ED EH LH. unfold get_traffic_secret_t, get_traffic_secret. rewrite <- ED. eapply both_step; [reflexivity | reflexivity|].
  apply label_both; try assumption; try reflexivity; [destruct client, hs; vm_compute; reflexivity | unfold zlen; lia].
Qed.
Ltac short := first [assumption | lia | reflexivity | vm_compute; reflexivity].
Theorem C118_traffic_keys : forall a g g' keysize ivsize data data' h h' client hs, sha2 a = true -> fresh a g -> fresh a g' ->
  zlen data = zlen data' -> zlen h = zlen h' -> zlen h < 2 ^ 60 -> 0 <= keysize -> 0 <= ivsize ->
  shows_the_same (get_key_iv_t a g keysize ivsize data h client hs) (get_key_iv_t a g' keysize ivsize data' h' client hs)
    (get_key_iv a g keysize ivsize data h client hs) (get_key_iv a g' keysize ivsize data' h' client hs).
Proof.
  intros a g g' ks is data data' h h' client hs SA G G' ED EH LH HK HI. apply (both_shows _ _ _ _ (fun _ _ => True)). unfold get_key_iv_t, get_key_iv. rewrite <- ED.
  eapply both_bind; [apply traffic_both; assumption|]. intros ts ts' [T T'].
  eapply both_bind; [apply label_both; try (apply shift_fresh; assumption); short|]. intros k k' _.
  eapply both_bind; [apply label_both; try (apply shift_fresh; assumption); short|]. intros i i' _. apply both_ret. exact I.
Qed.
Theorem C118_finished_key : forall a g g' data data' h h' client, sha2 a = true -> fresh a g -> fresh a g' ->
  zlen data = zlen data' -> zlen h = zlen h' -> zlen h < 2 ^ 60 ->
  shows_the_same (get_finished_key_t a g data h client) (get_finished_key_t a g' data' h' client) (get_finished_key a g data h client) (get_finished_key a g' data' h' client).
Proof.
  intros a g g' data data' h h' client SA G G' ED EH LH. pose proof (size_range a SA). eapply both_shows. unfold get_finished_key_t, get_finished_key. rewrite <- ED.
  eapply both_bind; [apply traffic_both; assumption|]. intros ts ts' [T T']. apply label_both; try (apply shift_fresh; assumption); short.
Qed.
Theorem C118_handshake_secret : forall a g g' shared shared', sha2 a = true -> fresh a g -> fresh a g' -> zlen shared = zlen shared' -> zlen shared < 2 ^ 63 ->
  shows_the_same (HKDF_HandshakeSecret_t a g shared) (HKDF_HandshakeSecret_t a g' shared') (HKDF_HandshakeSecret a g shared) (HKDF_HandshakeSecret a g' shared').
Proof.
  intros a g g' shared shared' SA G G' E L. pose proof (size_range a SA). assert (RZ : zlen (resize [] (h_size a)) = h_size a) by (apply resize_zlen; lia).
  eapply both_shows. unfold HKDF_HandshakeSecret_t, HKDF_HandshakeSecret. cbv zeta.
  eapply both_bind; [apply HMAC_both; try assumption; try reflexivity; lia|]. intros x x' [X X'].
  eapply both_bind; [apply h_hash_both; [assumption | apply shift_fresh; assumption | apply shift_fresh; assumption | constructor | constructor]|]. intros y y' [Y Y'].
  eapply both_bind; [apply label_both; try (apply shift_fresh; assumption); short|]. intros z z' [D D'].
  apply HMAC_both; try (apply shift_fresh; assumption); short.
Qed.
Theorem C118_master_secret : forall a g g' data data', sha2 a = true -> fresh a g -> fresh a g' -> zlen data = zlen data' ->
  shows_the_same (HKDF_MasterSecret_t a g data) (HKDF_MasterSecret_t a g' data') (HKDF_MasterSecret a g data) (HKDF_MasterSecret a g' data').
Proof.
  intros a g g' data data' SA G G' E. pose proof (size_range a SA). assert (RZ : zlen (resize [] (h_size a)) = h_size a) by (apply resize_zlen; lia).
  eapply both_shows. unfold HKDF_MasterSecret_t, HKDF_MasterSecret. cbv zeta.
  eapply both_bind; [apply h_hash_both; [assumption | apply G | apply G' | constructor | constructor]|]. intros y y' [Y Y'].
  eapply both_bind; [apply label_both; try (apply shift_fresh; assumption); short|]. intros z z' [D D'].
  apply HMAC_both; try (apply shift_fresh; assumption); short.
Qed.

(** ** C119 *)
(** The text form looks up every half of every byte of the digest in a table: the record holds the
    whole digest. *)
Fixpoint halves (d : list Z) : list event :=
  match d with
  | [] => [Loop false]
  | c :: rest => Loop true :: At (Z.shiftr c 4) :: At (Z.land c 0xF) :: halves rest
  end.
Lemma half_ok i : 0 <= i < 16 -> getz hextab i = Ok (nth (Z.to_nat i) hextab 0).
Proof. intros H. unfold getz. replace (0 <=? i) with true by lia. rewrite (nth_error_nth' hextab 0); [reflexivity|]. change (List.length hextab) with 16%nat. lia. Qed.
Lemma byte_halves c : byte c -> 0 <= Z.shiftr c 4 < 16 /\ 0 <= Z.land c 0xF < 16 /\ c = 16 * Z.shiftr c 4 + Z.land c 0xF.
Proof. unfold byte. intros H. change 0xF with (Z.ones 4). rewrite Z.land_ones, Z.shiftr_div_pow2 by lia. change (2 ^ 4) with 16. pose proof (Z.div_mod c 16). pose proof (Z.mod_pos_bound c 16). lia. Qed.
Lemma hex_value d : bytes d -> hex_t d = (halves d, Ok (hex_string d)).
Proof.
  induction 1 as [|c d Hc _ IH]; [reflexivity|]. cbn [hex_t halves hex_string flat_map]. destruct (byte_halves c Hc) as (H1 & H2 & _).
  apply (tbind_ok _ [Loop true] tt); [reflexivity|]. apply (tbind_ok _ [At (Z.shiftr c 4)] (nth (Z.to_nat (Z.shiftr c 4)) hextab 0)); [unfold get_t; rewrite half_ok by exact H1; reflexivity|].
  apply (tbind_ok _ [At (Z.land c 15)] (nth (Z.to_nat (Z.land c 15)) hextab 0)); [unfold get_t; rewrite half_ok by exact H2; reflexivity|].
  unfold tbind. rewrite IH. cbn [fst snd ret]. rewrite app_nil_r. reflexivity.
Qed.
Lemma halves_inj : forall d d', bytes d -> bytes d' -> halves d = halves d' -> d = d'.
Proof.
  induction d as [|c d IH]; intros [|c' d'] B B' E; cbn [halves] in E; try discriminate E; [reflexivity|]. inversion B; subst. inversion B'; subst.
  assert (E1 : Z.shiftr c 4 = Z.shiftr c' 4) by congruence. assert (E2 : Z.land c 15 = Z.land c' 15) by congruence.
  f_equal; [destruct (byte_halves c) as (_ & _ & ->); [assumption|]; destruct (byte_halves c') as (_ & _ & ->); [assumption|]; rewrite E1, E2; reflexivity|].
  apply IH; try assumption. congruence.
Qed.
(** The text form of the hash of a message of a known length: what it shows is exactly the hash. *)
Theorem C119_text_shows_hash : forall a g g' m m', a = ASHA256 \/ a = ASHA512 -> List.length g = buflen a -> List.length g' = buflen a ->
  bytes m -> bytes m' -> zlen m = zlen m' -> zlen m < 2 ^ 61 ->
  (fst (h_string_t a g [m]) = fst (h_string_t a g' [m']) <-> spec_hash a m = spec_hash a m').
Proof.
  intros a g g' m m' Ha L L' B B' E D. assert (SA : sha2 a = true) by (destruct Ha as [-> | ->]; reflexivity).
  pose proof (h_adds_both a SA [m] [m'] ltac:(repeat constructor; unfold same_len, zlen in *; lia) ltac:(repeat constructor; lia) _ _ (h_new_ok a g g' SA L L')) as (T1 & o & o' & E1 & F1 & E1' & F1' & OK).
  pose proof (h_digest_both a o o' SA OK) as (T2 & d & d' & E2 & F2 & E2' & F2' & _).
  assert (HD : Ok d = Ok (spec_hash a m)).
  { rewrite <- F2. transitivity (h_hash a g [m]); [unfold h_hash; rewrite F1; reflexivity|]. rewrite h_hash_ok; [cbn [concat]; rewrite app_nil_r; reflexivity | exact L | repeat constructor; exact B | cbn [concat]; rewrite app_nil_r; exact D]. }
  assert (HD' : Ok d' = Ok (spec_hash a m')).
  { rewrite <- F2'. transitivity (h_hash a g' [m']); [unfold h_hash; rewrite F1'; reflexivity|]. rewrite h_hash_ok; [cbn [concat]; rewrite app_nil_r; reflexivity | exact L' | repeat constructor; exact B' | cbn [concat]; rewrite app_nil_r; lia]. }
  assert (Hd : d = spec_hash a m) by (revert HD; clear; congruence). assert (Hd' : d' = spec_hash a m') by (revert HD'; clear; congruence).
  assert (S1 : fst (h_string_t a g [m]) = fst (h_adds_t a (h_new a g) [m]) ++ fst (h_digest_t a o) ++ halves d).
  { unfold h_string_t, tbind at 1. rewrite E1. cbn [fst]. f_equal. replace (match a with ASHA224 => ASHA256 | ASHA384 => ASHA512 | _ => a end) with a by (destruct Ha as [-> | ->]; reflexivity). unfold tbind. rewrite E2. cbn [fst]. rewrite (hex_value d) by (rewrite Hd; apply spec_hash_bytes). reflexivity. }
  assert (S2 : fst (h_string_t a g' [m']) = fst (h_adds_t a (h_new a g') [m']) ++ fst (h_digest_t a o') ++ halves d').
  { unfold h_string_t, tbind at 1. rewrite E1'. cbn [fst]. f_equal. replace (match a with ASHA224 => ASHA256 | ASHA384 => ASHA512 | _ => a end) with a by (destruct Ha as [-> | ->]; reflexivity). unfold tbind. rewrite E2'. cbn [fst]. rewrite (hex_value d') by (rewrite Hd'; apply spec_hash_bytes). reflexivity. }
  rewrite S1, S2, T1, T2, <- Hd, <- Hd'. split.
  - intros H. apply app_inv_head, app_inv_head in H. apply halves_inj; [rewrite Hd; apply spec_hash_bytes | rewrite Hd'; apply spec_hash_bytes | exact H].
  - intros ->. reflexivity.
Qed.
(** Hence it shows more than the length: two messages of one byte. *)
Theorem C119_text_refuted : exists m m', bytes m /\ bytes m' /\ zlen m = zlen m' /\
  forall g g', List.length g = buflen ASHA256 -> List.length g' = buflen ASHA256 -> fst (h_string_t ASHA256 g [m]) <> fst (h_string_t ASHA256 g' [m']).
Proof.
  assert (B0 : bytes [0]) by (repeat constructor; lia). assert (B1 : bytes [1]) by (repeat constructor; lia). exists [0], [1]. repeat split; try assumption.
  intros g g' L L' H. apply C119_text_shows_hash in H; try assumption; try reflexivity; [|left; reflexivity].
  set (z := repeat 0 64). assert (Lz : List.length z = buflen ASHA256) by reflexivity.
  assert (X : h_hash ASHA256 z [[0]] = h_hash ASHA256 z [[1]]).
  { rewrite (h_hash_ok ASHA256 z [[0]] Lz ltac:(constructor; [exact B0 | constructor]) ltac:(vm_compute; reflexivity)), (h_hash_ok ASHA256 z [[1]] Lz ltac:(constructor; [exact B1 | constructor]) ltac:(vm_compute; reflexivity)).
    cbn [concat app]. rewrite H. reflexivity. }
  revert X. clear. intros X.
  assert (N : (match h_hash ASHA256 z [[0]], h_hash ASHA256 z [[1]] with Ok x, Ok y => hd 0 x =? hd 0 y | _, _ => true end) = false) by (vm_compute; reflexivity).
  rewrite X in N. destruct (h_hash ASHA256 z [[1]]) as [x| | |]; try discriminate N. rewrite Z.eqb_refl in N. discriminate N.
Qed.

(** ** Cases *)
Definition blank (a : alg) : supply := fun _ => repeat 0 (buflen a).
(** Two different keys and texts of the same lengths give different MACs and one record, which is
    not empty. *)
Example C118_case : sha2 ASHA256 = true /\ fresh ASHA256 (blank ASHA256) /\ zlen [1; 2] = zlen [3; 4] /\ zlen [5] = zlen [6] /\
  HMAC ASHA256 (blank ASHA256) [1; 2] [5] <> HMAC ASHA256 (blank ASHA256) [3; 4] [6] /\
  (1000 <? zlen (fst (HMAC_t ASHA256 (blank ASHA256) [1; 2] [5]))) = true.
Proof.
  split; [reflexivity|]. split; [intros k; apply repeat_length|]. split; [reflexivity|]. split; [reflexivity|]. split; [|vm_compute; reflexivity].
  intros X. assert (N : (match HMAC ASHA256 (blank ASHA256) [1; 2] [5], HMAC ASHA256 (blank ASHA256) [3; 4] [6] with Ok x, Ok y => hd 0 x =? hd 0 y | _, _ => true end) = false) by (vm_compute; reflexivity).
  rewrite X in N. destruct (HMAC ASHA256 (blank ASHA256) [3; 4] [6]) as [x| | |]; try discriminate N. rewrite Z.eqb_refl in N. discriminate N.
Qed.
(** A record differs when the length does. *)
Example C118_length_case : fst (h_hash_t ASHA256 (repeat 0 64) [[1]]) <> fst (h_hash_t ASHA256 (repeat 0 64) [[1; 2]]).
Proof. intros X. apply (f_equal (fun l => nth 5 l (At 0))) in X. vm_compute in X. discriminate X. Qed.
Example C119_case : bytes [0] /\ bytes [1] /\ zlen [0] = zlen [1] /\ zlen [0] < 2 ^ 61 /\ List.length (repeat 0 64) = buflen ASHA256.
Proof. repeat split; try (repeat constructor; lia). Qed.
Print Assumptions C118_hash.
Print Assumptions C118_hmac.
Print Assumptions C118_expand.
Print Assumptions C118_traffic_keys.
Print Assumptions C118_finished_key.
Print Assumptions C118_handshake_secret.
Print Assumptions C118_master_secret.
Print Assumptions C119_text_shows_hash.
Print Assumptions C119_text_refuted.
