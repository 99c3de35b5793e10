(** C134 and C135: what an observer learns from hashing with MD5, SHA-1 and SHA-3, and from the
    text forms of those hashes. *)
From Coq Require Import String.
From Verif Require Import Base BaseP S_Hash M_MD M_SHA3 M_Hash P_Hash S_HKDF M_HKDF M_Leak P_Leak M_LeakHash P_LeakHash Prop_LeakHash M_LeakHash2 P_LeakHash2.
Open Scope Z_scope.
Open Scope list_scope.

Lemma same_lengths ps : forall ps', map zlen ps = map (@zlen Z) ps' -> Forall2 same_len ps ps'.
Proof.
  induction ps as [|p ps IH]; intros [|p' ps'] E; cbn [map] in E; try discriminate E; constructor.
  - assert (H : zlen p = zlen p') by congruence. unfold same_len, zlen in *. lia.
  - apply IH. congruence.
Qed.

(** ** C134 *)
(** Hashing in any number of pieces with any class that is not of SHA-2. *)
Theorem C134_hash : forall a g g' ps ps', sha2 a = false -> List.length g = buflen a -> List.length g' = buflen a ->
  map zlen ps = map zlen ps' -> Forall (fun p => zlen p < 2 ^ 64) ps ->
  shows_the_same (other_hash_t a g ps) (other_hash_t a g' ps') (h_hash a g ps) (h_hash a g' ps').
Proof. intros a g g' ps ps' SA L L' E F. eapply both_shows. apply other_hash_both; try assumption. apply same_lengths. exact E. Qed.
(** Message authentication with them. *)
Theorem C134_hmac : forall a g g' text text' key key', sha2 a = false -> fresh a g -> fresh a g' ->
  zlen text = zlen text' -> zlen key = zlen key' -> zlen text < 2 ^ 63 ->
  shows_the_same (other_HMAC_t a g text key) (other_HMAC_t a g' text' key') (HMAC a g text key) (HMAC a g' text' key').
Proof.
  intros a g g' text text' key key' SA G G' ET EK LT. apply (both_shows _ _ _ _ (digests a)). assert (R : 0 < h_size a <= 64) by (destruct a; cbn; lia). unfold other_HMAC_t, HMAC.
  assert (H1 : forall g g' d d', List.length g = buflen a -> List.length g' = buflen a -> zlen d = zlen d' -> zlen d < 2 ^ 64 -> both (other_hash_t a g [d]) (other_hash_t a g' [d']) (h_hash a g [d]) (h_hash a g' [d']) (digests a)).
  { intros. apply other_hash_both; try assumption; repeat constructor; try assumption. unfold same_len, zlen in *. lia. }
  assert (PL : forall x k, zlen (map (fun c => Z.lxor c x) (resize k (h_size a * 2))) = h_size a * 2) by (intros; unfold zlen; rewrite map_length; fold (zlen (resize k (h_size a * 2))); apply resize_zlen; lia).
  eapply both_step; [reflexivity | unfold pad_t; rewrite <- EK; reflexivity|]. eapply both_step; [reflexivity | unfold pad_t; rewrite <- EK; reflexivity|].
  set (o := map _ (resize key _)). set (o' := map _ (resize key' _)). set (i := map _ (resize key _)). set (i' := map _ (resize key' _)).
  assert (zlen o = h_size a * 2) by apply PL. assert (zlen o' = h_size a * 2) by apply PL. assert (zlen i = h_size a * 2) by apply PL. assert (zlen i' = h_size a * 2) by apply PL.
  apply insert_both; [lia | lia|]. eapply both_bind; [apply H1; [apply G | apply G' | rewrite !zlen_app; lia | rewrite zlen_app; lia]|].
  intros d d' [L L']. apply insert_both; [lia | lia|]. apply H1; [apply G | apply G' | rewrite !zlen_app; lia | rewrite zlen_app; lia].
Qed.

(** ** C135 *)
(** The text form of the hash of a message of a known length: what it shows is exactly the hash. *)
Theorem C135_text_shows_hash : forall a g g' m m', sha2 a = false -> List.length g = buflen a -> List.length g' = buflen a ->
  bytes m -> bytes m' -> zlen m = zlen m' -> zlen m < 2 ^ 61 ->
  (fst (other_string_t a g [m]) = fst (other_string_t a g' [m']) <-> spec_hash a m = spec_hash a m').
Proof.
  intros a g g' m m' SA L L' B B' E D.
  pose proof (other_adds_both a SA [m] [m'] ltac:(repeat constructor; unfold same_len, zlen in *; lia) ltac:(repeat constructor; lia) _ _ (other_new_ok a g g' SA L L')) as (T1 & o & o' & E1 & F1 & E1' & F1' & OK).
  pose proof (other_digest_both a o o' SA OK) as (T2 & d & d' & E2 & F2 & E2' & F2' & _).
  assert (HD : Ok d = Ok (spec_hash a m)).
  { rewrite <- F2. transitivity (h_hash a g [m]); [unfold h_hash; rewrite F1; reflexivity|]. rewrite h_hash_ok; [cbn [concat]; rewrite app_nil_r; reflexivity | exact L | repeat constructor; exact B | cbn [concat]; rewrite app_nil_r; exact D]. }
  assert (HD' : Ok d' = Ok (spec_hash a m')).
  { rewrite <- F2'. transitivity (h_hash a g' [m']); [unfold h_hash; rewrite F1'; reflexivity|]. rewrite h_hash_ok; [cbn [concat]; rewrite app_nil_r; reflexivity | exact L' | repeat constructor; exact B' | cbn [concat]; rewrite app_nil_r; lia]. }
  assert (Hd : d = spec_hash a m) by (revert HD; clear; congruence). assert (Hd' : d' = spec_hash a m') by (revert HD'; clear; congruence).
  assert (S1 : fst (other_string_t a g [m]) = fst (other_adds_t a (h_new a g) [m]) ++ fst (other_digest_t a o) ++ halves d).
  { unfold other_string_t, tbind at 1. rewrite E1. cbn [fst]. f_equal. unfold tbind. rewrite E2. cbn [fst]. rewrite (hex_value d) by (rewrite Hd; apply spec_hash_bytes). reflexivity. }
  assert (S2 : fst (other_string_t a g' [m']) = fst (other_adds_t a (h_new a g') [m']) ++ fst (other_digest_t a o') ++ halves d').
  { unfold other_string_t, tbind at 1. rewrite E1'. cbn [fst]. f_equal. unfold tbind. rewrite E2'. cbn [fst]. rewrite (hex_value d') by (rewrite Hd'; apply spec_hash_bytes). reflexivity. }
  rewrite S1, S2, T1, T2, <- Hd, <- Hd'. split.
  - intros H. apply app_inv_head, app_inv_head in H. apply halves_inj; [rewrite Hd; apply spec_hash_bytes | rewrite Hd'; apply spec_hash_bytes | exact H].
  - intros ->. reflexivity.
Qed.
(** Hence it shows more than the length: two messages of one byte, for a class of each kind. *)
Theorem C135_text_refuted : forall a, a = AMD5 \/ a = ASHA1 \/ a = ASHA3_256 -> exists m m', bytes m /\ bytes m' /\ zlen m = zlen m' /\
  forall g g', List.length g = buflen a -> List.length g' = buflen a -> fst (other_string_t a g [m]) <> fst (other_string_t a g' [m']).
Proof.
  intros a KA. assert (SA : sha2 a = false) by (destruct KA as [-> | [-> | ->]]; reflexivity). assert (B0 : bytes [0]) by (repeat constructor; lia). assert (B1 : bytes [1]) by (repeat constructor; lia). exists [0], [1]. repeat split; try assumption.
  intros g g' L L' H. apply C135_text_shows_hash in H; try assumption; try reflexivity.
  set (z := repeat 0 (buflen a)). assert (Lz : List.length z = buflen a) by apply repeat_length.
  assert (X : h_hash a z [[0]] = h_hash a z [[1]]).
  { rewrite (h_hash_ok a z [[0]] Lz ltac:(constructor; [exact B0 | constructor]) ltac:(vm_compute; reflexivity)), (h_hash_ok a z [[1]] Lz ltac:(constructor; [exact B1 | constructor]) ltac:(vm_compute; reflexivity)).
    cbn [concat app]. rewrite H. reflexivity. }
  revert X. unfold z. clear - KA. intros X.
  assert (N : (match h_hash a (repeat 0 (buflen a)) [[0]], h_hash a (repeat 0 (buflen a)) [[1]] with Ok x, Ok y => hd 0 x =? hd 0 y | _, _ => true end) = false) by (destruct KA as [-> | [-> | ->]]; vm_compute; reflexivity).
  rewrite X in N. destruct (h_hash a (repeat 0 (buflen a)) [[1]]) as [x| | |]; try discriminate N. rewrite Z.eqb_refl in N. discriminate N.
Qed.

(** ** Cases *)
(** The hypotheses of C134 hold of two messages with different hashes, and the records are not empty. *)
Example C134_case : sha2 AMD5 = false /\ sha2 ASHA1 = false /\ sha2 ASHA3_256 = false /\ fresh AMD5 (blank AMD5) /\
  map (@zlen Z) [[1]; [2; 3]] = map zlen [[4]; [5; 6]] /\ h_hash AMD5 (repeat 0 64) [[1]; [2; 3]] <> h_hash AMD5 (repeat 0 64) [[4]; [5; 6]] /\
  (500 <? zlen (fst (other_hash_t AMD5 (repeat 0 64) [[1]; [2; 3]]))) = true.
Proof.
  do 3 (split; [reflexivity|]). split; [intros k; apply repeat_length|]. split; [reflexivity|]. split; [|vm_compute; reflexivity].
  intros X. assert (N : (match h_hash AMD5 (repeat 0 64) [[1]; [2; 3]], h_hash AMD5 (repeat 0 64) [[4]; [5; 6]] with Ok x, Ok y => hd 0 x =? hd 0 y | _, _ => true end) = false) by (vm_compute; reflexivity).
  rewrite X in N. destruct (h_hash AMD5 (repeat 0 64) [[4]; [5; 6]]) as [x| | |]; try discriminate N. rewrite Z.eqb_refl in N. discriminate N.
Qed.
(** A record differs when the length does. *)
Example C134_length_case : fst (other_hash_t ASHA3_256 [] [[1]]) <> fst (other_hash_t ASHA3_256 [] [[1; 2]]).
Proof. intros X. apply (f_equal (fun l => nth 4 l (At 0))) in X. vm_compute in X. discriminate X. Qed.
Example C135_case : sha2 ASHA1 = false /\ bytes [0] /\ bytes [1] /\ zlen [0] = zlen [1] /\ zlen [0] < 2 ^ 61 /\ List.length (repeat 0 64) = buflen ASHA1.
Proof. repeat split; try (repeat constructor; lia). Qed.
Print Assumptions C134_hash.
Print Assumptions C134_hmac.
Print Assumptions C135_text_shows_hash.
Print Assumptions C135_text_refuted.
