From Verif Require Import Base BaseP S_Word P_Word S_MD M_MD P_MD P_MDS P_SHA1 S_Const M_SHA2 S_SHA2.

Definition q8_word (w : Z) (q : st) : Prop :=
  let '(a, b, c, d, e, f, g, h) := q in
  word w a /\ word w b /\ word w c /\ word w d /\ word w e /\ word w f /\ word w g /\ word w h.
Definition R8 (w : Z) (l : list Z) (q : st) : Prop :=
  q8_word w q /\ let '(a, b, c, d, e, f, g, h) := q in l = [a; b; c; d; e; f; g; h].

Lemma K256_eq : K_256 = K32. Proof. vm_compute; reflexivity. Qed.
Lemma K512_eq : K_512 = K64. Proof. vm_compute; reflexivity. Qed.

Lemma be_val_word8 l : bytes l -> (length l <= 8)%nat -> word 64 (be_val l).
Proof.
  intros HB HL; pose proof (be_val_range l HB) as R; unfold word.
  assert (256 ^ zlen l <= 256 ^ 8) by (apply Z.pow_le_mono_r; unfold zlen; lia).
  change (2 ^ 64) with (256 ^ 8); lia.
Qed.

Lemma x3_code w a b c : 0 <= w -> word w a -> word w b -> word w c ->
  Z.lxor (Z.lxor a b) c = x3 a b c /\ word w (x3 a b c).
Proof. intros; unfold x3; rewrite Z.lxor_assoc; split; [reflexivity | repeat apply lxor_word; assumption]. Qed.

Lemma q8_intro w a b c d e f g h : word w a -> word w b -> word w c -> word w d -> word w e -> word w f -> word w g -> word w h ->
  q8_word w (a, b, c, d, e, f, g, h).
Proof. intros; unfold q8_word; auto 10. Qed.

(** ** The 32-bit family *)
Lemma sha256_word_spec M t : length M = 64%nat -> bytes M -> (t < 16)%nat ->
  sha256_word M t = nth t (words_be 4 M) 0.
Proof.
  intros LM HM Ht; rewrite words_be_nth by lia; unfold sha256_word; cbn [seq map].
  unfold be_val; cbn [fold_left].
  assert (HB : forall j, byte (nth (t * 4 + j) M 0)) by (intros; apply bytes_nth; assumption).
  pose proof (HB 0%nat).
  pose proof (HB 1%nat).
  pose proof (HB 2%nat).
  pose proof (HB 3%nat).
  rewrite !Z.shiftl_mul_pow2 by lia; unfold byte in *.
  rewrite w32_small by lia; lia.
Qed.
Lemma words32_word M : length M = 64%nat -> bytes M -> Forall (word 32) (words_be 4 M).
Proof.
  intros LM HM; unfold words_be; apply Forall_map.
  pose proof (blocks_ok 4 M 16 ltac:(lia) LM HM) as H.
  eapply Forall_impl; [|exact H]; intros c [Lc Bc]; apply be_val_word4; [assumption | lia].
Qed.
Lemma rotr32_spec v n : word 32 v -> 0 <= n <= 32 -> rotr32 v n = rotr 32 n v.
Proof. intros; apply rotr_lor; assumption. Qed.

Lemma S0_32 x : word 32 x ->
  Z.lxor (Z.lxor (rotr32 x 2) (rotr32 x 13)) (rotr32 x 22) = vS0 V32 x /\ word 32 (vS0 V32 x).
Proof. intros; rewrite !rotr32_spec by (assumption || lia); apply x3_code; try lia; apply rotr_word; (assumption || lia). Qed.
Lemma S1_32 x : word 32 x ->
  Z.lxor (Z.lxor (rotr32 x 6) (rotr32 x 11)) (rotr32 x 25) = vS1 V32 x /\ word 32 (vS1 V32 x).
Proof. intros; rewrite !rotr32_spec by (assumption || lia); apply x3_code; try lia; apply rotr_word; (assumption || lia). Qed.
Lemma s0_32 x : word 32 x ->
  Z.lxor (Z.lxor (rotr32 x 7) (rotr32 x 18)) (Z.shiftr x 3) = vs0 V32 x /\ word 32 (vs0 V32 x).
Proof.
  intros; rewrite !rotr32_spec, Z.shiftr_div_pow2 by (assumption || lia).
  apply (x3_code 32); [lia | apply rotr_word; (assumption || lia) | apply rotr_word; (assumption || lia) | apply (shr_word 32 3 x); (assumption || lia)].
Qed.
Lemma s1_32 x : word 32 x ->
  Z.lxor (Z.lxor (rotr32 x 17) (rotr32 x 19)) (Z.shiftr x 10) = vs1 V32 x /\ word 32 (vs1 V32 x).
Proof.
  intros; rewrite !rotr32_spec, Z.shiftr_div_pow2 by (assumption || lia).
  apply (x3_code 32); [lia | apply rotr_word; (assumption || lia) | apply rotr_word; (assumption || lia) | apply (shr_word 32 10 x); (assumption || lia)].
Qed.

Lemma sha256_sched M k : length M = 16%nat -> Forall (word 32) M ->
  fold_left (fun W t =>
      let w2 := nth (t - 2) W 0 in
      let w15 := nth (t - 15) W 0 in
      W ++ [w32 (Z.lxor (Z.lxor (rotr32 w2 17) (rotr32 w2 19)) (Z.shiftr w2 10)
               + Z.lxor (Z.lxor (rotr32 w15 7) (rotr32 w15 18)) (Z.shiftr w15 3)
               + nth (t - 7) W 0 + nth (t - 16) W 0)])
    (seq 16 k) M = rev (sched V32 M k)
  /\ length (sched V32 M k) = (16 + k)%nat /\ Forall (word 32) (sched V32 M k).
Proof.
  intros LM WM; induction k as [|k (IH & L & W)].
  - cbn [seq fold_left sched]; rewrite rev_involutive, rev_length.
    refine (conj _ (conj _ _)); [reflexivity | rewrite LM; reflexivity | apply Forall_rev; assumption].
  - rewrite seq_S, fold_left_app, IH; cbn [fold_left sched rev length].
    refine (conj _ (conj _ _)); [| lia | constructor; [apply addw_word; cbn [vw V32]; lia | assumption]].
    do 2 f_equal; rewrite <- L.
    rewrite !nth_rev_back by lia; cbn [Nat.sub].
    destruct (s1_32 (nth 1 (sched V32 M k) 0)) as [-> _]; [apply Forall_nth0; (lia || assumption)|].
    destruct (s0_32 (nth 14 (sched V32 M k) 0)) as [-> _]; [apply Forall_nth0; (lia || assumption)|].
    rewrite addw4; change (vw V32) with 32; unfold w32; f_equal; lia.
Qed.

Lemma sha256_W_spec M : length M = 64%nat -> bytes M ->
  forall t, nth t (sha256_W M) 0 = W V32 (words_be 4 M) t /\ word 32 (W V32 (words_be 4 M) t).
Proof.
  intros LM HM t; unfold sha256_W, W.
  rewrite (words_code sha256_word M 16 4) by (lia || (intros; apply sha256_word_spec; assumption || lia) || exact LM).
  change (vrounds V32 - 16)%nat with 48%nat.
  destruct (sha256_sched (words_be 4 M) 48) as (E & _ & F).
  - apply (words_be_length 4 16); [lia | exact LM].
  - apply words32_word; assumption.
  - cbv zeta in E; rewrite E; split; [reflexivity|]; apply Forall_nth0; [lia | apply Forall_rev; exact F].
Qed.

Lemma sha256_round_spec M s t : length M = 64%nat -> bytes M -> q8_word 32 s ->
  sha256_round (sha256_W M) s t = round V32 (W V32 (words_be 4 M)) s t
  /\ q8_word 32 (round V32 (W V32 (words_be 4 M)) s t).
Proof.
  intros LM HM; destruct s as [[[[[[[a b] c] d] e] f] g] h]; intros (Wa & Wb & Wc & Wd & We & Wf & Wg & Wh).
  destruct (sha256_W_spec M LM HM t) as [EW WW].
  unfold sha256_round, round; cbv zeta; rewrite EW.
  destruct (S1_32 e We) as [-> WS1]; destruct (S0_32 a Wa) as [-> WS0].
  change (sha2_not 32 e) with (compl 32 e); rewrite ch_or by (assumption || lia).
  change (Z.lxor (Z.lxor (Z.land a b) (Z.land a c)) (Z.land b c)) with (Maj a b c).
  rewrite K256_eq; rewrite (addw5 (vw V32) h); change (vw V32) with 32; change (vK V32) with K32.
  change w32 with (fun z => z mod 2 ^ 32); cbv beta; unfold addw.
  split; [reflexivity|]; apply q8_intro; try assumption; apply mod_word; lia.
Qed.

Lemma sha256_pc_sim M l q : length M = 64%nat -> bytes M -> R8 32 l q -> R8 32 (sha256_processChunk M l) (block V32 q M).
Proof.
  intros LM HM; destruct q as [[[[[[[h0 h1] h2] h3] h4] h5] h6] h7]; intros [HW ->].
  unfold sha256_processChunk, block; change (Z.to_nat (vw V32 / 8)) with 4%nat; change (vrounds V32) with 64%nat.
  assert (E : fold_left (sha256_round (sha256_W M)) (seq 0 64) (h0, h1, h2, h3, h4, h5, h6, h7)
     = fold_left (round V32 (W V32 (words_be 4 M))) (seq 0 64) (h0, h1, h2, h3, h4, h5, h6, h7)).
  { apply (fold_left_sim (fun x y => x = y /\ q8_word 32 y)); [|auto].
    intros x y t Ht [-> Hy]; apply sha256_round_spec; assumption. }
  rewrite E; clear E.
  destruct (fold_left (round V32 (W V32 (words_be 4 M))) (seq 0 64) (h0, h1, h2, h3, h4, h5, h6, h7)) as [[[[[[[a b] c] d] e] f] g] h].
  split; [apply q8_intro; apply addw_word; cbn [vw V32]; lia|].
  unfold addw, w32; change (vw V32) with 32.
  rewrite (Z.add_comm a), (Z.add_comm b), (Z.add_comm c), (Z.add_comm d), (Z.add_comm e), (Z.add_comm f), (Z.add_comm g), (Z.add_comm h); reflexivity.
Qed.

Lemma sha256_comp iv ivs m : R8 32 iv ivs -> bytes m -> zlen m < 2 ^ 61 ->
  R8 32 (comp 64 sha256_processChunk iv (m ++ cpad 64 8 true m))
     (fold_left (block V32) (chunks 64 (pad_be 64 8 m)) ivs).
Proof.
  intros HIV HB Hm; rewrite pad_be_code by (assumption || lia); unfold comp.
  apply fold_left_sim; [|exact HIV].
  destruct (pad_be_length 64 8 m) as [k Hk]; [lia|].
  pose proof (blocks_ok 64 _ k ltac:(lia) Hk (pad_be_bytes _ _ _ HB)) as HF.
  rewrite Forall_forall in HF; intros a b c Hin HR; destruct (HF c Hin); apply sha256_pc_sim; assumption.
Qed.

Lemma B64_div : 0 < 64 /\ (64 | 2 ^ 64). Proof. split; [lia|]; exists (2 ^ 64 / 64); reflexivity. Qed.

Lemma sha256_final_ok iv ivs s m : R8 32 iv ivs -> Inv 64 sha256_processChunk iv s m -> bytes m -> zlen m < 2 ^ 61 ->
  sha256_digest s = Ok (st_bytes V32 (fold_left (block V32) (chunks 64 (pad_be 64 8 m)) ivs)).
Proof.
  intros HIV HI HB Hm; destruct B64_div as [P D]; unfold sha256_digest.
  rewrite (md_final_ok 64 _ P D 8 true ltac:(lia) _ _ _ HI); cbn [bind]; f_equal.
  pose proof (sha256_comp iv ivs m HIV HB Hm) as [_ R].
  destruct (fold_left (block V32) (chunks 64 (pad_be 64 8 m)) ivs) as [[[[[[[h0 h1] h2] h3] h4] h5] h6] h7]; rewrite R.
  apply out_be4.
Qed.

Definition sha256_ivl : list Z := h_words (sha256_init []).
Definition sha224_ivl : list Z := h_words (sha224_init []).
Lemma sha256_iv_R : R8 32 sha256_ivl iv256.
Proof. split; [vm_compute; intuition congruence | vm_compute; reflexivity]. Qed.
Lemma sha224_iv_R : R8 32 sha224_ivl iv224.
Proof. split; [vm_compute; intuition congruence | vm_compute; reflexivity]. Qed.
Definition sha256_inv := Inv 64 sha256_processChunk sha256_ivl.
Definition sha224_inv := Inv 64 sha256_processChunk sha224_ivl.

Lemma sha256_digest_ok s m : sha256_inv s m -> bytes m -> zlen m < 2 ^ 61 -> sha256_digest s = Ok (sha256 m).
Proof. intros; eapply sha256_final_ok; try eassumption; apply sha256_iv_R. Qed.
Lemma st_bytes32_length s : length (st_bytes V32 s) = 32%nat.
Proof. destruct s as [[[[[[[h0 h1] h2] h3] h4] h5] h6] h7]; reflexivity. Qed.
Lemma sha224_digest_ok s m : sha224_inv s m -> bytes m -> zlen m < 2 ^ 61 -> sha224_digest s = Ok (sha224 m).
Proof.
  intros HI HB Hm; unfold sha224_digest; rewrite (sha256_final_ok _ iv224 s m sha224_iv_R HI HB Hm); cbn [bind].
  rewrite slice_ok by (unfold zlen; rewrite ?st_bytes32_length; lia); reflexivity.
Qed.

(** ** The 64-bit family *)
Lemma sha512_word_spec M t : length M = 128%nat -> bytes M -> (t < 16)%nat ->
  sha512_word M t = nth t (words_be 8 M) 0.
Proof.
  intros LM HM Ht; rewrite words_be_nth by lia; unfold sha512_word; cbn [seq map].
  unfold be_val; cbn [fold_left].
  assert (HB : forall j, byte (nth (t * 8 + j) M 0)) by (intros; apply bytes_nth; assumption).
  pose proof (HB 0%nat).
  pose proof (HB 1%nat).
  pose proof (HB 2%nat).
  pose proof (HB 3%nat).
  pose proof (HB 4%nat).
  pose proof (HB 5%nat).
  pose proof (HB 6%nat).
  pose proof (HB 7%nat).
  rewrite !Z.shiftl_mul_pow2 by lia; unfold byte in *.
  rewrite w64_small by lia; lia.
Qed.
Lemma words64_word M : length M = 128%nat -> bytes M -> Forall (word 64) (words_be 8 M).
Proof.
  intros LM HM; unfold words_be; apply Forall_map.
  pose proof (blocks_ok 8 M 16 ltac:(lia) LM HM) as H.
  eapply Forall_impl; [|exact H]; intros c [Lc Bc]; apply be_val_word8; [assumption | lia].
Qed.
Lemma rotr64_spec v n : word 64 v -> 0 <= n <= 64 -> rotr64 v n = rotr 64 n v.
Proof. intros; apply rotr_lor; assumption. Qed.

Lemma S0_64 x : word 64 x ->
  Z.lxor (Z.lxor (rotr64 x 28) (rotr64 x 34)) (rotr64 x 39) = vS0 V64 x /\ word 64 (vS0 V64 x).
Proof. intros; rewrite !rotr64_spec by (assumption || lia); apply x3_code; try lia; apply rotr_word; (assumption || lia). Qed.
Lemma S1_64 x : word 64 x ->
  Z.lxor (Z.lxor (rotr64 x 14) (rotr64 x 18)) (rotr64 x 41) = vS1 V64 x /\ word 64 (vS1 V64 x).
Proof. intros; rewrite !rotr64_spec by (assumption || lia); apply x3_code; try lia; apply rotr_word; (assumption || lia). Qed.
Lemma s0_64 x : word 64 x ->
  Z.lxor (Z.lxor (rotr64 x 1) (rotr64 x 8)) (Z.shiftr x 7) = vs0 V64 x /\ word 64 (vs0 V64 x).
Proof.
  intros; rewrite !rotr64_spec, Z.shiftr_div_pow2 by (assumption || lia).
  apply (x3_code 64); [lia | apply rotr_word; (assumption || lia) | apply rotr_word; (assumption || lia) | apply (shr_word 64 7 x); (assumption || lia)].
Qed.
Lemma s1_64 x : word 64 x ->
  Z.lxor (Z.lxor (rotr64 x 19) (rotr64 x 61)) (Z.shiftr x 6) = vs1 V64 x /\ word 64 (vs1 V64 x).
Proof.
  intros; rewrite !rotr64_spec, Z.shiftr_div_pow2 by (assumption || lia).
  apply (x3_code 64); [lia | apply rotr_word; (assumption || lia) | apply rotr_word; (assumption || lia) | apply (shr_word 64 6 x); (assumption || lia)].
Qed.

Lemma sha512_sched M k : length M = 16%nat -> Forall (word 64) M ->
  fold_left (fun W t =>
      let w2 := nth (t - 2) W 0 in
      let w15 := nth (t - 15) W 0 in
      W ++ [w64 (Z.lxor (Z.lxor (rotr64 w2 19) (rotr64 w2 61)) (Z.shiftr w2 6)
               + Z.lxor (Z.lxor (rotr64 w15 1) (rotr64 w15 8)) (Z.shiftr w15 7)
               + nth (t - 7) W 0 + nth (t - 16) W 0)])
    (seq 16 k) M = rev (sched V64 M k)
  /\ length (sched V64 M k) = (16 + k)%nat /\ Forall (word 64) (sched V64 M k).
Proof.
  intros LM WM; induction k as [|k (IH & L & W)].
  - cbn [seq fold_left sched]; rewrite rev_involutive, rev_length.
    refine (conj _ (conj _ _)); [reflexivity | rewrite LM; reflexivity | apply Forall_rev; assumption].
  - rewrite seq_S, fold_left_app, IH; cbn [fold_left sched rev length].
    refine (conj _ (conj _ _)); [| lia | constructor; [apply addw_word; cbn [vw V64]; lia | assumption]].
    do 2 f_equal; rewrite <- L.
    rewrite !nth_rev_back by lia; cbn [Nat.sub].
    destruct (s1_64 (nth 1 (sched V64 M k) 0)) as [-> _]; [apply Forall_nth0; (lia || assumption)|].
    destruct (s0_64 (nth 14 (sched V64 M k) 0)) as [-> _]; [apply Forall_nth0; (lia || assumption)|].
    rewrite addw4; change (vw V64) with 64; unfold w64; f_equal; lia.
Qed.

Lemma sha512_W_spec M : length M = 128%nat -> bytes M ->
  forall t, nth t (sha512_W M) 0 = W V64 (words_be 8 M) t /\ word 64 (W V64 (words_be 8 M) t).
Proof.
  intros LM HM t; unfold sha512_W, W.
  rewrite (words_code sha512_word M 16 8) by (lia || (intros; apply sha512_word_spec; assumption || lia) || exact LM).
  change (vrounds V64 - 16)%nat with 64%nat.
  destruct (sha512_sched (words_be 8 M) 64) as (E & _ & F).
  - apply (words_be_length 8 16); [lia | exact LM].
  - apply words64_word; assumption.
  - cbv zeta in E; rewrite E; split; [reflexivity|]; apply Forall_nth0; [lia | apply Forall_rev; exact F].
Qed.

Lemma sha512_round_spec M s t : length M = 128%nat -> bytes M -> q8_word 64 s ->
  sha512_round (sha512_W M) s t = round V64 (W V64 (words_be 8 M)) s t
  /\ q8_word 64 (round V64 (W V64 (words_be 8 M)) s t).
Proof.
  intros LM HM; destruct s as [[[[[[[a b] c] d] e] f] g] h]; intros (Wa & Wb & Wc & Wd & We & Wf & Wg & Wh).
  destruct (sha512_W_spec M LM HM t) as [EW WW].
  unfold sha512_round, round; cbv zeta; rewrite EW.
  destruct (S1_64 e We) as [-> WS1]; destruct (S0_64 a Wa) as [-> WS0].
  change (sha2_not 64 e) with (compl 64 e); rewrite ch_or by (assumption || lia).
  change (Z.lxor (Z.lxor (Z.land a b) (Z.land a c)) (Z.land b c)) with (Maj a b c).
  rewrite K512_eq; rewrite (addw5 (vw V64) h); change (vw V64) with 64; change (vK V64) with K64.
  change w64 with (fun z => z mod 2 ^ 64); cbv beta; unfold addw.
  split; [reflexivity|]; apply q8_intro; try assumption; apply mod_word; lia.
Qed.

Lemma sha512_pc_sim M l q : length M = 128%nat -> bytes M -> R8 64 l q -> R8 64 (sha512_processChunk M l) (block V64 q M).
Proof.
  intros LM HM; destruct q as [[[[[[[h0 h1] h2] h3] h4] h5] h6] h7]; intros [HW ->].
  unfold sha512_processChunk, block; change (Z.to_nat (vw V64 / 8)) with 8%nat; change (vrounds V64) with 80%nat.
  assert (E : fold_left (sha512_round (sha512_W M)) (seq 0 80) (h0, h1, h2, h3, h4, h5, h6, h7)
     = fold_left (round V64 (W V64 (words_be 8 M))) (seq 0 80) (h0, h1, h2, h3, h4, h5, h6, h7)).
  { apply (fold_left_sim (fun x y => x = y /\ q8_word 64 y)); [|auto].
    intros x y t Ht [-> Hy]; apply sha512_round_spec; assumption. }
  rewrite E; clear E.
  destruct (fold_left (round V64 (W V64 (words_be 8 M))) (seq 0 80) (h0, h1, h2, h3, h4, h5, h6, h7)) as [[[[[[[a b] c] d] e] f] g] h].
  split; [apply q8_intro; apply addw_word; cbn [vw V64]; lia|].
  unfold addw, w64; change (vw V64) with 64.
  rewrite (Z.add_comm a), (Z.add_comm b), (Z.add_comm c), (Z.add_comm d), (Z.add_comm e), (Z.add_comm f), (Z.add_comm g), (Z.add_comm h); reflexivity.
Qed.

Lemma sha512_comp iv ivs m : R8 64 iv ivs -> bytes m -> zlen m < 2 ^ 61 ->
  R8 64 (comp 128 sha512_processChunk iv (m ++ cpad 128 16 true m))
     (fold_left (block V64) (chunks 128 (pad_be 128 16 m)) ivs).
Proof.
  intros HIV HB Hm; rewrite pad_be_code by (assumption || lia); unfold comp.
  apply fold_left_sim; [|exact HIV].
  destruct (pad_be_length 128 16 m) as [k Hk]; [lia|].
  pose proof (blocks_ok 128 _ k ltac:(lia) Hk (pad_be_bytes _ _ _ HB)) as HF.
  rewrite Forall_forall in HF; intros a b c Hin HR; destruct (HF c Hin); apply sha512_pc_sim; assumption.
Qed.

Lemma B128_div : 0 < 128 /\ (128 | 2 ^ 64). Proof. split; [lia|]; exists (2 ^ 64 / 128); reflexivity. Qed.

Lemma sha512_final_ok iv ivs s m : R8 64 iv ivs -> Inv 128 sha512_processChunk iv s m -> bytes m -> zlen m < 2 ^ 61 ->
  sha512_digest s = Ok (st_bytes V64 (fold_left (block V64) (chunks 128 (pad_be 128 16 m)) ivs)).
Proof.
  intros HIV HI HB Hm; destruct B128_div as [P D]; unfold sha512_digest.
  rewrite (md_final_ok 128 _ P D 16 true ltac:(lia) _ _ _ HI); cbn [bind]; f_equal.
  pose proof (sha512_comp iv ivs m HIV HB Hm) as [_ R].
  destruct (fold_left (block V64) (chunks 128 (pad_be 128 16 m)) ivs) as [[[[[[[h0 h1] h2] h3] h4] h5] h6] h7]; rewrite R.
  apply out_be8.
Qed.

Definition sha512_ivl : list Z := h_words (sha512_init []).
Definition sha384_ivl : list Z := h_words (sha384_init []).
Lemma sha512_iv_R : R8 64 sha512_ivl iv512.
Proof. split; [vm_compute; intuition congruence | vm_compute; reflexivity]. Qed.
Lemma sha384_iv_R : R8 64 sha384_ivl iv384.
Proof. split; [vm_compute; intuition congruence | vm_compute; reflexivity]. Qed.
Definition sha512_inv := Inv 128 sha512_processChunk sha512_ivl.
Definition sha384_inv := Inv 128 sha512_processChunk sha384_ivl.

Lemma sha512_digest_ok s m : sha512_inv s m -> bytes m -> zlen m < 2 ^ 61 -> sha512_digest s = Ok (sha512 m).
Proof. intros; eapply sha512_final_ok; try eassumption; apply sha512_iv_R. Qed.
Lemma st_bytes64_length s : length (st_bytes V64 s) = 64%nat.
Proof. destruct s as [[[[[[[h0 h1] h2] h3] h4] h5] h6] h7]; reflexivity. Qed.
Lemma sha384_digest_ok s m : sha384_inv s m -> bytes m -> zlen m < 2 ^ 61 -> sha384_digest s = Ok (sha384 m).
Proof.
  intros HI HB Hm; unfold sha384_digest; rewrite (sha512_final_ok _ iv384 s m sha384_iv_R HI HB Hm); cbn [bind].
  rewrite slice_ok by (unfold zlen; rewrite ?st_bytes64_length; lia); reflexivity.
Qed.
