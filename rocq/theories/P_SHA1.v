From Verif Require Import Base BaseP S_Word P_Word S_MD M_MD P_MD P_MDS S_Const M_SHA1 S_SHA1.

Definition q5_word (q : st) : Prop :=
  let '(a, b, c, d, e) := q in word 32 a /\ word 32 b /\ word 32 c /\ word 32 d /\ word 32 e.

Lemma byte_word32 b : byte b -> word 32 b. Proof. unfold byte, word; lia. Qed.

Lemma be_word_code b0 b1 b2 b3 : byte b0 -> byte b1 -> byte b2 -> byte b3 ->
  w32 (Z.lor (w32 (Z.shiftl (w32 (Z.lor (w32 (Z.shiftl (w32 (Z.lor (w32 (Z.shiftl (w32 (Z.lor (w32 (Z.shiftl 0 8)) b0)) 8)) b1)) 8)) b2)) 8)) b3)
  = be_val [b0; b1; b2; b3].
Proof.
  unfold byte; intros; unfold be_val; cbn [fold_left].
  assert (E : forall v b, 0 <= v < 2 ^ 24 -> 0 <= b < 256 -> w32 (Z.lor (w32 (Z.shiftl v 8)) b) = 256 * v + b).
  { intros v b Hv Hb; rewrite Z.shiftl_mul_pow2 by lia.
    rewrite (w32_small (v * _)) by lia; rewrite lor_disjoint_add by lia.
    rewrite w32_small by lia; lia. }
  rewrite (E 0 b0), (E _ b1), (E _ b2), (E _ b3) by lia; reflexivity.
Qed.

Lemma sha1_word_spec M t : length M = 64%nat -> bytes M -> (t < 16)%nat ->
  sha1_word M t = nth t (words_be 4 M) 0.
Proof.
  intros LM HM Ht; rewrite words_be_nth by lia; unfold sha1_word; cbn [fold_left seq map].
  rewrite be_word_code by (apply bytes_nth; assumption).
  rewrite (Nat.mul_comm t 4); reflexivity.
Qed.

Lemma be_val_word4 l : bytes l -> (length l <= 4)%nat -> word 32 (be_val l).
Proof.
  intros HB HL; pose proof (be_val_range l HB) as R; unfold word.
  assert (256 ^ zlen l <= 256 ^ 4) by (apply Z.pow_le_mono_r; unfold zlen; lia).
  change (2 ^ 32) with (256 ^ 4); lia.
Qed.

Lemma words_be_length sz k M : (0 < sz)%nat -> length M = (k * sz)%nat -> length (words_be sz M) = k.
Proof. intros; unfold words_be; rewrite map_length; apply chunks_length with (n := sz); assumption. Qed.

Lemma words_be_word M : length M = 64%nat -> bytes M -> Forall (word 32) (words_be 4 M).
Proof.
  intros LM HM; unfold words_be; apply Forall_map.
  pose proof (blocks_ok 4 M 16 ltac:(lia) LM HM) as H.
  eapply Forall_impl; [|exact H]; intros c [Lc Bc]; apply be_val_word4; [assumption | lia].
Qed.

(** list as map of nth *)
Lemma map_nth_seq {A} (d : A) l : map (fun t => nth t l d) (seq 0 (length l)) = l.
Proof.
  induction l as [|x l IH]; [reflexivity|]; cbn [length seq map nth]; f_equal.
  rewrite <- seq_shift, map_map; exact IH.
Qed.

Lemma words_code (f : list Z -> nat -> Z) M n sz : (0 < sz)%nat -> length M = (n * sz)%nat ->
  (forall t, (t < n)%nat -> f M t = nth t (words_be sz M) 0) -> map (f M) (seq 0 n) = words_be sz M.
Proof.
  intros Hsz LM Hf; rewrite <- (map_nth_seq 0 (words_be sz M)), (words_be_length sz n) by assumption.
  apply map_ext_in; intros t Ht; apply in_seq in Ht; apply Hf; lia.
Qed.

Lemma nth_rev_back (l : list Z) j : (1 <= j <= length l)%nat ->
  nth (length l - j) (rev l) 0 = nth (j - 1) l 0.
Proof. intros H; rewrite rev_nth by lia; f_equal; lia. Qed.

Lemma sha1_rotate_spec v n : word 32 v -> 0 <= n <= 32 -> sha1_rotate v n = rotl 32 n v.
Proof. intros; apply rotl_lxor; assumption. Qed.

Lemma Forall_nth0 w l i : 0 <= w -> Forall (word w) l -> word w (nth i l 0).
Proof.
  intros Hw HF; destruct (Nat.lt_ge_cases i (length l)) as [H|H].
  - rewrite Forall_forall in HF; apply HF, nth_In; exact H.
  - rewrite nth_overflow by exact H; unfold word; split; [lia | apply Z.pow_pos_nonneg; lia].
Qed.

Lemma sha1_sched M k : length M = 16%nat -> Forall (word 32) M ->
  fold_left (fun w i => w ++ [sha1_rotate (Z.lxor (Z.lxor (Z.lxor (nth (i - 3) w 0) (nth (i - 8) w 0)) (nth (i - 14) w 0)) (nth (i - 16) w 0)) 1])
    (seq 16 k) M = rev (sched M k)
  /\ length (sched M k) = (16 + k)%nat /\ Forall (word 32) (sched M k).
Proof.
  intros LM WM; induction k as [|k (IH & L & W)].
  - cbn [seq fold_left sched]; rewrite rev_involutive, rev_length; repeat split; auto.
    apply Forall_rev; assumption.
  - assert (WX : word 32 (Z.lxor (nth 2 (sched M k) 0) (Z.lxor (nth 7 (sched M k) 0) (Z.lxor (nth 13 (sched M k) 0) (nth 15 (sched M k) 0)))))
      by (repeat apply lxor_word; try lia; apply Forall_nth0; (assumption || lia)).
    rewrite seq_S, fold_left_app, IH; cbn [fold_left sched rev length].
    split; [|split; [lia | constructor; [apply rotl_word; [lia | assumption] | assumption]]].
    do 2 f_equal; rewrite <- L.
    rewrite !nth_rev_back by lia; cbn [Nat.sub].
    rewrite !Z.lxor_assoc; apply sha1_rotate_spec; [assumption | lia].
Qed.

Lemma sha1_w_spec M : length M = 64%nat -> bytes M ->
  forall t, nth t (sha1_w M) 0 = W (words_be 4 M) t /\ word 32 (W (words_be 4 M) t).
Proof.
  intros LM HM t; unfold sha1_w, W.
  rewrite (words_code sha1_word M 16 4) by (lia || (intros; apply sha1_word_spec; assumption || lia) || exact LM).
  destruct (sha1_sched (words_be 4 M) 64) as (E & _ & F).
  - apply (words_be_length 4 16); [lia | exact LM].
  - apply words_be_word; assumption.
  - rewrite E; split; [reflexivity|]; apply Forall_nth0; [lia | apply Forall_rev; exact F].
Qed.

Lemma sha1_round_spec f k M a b c d e t : length M = 64%nat -> bytes M -> q5_word (a, b, c, d, e) ->
  f b c d = ft t b c d -> k = Kt t ->
  sha1_round f k (sha1_w M) (a, b, c, d, e) t = round (W (words_be 4 M)) (a, b, c, d, e) t
  /\ q5_word (round (W (words_be 4 M)) (a, b, c, d, e) t).
Proof.
  intros LM HM (Wa & Wb & Wc & Wd & We) Ef Ek; destruct (sha1_w_spec M LM HM t) as [EW WW].
  unfold sha1_round, round; rewrite EW, Ef, Ek, !sha1_rotate_spec by (assumption || lia); split.
  - do 4 f_equal; rewrite addw5; unfold w32; f_equal; lia.
  - refine (conj _ (conj _ (conj _ (conj _ _)))); try assumption; [apply addw_word; lia | apply rotl_word; (lia || assumption)].
Qed.

Lemma sha1_seg f k M lo n : length M = 64%nat -> bytes M ->
  (forall t b c d, (lo <= t < lo + n)%nat -> word 32 b -> word 32 c -> word 32 d -> f b c d = ft t b c d) ->
  (forall t, (lo <= t < lo + n)%nat -> k = Kt t) ->
  forall s, q5_word s ->
  fold_left (sha1_round f k (sha1_w M)) (seq lo n) s = fold_left (round (W (words_be 4 M))) (seq lo n) s
  /\ q5_word (fold_left (round (W (words_be 4 M))) (seq lo n) s).
Proof.
  intros LM HM Hf Hk s Hs.
  apply (fold_left_sim (fun x y => x = y /\ q5_word y)); [|auto].
  intros x y t Ht [-> Hy]; apply in_seq in Ht; destruct y as [[[[a b] c] d] e].
  destruct Hy as (? & ? & ? & ? & ?).
  apply sha1_round_spec; try assumption; [unfold q5_word; tauto | apply Hf; assumption | apply Hk; assumption].
Qed.

Definition R5 (l : list Z) (q : st) : Prop :=
  q5_word q /\ let '(a, b, c, d, e) := q in l = [a; b; c; d; e].

Lemma Kt_vals t : (t < 80)%nat -> Kt t = if Nat.ltb t 20 then 0x5A827999 else if Nat.ltb t 40 then 0x6ED9EBA1
  else if Nat.ltb t 60 then 0x8F1BBCDC else 0xCA62C1D6.
Proof. intros _; unfold Kt; repeat destruct (Nat.ltb _ _); vm_compute; reflexivity. Qed.

Ltac seg_side :=
  intros t; intros;
  unfold ft; rewrite ?Kt_vals by lia;
  repeat match goal with |- context [Nat.ltb t ?n] => destruct (Nat.ltb_spec t n); try lia end; try reflexivity.

Lemma sha1_rounds_spec M s : length M = 64%nat -> bytes M -> q5_word s ->
  fold_left (sha1_round (fun b c d => Z.lxor (Z.lxor b c) d) 0xCA62C1D6 (sha1_w M)) (seq 60 20)
   (fold_left (sha1_round (fun b c d => Z.lor (Z.lor (Z.land b c) (Z.land b d)) (Z.land c d)) 0x8F1BBCDC (sha1_w M)) (seq 40 20)
    (fold_left (sha1_round (fun b c d => Z.lxor (Z.lxor b c) d) 0x6ED9EBA1 (sha1_w M)) (seq 20 20)
     (fold_left (sha1_round (fun b c d => Z.lor (Z.land b c) (Z.land (sha1_not b) d)) 0x5A827999 (sha1_w M)) (seq 0 20) s)))
  = fold_left (round (W (words_be 4 M))) (seq 0 80) s
  /\ q5_word (fold_left (round (W (words_be 4 M))) (seq 0 80) s).
Proof.
  intros LM HM Hs.
  change (seq 0 80) with (seq 0 20 ++ seq 20 20 ++ seq 40 20 ++ seq 60 20); rewrite !fold_left_app.
  set (g := round (W (words_be 4 M))).
  destruct (sha1_seg (fun b c d => Z.lor (Z.land b c) (Z.land (sha1_not b) d)) 0x5A827999 M 0 20 LM HM) with (s := s) as [E1 W1];
    [seg_side; apply ch_or; (assumption || lia) | seg_side | assumption |].
  fold g in E1, W1; rewrite E1.
  destruct (sha1_seg (fun b c d => Z.lxor (Z.lxor b c) d) 0x6ED9EBA1 M 20 20 LM HM) with (s := fold_left g (seq 0 20) s) as [E2 W2];
    [seg_side | seg_side | assumption |].
  fold g in E2, W2; rewrite E2.
  destruct (sha1_seg (fun b c d => Z.lor (Z.lor (Z.land b c) (Z.land b d)) (Z.land c d)) 0x8F1BBCDC M 40 20 LM HM)
    with (s := fold_left g (seq 20 20) (fold_left g (seq 0 20) s)) as [E3 W3];
    [seg_side; apply maj_or | seg_side | assumption |].
  fold g in E3, W3; rewrite E3.
  apply (sha1_seg (fun b c d => Z.lxor (Z.lxor b c) d) 0xCA62C1D6 M 60 20 LM HM); [seg_side | seg_side | assumption].
Qed.

Lemma sha1_pc_sim M l q : length M = 64%nat -> bytes M -> R5 l q -> R5 (sha1_processChunk M l) (block q M).
Proof.
  intros LM HM; destruct q as [[[[h0 h1] h2] h3] h4]; intros [HW ->].
  unfold sha1_processChunk, block; cbv zeta.
  destruct (sha1_rounds_spec M (h0, h1, h2, h3, h4) LM HM HW) as [E _]; rewrite E.
  destruct (fold_left (round (W (words_be 4 M))) (seq 0 80) (h0, h1, h2, h3, h4)) as [[[[a b] c] d] e].
  split; [refine (conj _ (conj _ (conj _ (conj _ _)))); apply addw_word; lia|].
  unfold addw, w32; rewrite (Z.add_comm a), (Z.add_comm b), (Z.add_comm c), (Z.add_comm d), (Z.add_comm e); reflexivity.
Qed.

Definition sha1_iv : list Z := [0x67452301; 0xefcdab89; 0x98badcfe; 0x10325476; 0xc3d2e1f0].
Lemma sha1_iv_R : R5 sha1_iv init.
Proof. unfold R5, sha1_iv, init, q5_word, word; vm_compute; repeat split; congruence. Qed.

Lemma sha1_comp m : bytes m -> zlen m < 2 ^ 61 ->
  R5 (comp 64 sha1_processChunk sha1_iv (m ++ cpad 64 8 true m))
     (fold_left block (chunks 64 (pad_be 64 8 m)) init).
Proof.
  intros HB Hm; rewrite pad_be_code by (assumption || lia); unfold comp.
  apply fold_left_sim; [|apply sha1_iv_R].
  destruct (pad_be_length 64 8 m) as [k Hk]; [lia|].
  pose proof (blocks_ok 64 _ k ltac:(lia) Hk (pad_be_bytes _ _ _ HB)) as HF.
  rewrite Forall_forall in HF; intros a b c Hin HR; destruct (HF c Hin); apply sha1_pc_sim; assumption.
Qed.

Lemma B64 : 0 < 64 /\ (64 | 2 ^ 64). Proof. split; [lia|]; exists (2 ^ 58); reflexivity. Qed.
Definition sha1_inv := Inv 64 sha1_processChunk sha1_iv.

Lemma sha1_digest_ok s m : sha1_inv s m -> bytes m -> zlen m < 2 ^ 61 -> sha1_digest s = Ok (sha1 m).
Proof.
  intros HI HB Hm; destruct B64 as [P D]; unfold sha1_digest.
  rewrite (md_final_ok 64 _ P D 8 true ltac:(lia) _ _ _ HI); cbn [bind]; f_equal.
  pose proof (sha1_comp m HB Hm) as [_ R]; unfold sha1.
  destruct (fold_left block (chunks 64 (pad_be 64 8 m)) init) as [[[[A B] C] D0] E0]; rewrite R.
  rewrite out_be4; cbn [flat_map]; rewrite app_nil_r; reflexivity.
Qed.
