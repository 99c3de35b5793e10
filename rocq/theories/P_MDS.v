(** Bridge between the code's padding/word extraction and S_MD. *)
From Verif Require Import Base BaseP S_Word P_Word S_MD M_MD P_MD.

Lemma msgsize_le_spec n : forall len, msgsize_le n len = le_bytes n len.
Proof.
  induction n as [|n IH]; intros len; cbn [msgsize_le le_bytes]; [reflexivity|].
  rewrite IH; f_equal; [apply land_0xff | rewrite Z.shiftr_div_pow2 by lia; reflexivity].
Qed.

Lemma zero_bytes_code B L len : 0 < B ->
  Z.to_nat (B - 1 - (len + L) mod B) = zero_bytes B L len.
Proof.
  intros HB; unfold zero_bytes; f_equal.
  apply Z.mod_unique with (q := - ((len + L) / B) - 1);
    pose proof (Z.mod_pos_bound (len + L) B HB); pose proof (Z.div_mod (len + L) B ltac:(lia)); lia.
Qed.

Lemma pad_be_code B L m : 0 < B -> zlen m < 2 ^ 61 -> m ++ cpad B L true m = pad_be B L m.
Proof.
  intros HB Hm; unfold cpad, pad_be; rewrite zero_bytes_code by assumption.
  cbn [app]; do 4 f_equal; unfold msgsize, be_bytes; rewrite msgsize_le_spec; do 2 f_equal.
  rewrite w64_small by (pose proof (zlen_nonneg m); lia); lia.
Qed.
Lemma pad_le_code B L m : 0 < B -> zlen m < 2 ^ 61 -> m ++ cpad B L false m = pad_le B L m.
Proof.
  intros HB Hm; unfold cpad, pad_le; rewrite zero_bytes_code by assumption.
  cbn [app]; do 4 f_equal; unfold msgsize; rewrite msgsize_le_spec; f_equal.
  rewrite w64_small by (pose proof (zlen_nonneg m); lia); lia.
Qed.

Lemma pad_be_bytes B L m : bytes m -> bytes (pad_be B L m).
Proof.
  intros H; unfold pad_be; rewrite !bytes_app; repeat split; auto using be_bytes_bytes.
  - repeat constructor; lia.
  - apply bytes_repeat; unfold byte; lia.
Qed.
Lemma pad_le_bytes B L m : bytes m -> bytes (pad_le B L m).
Proof.
  intros H; unfold pad_le; rewrite !bytes_app; repeat split; auto using le_bytes_bytes.
  - repeat constructor; lia.
  - apply bytes_repeat; unfold byte; lia.
Qed.

Lemma pad_length_gen (b : nat) L (m tl : list Z) : (0 < b)%nat -> length tl = L ->
  exists k, length (m ++ [0x80] ++ repeat 0 (zero_bytes (Z.of_nat b) (Z.of_nat L) (zlen m)) ++ tl) = (k * b)%nat.
Proof.
  intros Hb HL.
  destruct (zero_bytes_fills (Z.of_nat b) (Z.of_nat L) (zlen m)) as [[q Hq] _];
    [lia | lia | apply zlen_nonneg |].
  exists (Z.to_nat q); apply Nat2Z.inj; rewrite Nat2Z.inj_mul.
  rewrite !app_length, repeat_length, HL; cbn [length]; unfold zlen in *.
  assert (0 <= q) by nia.
  rewrite Z2Nat.id by lia; lia.
Qed.
Lemma pad_be_length (b : nat) L m : (0 < b)%nat -> exists k, length (pad_be (Z.of_nat b) L m) = (k * b)%nat.
Proof. intros; apply pad_length_gen; [assumption | apply be_bytes_length]. Qed.
Lemma pad_le_length (b : nat) L m : (0 < b)%nat -> exists k, length (pad_le (Z.of_nat b) L m) = (k * b)%nat.
Proof. intros; apply pad_length_gen; [assumption | apply le_bytes_length]. Qed.

(** ** Words of a block *)
Lemma nth_chunks {A} n (l : list A) : (0 < n)%nat -> forall t, (t * n + n <= length l)%nat ->
  nth t (chunks n l) [] = firstn n (skipn (t * n) l).
Proof.
  intros Hn t; revert l; induction t as [|t IH]; intros l Hl.
  - rewrite chunks_step by (try lia; intros ->; cbn in Hl; lia); reflexivity.
  - rewrite chunks_step by (try lia; intros ->; cbn in Hl; lia); cbn [nth].
    rewrite IH by (rewrite skipn_length; lia).
    replace (S t * n)%nat with (n + t * n)%nat by lia; rewrite skipn_plus; reflexivity.
Qed.
Lemma chunks_length {A} n k (l : list A) : (0 < n)%nat -> length l = (k * n)%nat -> length (chunks n l) = k.
Proof.
  intros Hn; revert l; induction k as [|k IH]; intros l Hl.
  - destruct l; [reflexivity | cbn in Hl; lia].
  - rewrite chunks_step by (try lia; intros ->; cbn in Hl; lia); cbn [length].
    rewrite IH; [reflexivity | rewrite skipn_length; lia].
Qed.
Lemma firstn_skipn_nth {A} (d : A) n : forall k l, (k + n <= length l)%nat ->
  firstn n (skipn k l) = map (fun j => nth (k + j) l d) (seq 0 n).
Proof.
  induction n as [|n IH]; intros k l Hl; [reflexivity|].
  replace (skipn k l) with (nth k l d :: skipn (S k) l).
  - cbn [firstn seq map]; rewrite Nat.add_0_r; f_equal.
    rewrite IH by lia; rewrite <- seq_shift, map_map.
    apply map_ext; intros j; f_equal; lia.
  - clear IH; revert k Hl; induction l as [|x l IHl]; intros k Hl; [cbn in Hl; lia|].
    destruct k as [|k]; [reflexivity|]; cbn [nth skipn]; apply IHl; cbn in Hl; lia.
Qed.
Lemma words_be_nth sz M t : (0 < sz)%nat -> (t * sz + sz <= length M)%nat ->
  nth t (words_be sz M) 0 = be_val (map (fun j => nth (t * sz + j) M 0) (seq 0 sz)).
Proof.
  intros Hsz Ht; unfold words_be; change 0 with (be_val []) at 1; rewrite map_nth, nth_chunks by assumption.
  rewrite (firstn_skipn_nth 0) by assumption; reflexivity.
Qed.
Lemma words_le_nth sz M t : (0 < sz)%nat -> (t * sz + sz <= length M)%nat ->
  nth t (words_le sz M) 0 = le_val (map (fun j => nth (t * sz + j) M 0) (seq 0 sz)).
Proof.
  intros Hsz Ht; unfold words_le; change 0 with (le_val []) at 1; rewrite map_nth, nth_chunks by assumption.
  rewrite (firstn_skipn_nth 0) by assumption; reflexivity.
Qed.

(** ** Output *)
Lemma shr8_be4 v : map (fun j => Z.land (Z.shiftr v (8 * Z.of_nat 4 - 8 - 8 * Z.of_nat j)) 0xFF) (seq 0 4) = be_bytes 4 v.
Proof.
  unfold be_bytes; cbn [le_bytes seq map rev app Z.of_nat Z.mul Z.sub Z.opp Z.add Z.pos_sub Pos.mul Pos.of_succ_nat Pos.succ Pos.pred_double].
  rewrite !Z.shiftr_div_pow2, !land_0xff by lia; rewrite !Z.div_div by lia.
  repeat f_equal; rewrite ?Z.div_1_r; reflexivity.
Qed.
Lemma shr8_be8 v : map (fun j => Z.land (Z.shiftr v (8 * Z.of_nat 8 - 8 - 8 * Z.of_nat j)) 0xFF) (seq 0 8) = be_bytes 8 v.
Proof.
  unfold be_bytes; cbn [le_bytes seq map rev app Z.of_nat Z.mul Z.sub Z.opp Z.add Z.pos_sub Pos.mul Pos.of_succ_nat Pos.succ Pos.pred_double].
  rewrite !Z.shiftr_div_pow2, !land_0xff by lia; rewrite !Z.div_div by lia.
  repeat f_equal; rewrite ?Z.div_1_r; reflexivity.
Qed.
Lemma shr8_le4 v : map (fun j => Z.land (Z.shiftr v (8 * Z.of_nat j)) 0xFF) (seq 0 4) = le_bytes 4 v.
Proof.
  cbn [le_bytes seq map rev app Z.of_nat Z.mul Z.sub Z.opp Z.add Z.pos_sub Pos.mul Pos.of_succ_nat Pos.succ Pos.pred_double].
  rewrite !Z.shiftr_div_pow2, !land_0xff by lia; rewrite !Z.div_div by lia.
  repeat f_equal; rewrite ?Z.div_1_r; reflexivity.
Qed.
Lemma flat_map_ext' {A B} (f g : A -> list B) l : (forall x, f x = g x) -> flat_map f l = flat_map g l.
Proof. intros H; induction l; cbn [flat_map]; [reflexivity|]; rewrite H, IHl; reflexivity. Qed.
Lemma out_be4 ws : out_be 4 ws = flat_map (be_bytes 4) ws.
Proof. apply flat_map_ext', shr8_be4. Qed.
Lemma out_be8 ws : out_be 8 ws = flat_map (be_bytes 8) ws.
Proof. apply flat_map_ext', shr8_be8. Qed.
Lemma out_le4 ws : out_le 4 ws = flat_map (le_bytes 4) ws.
Proof. apply flat_map_ext', shr8_le4. Qed.

(** ** Folding a simulation *)
Lemma fold_left_sim {A B C} (R : A -> B -> Prop) (f : A -> C -> A) (g : B -> C -> B) (l : list C) :
  (forall a b c, In c l -> R a b -> R (f a c) (g b c)) ->
  forall a b, R a b -> R (fold_left f l a) (fold_left g l b).
Proof.
  induction l as [|c l IH]; intros Hs a b HR; [exact HR|]; cbn [fold_left].
  apply IH; [intros; apply Hs; [right|]; assumption | apply Hs; [left; reflexivity | assumption]].
Qed.

Lemma blocks_ok (b : nat) (l : list Z) k : (0 < b)%nat -> length l = (k * b)%nat -> bytes l ->
  Forall (fun M => length M = b /\ bytes M) (chunks b l).
Proof.
  intros Hb Hl HB; destruct (chunks_lengths b k l Hb Hl) as [H1 _].
  pose proof (Forall_chunks byte b l Hb HB) as H2.
  rewrite Forall_forall in H1, H2 |- *; intros x Hx; split; [exact (H1 x Hx) | exact (H2 x Hx)].
Qed.
