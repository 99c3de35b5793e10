(** GCM's bit order: the mirrored representation used by ghash.h, and the GHASH of a message. *)
From Coq Require Import Btauto.
From Verif Require Import Base BaseP M_GCM S_GCM P_Ghash.
Open Scope Z_scope.

Definition mirror (X a : Z) : Prop :=
  0 <= X < 2 ^ 128 /\ 0 <= a < 2 ^ 128 /\ forall i, 0 <= i < 128 -> Z.testbit a i = Z.testbit X (127 - i).
Lemma mirror_0 : mirror 0 0.
Proof. split; [lia|]; split; [lia|]; intros; rewrite !Z.testbit_0_l; reflexivity. Qed.
Lemma mirror_lxor X Y a b : mirror X a -> mirror Y b -> mirror (Z.lxor X Y) (Z.lxor a b).
Proof.
  intros (X1 & A1 & M1) (X2 & A2 & M2); split; [apply lxor_range; lia|]; split; [apply lxor_range; lia|].
  intros i Hi; rewrite !Z.lxor_spec, M1, M2 by exact Hi; reflexivity.
Qed.
Lemma mirror_unique X a b : mirror X a -> mirror X b -> a = b.
Proof.
  intros (_ & A & M1) (_ & B & M2); bits; destruct (Z.ltb_spec i 128).
  - rewrite M1, M2 by lia; reflexivity.
  - rewrite !(testbit_high _ 128) by lia; reflexivity.
Qed.

Lemma for_128 (f : Z -> bool) : forallb f (map Z.of_nat (seq 0 128)) = true -> forall i, 0 <= i < 128 -> f i = true.
Proof.
  intros H i Hi; rewrite forallb_forall in H; apply H, in_map_iff; exists (Z.to_nat i); split; [lia|]; apply in_seq; lia.
Qed.
Lemma R_pol i : 0 <= i < 128 -> Z.testbit R (127 - i) = Z.testbit pol i.
Proof.
  intros Hi; apply eqb_prop; revert i Hi; apply (for_128 (fun i => eqb (Z.testbit R (127 - i)) (Z.testbit pol i))).
  with_strategy transparent [pol] (vm_compute; reflexivity).
Qed.
Lemma R_range : 0 <= R < 2 ^ 128.
Proof. split; [discriminate | reflexivity]. Qed.
Lemma mirror_step V v : mirror V v -> mirror (halve V) (xt v).
Proof.
  intros (HV & Hv & M); split; [|split; [apply xt_range; exact Hv|]].
  - assert (0 <= V / 2 < 2 ^ 128) by (split; [apply Z.div_pos; lia | apply Z.div_lt_upper_bound; lia]).
    unfold halve; destruct (Z.testbit V 0); [apply lxor_range; [lia | lia | apply R_range] | lia].
  - intros i Hi; assert (S1 : Z.testbit (Z.shiftl v 1) i = Z.testbit (V / 2) (127 - i)).
    { rewrite Z.shiftl_spec by lia; change (V / 2) with (V / 2 ^ 1); rewrite Z.div_pow2_bits by lia.
      destruct (Z.eq_dec i 0) as [->|D]; [rewrite Z.testbit_neg_r by lia; symmetry; apply (testbit_high V 128); lia|].
      rewrite M by lia; f_equal; lia. }
    unfold xt, halve; rewrite (M 127) by lia; replace (127 - 127) with 0 by lia.
    destruct (Z.testbit V 0); [rewrite !Z.lxor_spec, S1, R_pol by lia; reflexivity | exact S1].
Qed.
Lemma mirror_steps n : forall i X a Zv acc V v, 0 <= i -> i + Z.of_nat n <= 128 -> mirror X a -> mirror Zv acc -> mirror V v ->
  mirror (prod_steps n i X Zv V) (steps n i a acc v).
Proof.
  induction n as [|n IH]; intros i X a Zv acc V v H0 Hi MX MZ MV; cbn [prod_steps steps]; [exact MZ|].
  apply IH; [lia | lia | exact MX | | apply mirror_step; exact MV].
  destruct MX as (_ & _ & MX); rewrite (MX i) by lia; destruct (Z.testbit X (127 - i)); [apply mirror_lxor|]; assumption.
Qed.
Lemma galois_mirror X Y a b : mirror X a -> mirror Y b -> mirror (block_mul X Y) (galoisMultiply a b).
Proof.
  intros MX MY; destruct (galois_congr a b (proj1 (proj2 MX)) (proj1 (proj2 MY))) as [G1 G2].
  destruct (steps_spec a b (proj1 (proj2 MY))) as [S1 S2].
  replace (galoisMultiply a b) with (steps 128 0 a 0 b).
  - unfold block_mul; apply (mirror_steps 128 0 X a 0 0 Y b); [lia | lia | exact MX | apply mirror_0 | exact MY].
  - apply congr_eq; [exact S1 | exact G1 |]; apply congr_trans with (clmul 128 a b); [exact S2 | apply congr_sym; exact G2].
Qed.

(** * reflect mirrors every byte *)
Definition perm (k i : Z) : Z := if (i / k) mod 2 =? 0 then i + k else i - k.
Definition masks_ok (k x y i : Z) : bool :=
  if Z.testbit (rep4 y) i then negb (Z.testbit (rep4 x) i) && (i mod 64 + k <? 64) && (perm k i =? i + k)
  else Z.testbit (rep4 x) i && (k <=? i mod 64) && (perm k i =? i - k).
Lemma lanes64_range f v : (forall x, 0 <= x < 2 ^ 64 -> 0 <= f x < 2 ^ 64) -> 0 <= lanes64 f v < 2 ^ 128.
Proof.
  intros F; pose proof (F _ (lane_range 64 v 0 ltac:(lia))); pose proof (F _ (lane_range 64 v 1 ltac:(lia))).
  unfold lanes64; lia.
Qed.
Lemma sra64_testbit v k i : 0 < k -> 0 <= i < 128 -> i mod 64 + k < 64 -> Z.testbit (sra64 v k) i = Z.testbit v (i + k).
Proof.
  intros Hk Hi L; pose proof (Z.mod_pos_bound i 64 ltac:(lia)); pose proof (Z.div_mod i 64 ltac:(lia)).
  assert (0 <= i / 64) by (apply Z.div_pos; lia).
  unfold sra64; rewrite lanes64_testbit by (try lia; intros; apply Z.mod_pos_bound; lia).
  rewrite Z.mod_pow2_bits_low, Z.shiftr_spec by lia; set (x := lane 64 v (i / 64)).
  assert (T : Z.testbit x (i mod 64 + k) = Z.testbit v (i + k)).
  { unfold x; rewrite lane_testbit by lia; destruct (Z.ltb_spec (i mod 64 + k) 64); [|lia]; cbn [andb]; f_equal; lia. }
  rewrite <- T; destruct (2 ^ 63 <=? x); [|reflexivity].
  rewrite <- (Z.mod_pow2_bits_low (x - 2 ^ 64) 64) by lia; rewrite <- (Z.mod_pow2_bits_low x 64) by lia; f_equal.
  replace (x - 2 ^ 64) with (x + (-1) * 2 ^ 64) by ring; apply Z.mod_add; lia.
Qed.
Lemma shl64_testbit v k i : 0 < k -> 0 <= i < 128 -> k <= i mod 64 -> Z.testbit (shl64 v k) i = Z.testbit v (i - k).
Proof.
  intros Hk Hi L; pose proof (Z.mod_pos_bound i 64 ltac:(lia)); pose proof (Z.div_mod i 64 ltac:(lia)).
  assert (0 <= i / 64) by (apply Z.div_pos; lia).
  unfold shl64; rewrite lanes64_testbit by (try lia; intros; apply Z.mod_pos_bound; lia).
  rewrite Z.mod_pow2_bits_low, Z.shiftl_spec by lia; rewrite lane_testbit by lia.
  destruct (Z.ltb_spec (i mod 64 - k) 64); [|lia]; cbn [andb]; f_equal; lia.
Qed.
Lemma reflect_step_testbit k x y v i : 0 < k -> 0 <= i < 128 -> masks_ok k x y i = true ->
  Z.testbit (reflect_step k x y v) i = Z.testbit v (perm k i).
Proof.
  intros Hk Hi; unfold masks_ok, reflect_step; rewrite Z.lor_spec, !Z.land_spec.
  destruct (Z.testbit (rep4 y) i); intros M; apply andb_true_iff in M; destruct M as [M M3]; apply andb_true_iff in M; destruct M as [M1 M2]; apply Z.eqb_eq in M3; rewrite M3.
  - apply negb_true_iff in M1; rewrite M1, sra64_testbit by lia; rewrite !andb_true_r, andb_false_r, orb_false_r; reflexivity.
  - rewrite M1, shl64_testbit by lia; rewrite andb_false_r, andb_true_r; reflexivity.
Qed.
Definition flip (i : Z) : Z := 8 * (i / 8) + 7 - i mod 8.
Lemma reflect_testbit v i : 0 <= i < 128 -> Z.testbit (reflect v) i = Z.testbit v (flip i).
Proof.
  intros Hi.
  assert (C : (masks_ok 1 0xAAAAAAAA 0x55555555 i && masks_ok 2 0xCCCCCCCC 0x33333333 (perm 1 i) && masks_ok 4 0xF0F0F0F0 0x0F0F0F0F (perm 2 (perm 1 i)) &&
    (perm 4 (perm 2 (perm 1 i)) =? flip i) && (0 <=? perm 1 i) && (perm 1 i <? 128) && (0 <=? perm 2 (perm 1 i)) && (perm 2 (perm 1 i) <? 128)) = true).
  { revert i Hi; apply (for_128 (fun i => _)); vm_compute; reflexivity. }
  repeat (apply andb_true_iff in C; destruct C as [C ?]); unfold reflect; cbv zeta.
  rewrite !reflect_step_testbit by (assumption || lia); f_equal; lia.
Qed.
Lemma reflect_range v : 0 <= reflect v < 2 ^ 128.
Proof.
  unfold reflect; cbv zeta; unfold reflect_step at 1; apply lor_range; [lia| |]; apply land_range; try lia;
    try (apply lanes64_range; intros; apply Z.mod_pos_bound; lia); split; try discriminate; reflexivity.
Qed.
Lemma flip_range i : 0 <= i < 128 -> 0 <= flip i < 128.
Proof. intros H; unfold flip; pose proof (Z.mod_pos_bound i 8 ltac:(lia)); pose proof (Z.div_mod i 8 ltac:(lia)); lia. Qed.
Lemma flip_flip i : 0 <= i < 128 -> flip (flip i) = i.
Proof.
  intros H; unfold flip at 1; pose proof (Z.mod_pos_bound i 8 ltac:(lia)); pose proof (Z.div_mod i 8 ltac:(lia)).
  assert (F : flip i = 8 * (i / 8) + (7 - i mod 8)) by (unfold flip; lia).
  replace (flip i / 8) with (i / 8) by (apply (Z.div_unique _ 8 _ (7 - i mod 8)); lia).
  replace (flip i mod 8) with (7 - i mod 8) by (apply (Z.mod_unique _ 8 (i / 8)); lia); lia.
Qed.
Lemma reflect_reflect v : 0 <= v < 2 ^ 128 -> reflect (reflect v) = v.
Proof.
  intros Hv; pose proof (reflect_range (reflect v)); bits; destruct (Z.ltb_spec i 128).
  - rewrite reflect_testbit, reflect_testbit, flip_flip by (try apply flip_range; lia); reflexivity.
  - rewrite !(testbit_high _ 128) by lia; reflexivity.
Qed.
Lemma le_val_testbit l : bytes l -> forall i, 0 <= i -> Z.testbit (le_val l) i = Z.testbit (nth (Z.to_nat (i / 8)) l 0) (i mod 8).
Proof.
  induction 1 as [|b l Hb Hl IH]; intros i Hi.
  - cbn [le_val]; rewrite Z.testbit_0_l; destruct (Z.to_nat (i / 8)); symmetry; apply Z.testbit_0_l.
  - cbn [le_val]; change 256 with (2 ^ 8); rewrite testbit_join by (try lia; exact Hb).
    destruct (Z.ltb_spec i 8); [rewrite Z.div_small, Z.mod_small by lia; reflexivity|].
    rewrite IH by lia; replace (i / 8) with (1 + (i - 8) / 8) by (rewrite <- (Z.div_add_l 1 8 (i - 8)) by lia; f_equal; lia).
    rewrite Z2Nat.inj_add by (try lia; apply Z.div_pos; lia); cbn [Z.to_nat Pos.to_nat Pos.iter_op plus nth]; f_equal.
    rewrite <- (Z.mod_add (i - 8) 1 8) by lia; f_equal; lia.
Qed.
Definition block (v : list Z) : Prop := length v = 16%nat /\ bytes v.
Lemma block_range v : block v -> 0 <= be_val v < 2 ^ 128.
Proof. intros [L B]; pose proof (be_val_range v B) as H; unfold zlen in H; rewrite L in H; exact H. Qed.
Lemma mirror_block v : block v -> mirror (be_val v) (reflect (le_val v)).
Proof.
  intros Bv; destruct Bv as [L B]; split; [apply block_range; split; assumption|]; split; [apply reflect_range|].
  intros i Hi; pose proof (Z.mod_pos_bound i 8 ltac:(lia)); pose proof (Z.div_mod i 8 ltac:(lia)).
  rewrite reflect_testbit, le_val_testbit by (try apply flip_range; assumption || lia).
  rewrite <- (rev_involutive v) at 2; rewrite be_val_rev, le_val_testbit by (try apply bytes_rev; assumption || lia).
  assert (F : flip i = 8 * (i / 8) + (7 - i mod 8)) by (unfold flip; lia).
  replace (flip i / 8) with (i / 8) by (apply (Z.div_unique _ 8 _ (7 - i mod 8)); lia).
  replace (flip i mod 8) with (7 - i mod 8) by (apply (Z.mod_unique _ 8 (i / 8)); lia).
  replace ((127 - i) / 8) with (15 - i / 8) by (apply (Z.div_unique _ 8 _ (7 - i mod 8)); lia).
  replace ((127 - i) mod 8) with (7 - i mod 8) by (apply (Z.mod_unique _ 8 (15 - i / 8)); lia).
  f_equal; rewrite rev_nth by (rewrite L; lia); f_equal; rewrite L; lia.
Qed.
Lemma mirror_store X a : mirror X a -> le_bytes 16 (reflect a) = be_bytes 16 X.
Proof.
  intros M; assert (B : block (be_bytes 16 X)) by (split; [apply be_bytes_length | apply be_bytes_bytes]).
  pose proof (mirror_block _ B) as M2; rewrite be_val_bytes in M2 by (apply M).
  rewrite (mirror_unique _ _ _ M M2), reflect_reflect.
  - rewrite <- (le_bytes_val (be_bytes 16 X)) at 2 by apply B; rewrite be_bytes_length; reflexivity.
  - pose proof (le_val_range _ (proj2 B)) as Rg; unfold zlen in Rg; rewrite be_bytes_length in Rg; exact Rg.
Qed.
Lemma store_bytes X : 0 <= X < 2 ^ 128 -> block (be_bytes 16 X).
Proof. intros; split; [apply be_bytes_length | apply be_bytes_bytes]. Qed.

(** * GHASH of a message *)
Definition ghash_fold (H Y : Z) (X : list Z) : Z := fold_left (fun Y b => block_mul (Z.lxor Y (be_val b)) H) (chunks 16 X) Y.
Lemma ghash_fold_app H Y a b k : length a = (k * 16)%nat -> ghash_fold H Y (a ++ b) = ghash_fold H (ghash_fold H Y a) b.
Proof. intros L; unfold ghash_fold; rewrite (chunks_app_mult 16 k) by (exact L || lia); apply fold_left_app. Qed.
Lemma block_step H h Y c b : mirror H h -> mirror Y c -> block b ->
  mirror (ghash_fold H Y b) (ghash_block (reflect (le_val b)) h c).
Proof.
  intros MH MY B; unfold ghash_fold; replace (chunks 16 b) with [b].
  - cbn [fold_left]; unfold ghash_block; apply galois_mirror; [|exact MH]; apply mirror_lxor; [exact MY | apply mirror_block; exact B].
  - destruct B as [L B]; rewrite chunks_step by (try lia; intros ->; discriminate L).
    rewrite firstn_all2, skipn_all2 by lia; reflexivity.
Qed.
Lemma skipn_app_exact {A} (a b : list A) n : n = length a -> skipn n (a ++ b) = b.
Proof. intros ->; rewrite skipn_app, skipn_all, Nat.sub_diag; reflexivity. Qed.
Lemma firstn_app_exact {A} (a b : list A) n : n = length a -> firstn n (a ++ b) = a.
Proof. intros ->; rewrite firstn_app, firstn_all, Nat.sub_diag; apply app_nil_r. Qed.
Lemma absorb_blocks_ok H h count : forall pre mid rest n Y c, mirror H h -> mirror Y c -> bytes mid ->
  16 * n = zlen pre -> length mid = (count * 16)%nat ->
  exists c', absorb_blocks h (pre ++ mid ++ rest) count n c = Ok c' /\ mirror (ghash_fold H Y mid) c'.
Proof.
  induction count as [|k IH]; intros pre mid rest n Y c MH MY B Hn L; cbn [absorb_blocks].
  - destruct mid; [|discriminate L]; exists c; split; [reflexivity | exact MY].
  - assert (Sp : exists b m, mid = b ++ m /\ length b = 16%nat) by (exists (firstn 16 mid), (skipn 16 mid); rewrite firstn_skipn, firstn_length; split; [reflexivity | lia]).
    destruct Sp as (b & m & -> & Lb); apply bytes_app in B; destruct B as [Bb Bm]; rewrite app_length in L.
    rewrite slice_ok by (rewrite ?zlen_app; unfold zlen in *; lia).
    replace (Z.to_nat (16 * n)) with (length pre) by (unfold zlen in Hn; lia).
    rewrite (skipn_app_exact pre) by reflexivity; rewrite <- (app_assoc b), (firstn_app_exact b) by (rewrite Lb; reflexivity).
    cbn [bind]; rewrite (app_assoc pre); rewrite (ghash_fold_app H Y b m 1) by exact Lb.
    apply IH; [exact MH | apply block_step; [exact MH | exact MY | split; assumption] | exact Bm | rewrite zlen_app; unfold zlen at 2; rewrite Lb; lia | lia].
Qed.
Lemma absorb_ok H h data Y c : mirror H h -> mirror Y c -> bytes data ->
  exists c', absorb h data c = Ok c' /\ mirror (ghash_fold H Y (data ++ pad16 data)) c'.
Proof.
  intros MH MY B; unfold absorb.
  set (q := zlen data / 16); pose proof (Z.div_mod (zlen data) 16 ltac:(lia)) as DM; fold q in DM; pose proof (Z.mod_pos_bound (zlen data) 16 ltac:(lia)).
  pose proof (zlen_nonneg data); assert (0 <= q) by (apply Z.div_pos; lia).
  set (m := firstn (Z.to_nat q * 16) data); set (t := skipn (Z.to_nat q * 16) data).
  pose proof (firstn_skipn (Z.to_nat q * 16) data) as Sp; fold m in Sp; fold t in Sp.
  assert (Lm : length m = (Z.to_nat q * 16)%nat) by (unfold m; rewrite firstn_length; unfold zlen in *; lia).
  assert (Lt : zlen t = zlen data mod 16) by (unfold t, zlen; rewrite skipn_length; unfold zlen in *; lia).
  destruct (absorb_blocks_ok H h (Z.to_nat q) [] m t 0 Y c MH MY ltac:(apply bytes_firstn; exact B) eq_refl Lm) as (c1 & E1 & M1).
  cbn [app] in E1; rewrite Sp in E1; rewrite E1; cbn [bind].
  assert (P : pad16 data = repeat 0 (Z.to_nat ((16 - zlen t) mod 16))).
  { unfold pad16; do 2 f_equal; rewrite Lt; rewrite <- (Z.mod_add (- zlen data) (q + 1) 16) by lia; f_equal; lia. }
  replace (data ++ pad16 data) with (m ++ (t ++ repeat 0 (Z.to_nat ((16 - zlen t) mod 16)))) by (rewrite P, app_assoc, Sp; reflexivity).
  rewrite (ghash_fold_app H Y m _ _ Lm).
  destruct (Z.ltb_spec 0 (zlen data - q * 16)) as [L|L].
  - rewrite slice_ok by lia.
    replace (Z.to_nat (zlen data - (zlen data - q * 16))) with (Z.to_nat q * 16)%nat by lia; fold t.
    rewrite firstn_all2 by (unfold zlen in *; lia); cbn [bind]; rewrite (Z.mod_small (16 - zlen t)) by lia.
    replace (zlen data - q * 16) with (zlen t) by lia.
    eexists; split; [reflexivity|]; apply block_step; [exact MH | exact M1 |].
    split; [rewrite app_length, repeat_length; unfold zlen in *; lia|].
    apply bytes_app; split; [apply bytes_skipn; exact B | apply bytes_repeat; unfold byte; lia].
  - assert (zlen t = 0) by lia; destruct t; [|unfold zlen in *; cbn [length] in *; lia].
    exists c1; split; [reflexivity|]; exact M1.
Qed.
Lemma size_bytes_acc n : forall v acc, size_bytes n v acc = be_bytes n v ++ acc.
Proof.
  induction n as [|n IH]; intros v acc; cbn [size_bytes]; [reflexivity|]; rewrite IH.
  unfold be_bytes; cbn [le_bytes rev]; rewrite <- app_assoc; cbn [app].
  change 0xFF with 255; rewrite land_0xff, Z.shiftr_div_pow2 by lia; reflexivity.
Qed.
Lemma size_bytes_ok v : size_bytes 8 v [] = be_bytes 8 v.
Proof. rewrite size_bytes_acc; apply app_nil_r. Qed.
Lemma pad16_length x : exists k, length (x ++ pad16 x) = (k * 16)%nat.
Proof.
  pose proof (Z.mod_pos_bound (- zlen x) 16 ltac:(lia)); pose proof (Z.div_mod (- zlen x) 16 ltac:(lia)).
  exists (Z.to_nat (- ((- zlen x) / 16))); rewrite app_length; unfold pad16; rewrite repeat_length; pose proof (zlen_nonneg x); unfold zlen in *; lia.
Qed.
Lemma pad16_bytes x : bytes (pad16 x).
Proof. apply bytes_repeat; unfold byte; lia. Qed.
Definition ghash_input (A C : list Z) : list Z := A ++ pad16 A ++ C ++ pad16 C ++ lengths A C.
Lemma ghash_ok H h C A : mirror H h -> bytes C -> bytes A -> zlen C < 2 ^ 61 -> zlen A < 2 ^ 61 ->
  ghash h C A = Ok (be_bytes 16 (GHASH H (ghash_input A C))) /\ 0 <= GHASH H (ghash_input A C) < 2 ^ 128.
Proof.
  intros MH BC BA LC LA; unfold ghash.
  destruct (absorb_ok H h A 0 0 MH mirror_0 BA) as (c1 & -> & M1); cbn [bind].
  destruct (absorb_ok H h C _ c1 MH M1 BC) as (c2 & -> & M2); cbn [bind].
  rewrite !size_bytes_ok, (Z.mul_comm (zlen A)), (Z.mul_comm (zlen C)), !w64_small by (pose proof (zlen_nonneg A); pose proof (zlen_nonneg C); lia).
  fold (lengths A C).
  assert (BL : block (lengths A C)) by (unfold lengths; split; [rewrite app_length, !be_bytes_length; reflexivity | apply bytes_app; split; apply be_bytes_bytes]).
  pose proof (block_step H h _ c2 _ MH M2 BL) as M3.
  assert (Eq : ghash_fold H (ghash_fold H (ghash_fold H 0 (A ++ pad16 A)) (C ++ pad16 C)) (lengths A C) = GHASH H (ghash_input A C)).
  { unfold ghash_input; change (GHASH H ?x) with (ghash_fold H 0 x).
    destruct (pad16_length A) as [ka La]; destruct (pad16_length C) as [kc Lc].
    rewrite (app_assoc A), (ghash_fold_app H 0 _ _ ka La), (app_assoc C), (ghash_fold_app H _ _ _ kc Lc); reflexivity. }
  rewrite Eq in M3; split; [f_equal; apply mirror_store; exact M3 | apply M3].
Qed.
