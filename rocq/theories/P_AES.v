(** Proofs about the AES model. *)
From Verif Require Import Base BaseP S_AES M_AES.
Open Scope Z_scope.

(** ** Bytes *)
Definition all_bytes : list Z := map Z.of_nat (seq 0 256).
Lemma byte_in b : byte b -> In b all_bytes.
Proof. intros H. unfold all_bytes. apply in_map_iff. exists (Z.to_nat b). unfold byte in H. split; [lia | apply in_seq; lia]. Qed.
Lemma by_bytes (f g : Z -> Z) : forallb (fun b => f b =? g b) all_bytes = true -> forall b, byte b -> f b = g b.
Proof. intros H b Hb. rewrite forallb_forall in H. apply Z.eqb_eq, H, byte_in, Hb. Qed.
Lemma sub_ok b : byte b -> sub b = S_box b.
Proof. apply by_bytes. vm_compute; reflexivity. Qed.
Lemma gf1_ok b : byte b -> gf 1 b = b.
Proof. apply (by_bytes (gf 1) (fun b => b)). vm_compute; reflexivity. Qed.
Lemma gf2_ok b : byte b -> gf 2 b = xtime b.
Proof. apply by_bytes. vm_compute; reflexivity. Qed.
Lemma gf3_ok b : byte b -> gf 3 b = Z.lxor (xtime b) b.
Proof. apply (by_bytes (gf 3) (fun b => Z.lxor (xtime b) b)). vm_compute; reflexivity. Qed.
Lemma by_bytesP (p : Z -> bool) : forallb p all_bytes = true -> forall b, byte b -> p b = true.
Proof. intros H b Hb. rewrite forallb_forall in H. apply H, byte_in, Hb. Qed.
Lemma sub_byte b : byte b -> byte (sub b).
Proof. intros H. pose proof (by_bytesP (fun b => byteb (sub b)) ltac:(vm_compute; reflexivity) b H) as K. unfold byteb in K. unfold byte; lia. Qed.
Lemma xtime_byte b : byte b -> byte (xtime b).
Proof. intros H. unfold xtime. apply lxor_byte; [apply w8_range | destruct (128 <=? b); unfold byte; lia]. Qed.
(** The inverse used by the S-box is one. *)
Lemma gfinv_ok b : byte b -> b <> 0 -> gf b (gfinv b) = 1.
Proof.
  intros H NZ. pose proof (by_bytesP (fun b => (b =? 0) || (gf b (gfinv b) =? 1)) ltac:(vm_compute; reflexivity) b H) as K. cbv beta in K.
  apply orb_true_iff in K. destruct K as [K|K]; apply Z.eqb_eq in K; [contradiction | exact K].
Qed.

(** ** Blocks *)
Definition block (v : list Z) : Prop := length v = 16%nat /\ bytes v.
Ltac len16 v H := do 16 (let a := fresh "a" in destruct v as [|a v]; [discriminate H|]); destruct v; [|discriminate H].
Lemma block_16 v : block v -> exists a0 a1 a2 a3 a4 a5 a6 a7 a8 a9 a10 a11 a12 a13 a14 a15,
  v = [a0; a1; a2; a3; a4; a5; a6; a7; a8; a9; a10; a11; a12; a13; a14; a15] /\
  byte a0 /\ byte a1 /\ byte a2 /\ byte a3 /\ byte a4 /\ byte a5 /\ byte a6 /\ byte a7 /\ byte a8 /\ byte a9 /\ byte a10 /\ byte a11 /\ byte a12 /\ byte a13 /\ byte a14 /\ byte a15.
Proof.
  intros [HL HB]. len16 v HL. unfold bytes in HB. repeat match goal with H : Forall _ (_ :: _) |- _ => inversion_clear H end.
  do 16 eexists. split; [reflexivity|]. repeat (split; [eassumption|]). assumption.
Qed.
Lemma xorl_block a b : block a -> block b -> block (xorl a b).
Proof. intros [L1 B1] [L2 B2]; split; [rewrite xorl_length, L1, L2; reflexivity | apply bytes_xorl; assumption]. Qed.
Lemma shift_rows_block v : block v -> block (shift_rows v).
Proof. intros [HL HB]; split; [reflexivity|]. unfold shift_rows. apply Forall_map, Forall_forall. intros i _. apply bytes_nth, HB. Qed.
Lemma map_sub_block v : block v -> block (map sub v).
Proof. intros [HL HB]; split; [rewrite map_length; exact HL|]. apply Forall_map. eapply Forall_impl; [|exact HB]. intros; apply sub_byte; assumption. Qed.
Lemma mix_columns_block v : block v -> block (mix_columns v).
Proof.
  intros H. destruct (block_16 v H) as (a0 & a1 & a2 & a3 & a4 & a5 & a6 & a7 & a8 & a9 & a10 & a11 & a12 & a13 & a14 & a15 & -> & K).
  unfold mix_columns, dword. cbn [seq flat_map skipn firstn Nat.mul Nat.add mix_column app].
  split; [reflexivity|]. unfold bytes. repeat (apply Forall_cons; [repeat first [tauto | apply xtime_byte | apply lxor_byte]|]). constructor.
Qed.
Lemma aesenc_block v rk : block v -> block rk -> block (aesenc v rk).
Proof. intros H K. apply xorl_block; [apply mix_columns_block, map_sub_block, shift_rows_block, H | exact K]. Qed.
Lemma aesenclast_block v rk : block v -> block rk -> block (aesenclast v rk).
Proof. intros H K. apply xorl_block; [apply map_sub_block, shift_rows_block, H | exact K]. Qed.

(** States of the standard and blocks of the code. *)
Definition repr (s : state) (v : list Z) : Prop := forall r c, (r < 4)%nat -> (c < 4)%nat -> s r c = nth (r + 4 * c) v 0.
Lemma of_block_repr v : repr (of_block v) v. Proof. intros r c _ _; reflexivity. Qed.
Lemma to_block_repr s v : length v = 16%nat -> repr s v -> to_block s = v.
Proof.
  intros HL H. unfold to_block. cbn [seq flat_map map app]. rewrite !H by lia. len16 v HL. reflexivity.
Qed.
Ltac cases4 r Hr := destruct r as [|[|[|[|r]]]]; [| | | | exfalso; lia].
Lemma sub_shift_repr s v : block v -> repr s v -> repr (ShiftRows (SubBytes s)) (map sub (shift_rows v)).
Proof.
  intros [HL HB] H r c Hr Hc. unfold ShiftRows, SubBytes. rewrite H by (try assumption; apply Nat.mod_upper_bound; lia).
  rewrite <- sub_ok by (apply bytes_nth, HB). unfold shift_rows. rewrite map_map.
  cases4 r Hr; cases4 c Hc; reflexivity.
Qed.
Lemma mix_repr s v : block v -> repr s v -> repr (MixColumns s) (mix_columns v).
Proof.
  intros B H r c Hr Hc. unfold MixColumns. cbn [seq map fold_left]. rewrite !H by lia.
  destruct (block_16 v B) as (a0 & a1 & a2 & a3 & a4 & a5 & a6 & a7 & a8 & a9 & a10 & a11 & a12 & a13 & a14 & a15 & -> & K).
  unfold mix_columns, dword. cbn [seq flat_map skipn firstn Nat.mul Nat.add mix_column app].
  cases4 r Hr; cases4 c Hc; cbn [Nat.add Nat.mul Nat.sub Nat.modulo Nat.divmod fst snd mixcoef nth];
    rewrite !gf1_ok, !gf2_ok, !gf3_ok by tauto; rewrite Z.lxor_0_l; reflexivity.
Qed.
(** Round keys as words. *)
Definition words4 (k : list Z) : list (list Z) := map (dword k) (seq 0 4).
Lemma add_repr s v w n rk : block v -> block rk -> (forall c, (c < 4)%nat -> nth (4 * n + c) w [] = dword rk c) -> repr s v -> repr (AddRoundKey w n s) (xorl v rk).
Proof.
  intros B BK HW H r c Hr Hc. unfold AddRoundKey. rewrite H, HW by assumption.
  destruct B as [L1 _], BK as [L2 _]. len16 v L1. len16 rk L2. cases4 r Hr; cases4 c Hc; reflexivity.
Qed.

(** ** The cipher *)
Lemma enc_rounds_app l : forall v x, enc_rounds (l ++ [x]) v = aesenclast (fold_left aesenc l v) x.
Proof. induction l as [|k l IH]; intros v x; [reflexivity|]. cbn [app fold_left]. rewrite <- IH. destruct l; reflexivity. Qed.
Definition words_of (rks : list (list Z)) (w : list (list Z)) : Prop :=
  forall n c, (n < length rks)%nat -> (c < 4)%nat -> nth (4 * n + c) w [] = dword (nth n rks []) c.
Lemma fold_aesenc_block l : forall v, Forall block l -> block v -> block (fold_left aesenc l v).
Proof. induction l as [|k l IH]; intros v HF HV; [exact HV|]. inversion_clear HF. cbn [fold_left]. apply IH; [assumption | apply aesenc_block; assumption]. Qed.
Lemma rounds_repr rk0 l w v : Forall block (rk0 :: l) -> block v -> words_of (rk0 :: l) w ->
  forall k, (k <= length l)%nat -> repr (rounds w k (AddRoundKey w 0 (of_block v))) (fold_left aesenc (firstn k l) (xorl v rk0)).
Proof.
  intros HF HV HW. inversion_clear HF as [|? ? B0 BL]. induction k as [|k IH]; intros Hk.
  - cbn [firstn fold_left rounds]. apply (add_repr _ v w 0 rk0); [exact HV | exact B0 | intros c Hc; apply (HW 0%nat c); [cbn [length]; lia | exact Hc] | apply of_block_repr].
  - specialize (IH ltac:(lia)). cbn [rounds].
    assert (E : firstn (S k) l = firstn k l ++ [nth k l []]).
    { rewrite <- (firstn_skipn k l) at 1. rewrite firstn_app, firstn_firstn, firstn_length_le by lia. replace (Nat.min (S k) k) with k by lia. replace (S k - k)%nat with 1%nat by lia.
      f_equal. rewrite <- (firstn_skipn k l) at 2. rewrite app_nth2; rewrite firstn_length_le by lia; [|lia]. rewrite Nat.sub_diag.
      assert (L : (0 < length (skipn k l))%nat) by (rewrite skipn_length; lia). destruct (skipn k l); [cbn [length] in L; lia | reflexivity]. }
    rewrite E, fold_left_app. cbn [fold_left]. set (u := fold_left aesenc (firstn k l) (xorl v rk0)) in *.
    assert (BU : block u) by (apply fold_aesenc_block; [apply Forall_firstn, BL | apply xorl_block; assumption]).
    unfold aesenc. apply add_repr.
    + apply mix_columns_block, map_sub_block, shift_rows_block, BU.
    + rewrite Forall_forall in BL. apply BL, nth_In; lia.
    + intros c Hc. apply (HW (S k) c); [cbn [length]; lia | exact Hc].
    + apply mix_repr; [apply map_sub_block, shift_rows_block, BU|]. apply sub_shift_repr; assumption.
Qed.
Lemma AesEncrypt_ok rks w v Nr : Forall block rks -> block v -> length rks = S Nr -> (0 < Nr)%nat -> words_of rks w ->
  AesEncrypt rks v = to_block (AddRoundKey w Nr (ShiftRows (SubBytes (rounds w (Nr - 1) (AddRoundKey w 0 (of_block v)))))).
Proof.
  intros HF HV HL HN HW. destruct rks as [|rk0 l]; [discriminate HL|]. cbn [length] in HL. cbn [AesEncrypt].
  destruct (exists_last (l := l)) as (m & x & ->). { intros ->; cbn [length] in HL; lia. }
  rewrite app_length in HL; cbn [length] in HL. rewrite enc_rounds_app. symmetry.
  pose proof (rounds_repr rk0 (m ++ [x]) w v HF HV HW (Nr - 1)) as R. rewrite app_length in R; cbn [length] in R. specialize (R ltac:(lia)).
  replace (firstn (Nr - 1) (m ++ [x])) with m in R by (rewrite firstn_app; replace (Nr - 1)%nat with (length m) by lia; rewrite firstn_all, Nat.sub_diag, firstn_O, app_nil_r; reflexivity).
  inversion_clear HF as [|? ? B0 BL]. apply Forall_app in BL; destruct BL as [BM BX]. inversion_clear BX as [|? ? BX' _].
  assert (BU : block (fold_left aesenc m (xorl v rk0))) by (apply fold_aesenc_block; [exact BM | apply xorl_block; assumption]).
  apply to_block_repr; [apply aesenclast_block; assumption|]. unfold aesenclast. apply add_repr; [apply map_sub_block, shift_rows_block, BU | exact BX' | | apply sub_shift_repr; assumption].
  intros c Hc. rewrite HW by (try (cbn [length]; rewrite app_length; cbn [length]); lia). f_equal. replace Nr with (S (length m)) by lia. cbn [nth].
  rewrite app_nth2, Nat.sub_diag by lia. reflexivity.
Qed.

(** ** Key expansion *)
Lemma expand_add Nk a : forall b w, expand Nk (a + b) w = expand Nk b (expand Nk a w).
Proof. induction a as [|a IH]; intros b w; [reflexivity|]. cbn [Nat.add expand]. apply IH. Qed.
Lemma expand_S Nk n w : expand Nk (S n) w = expand Nk n (w ++ [next_word Nk w]). Proof. reflexivity. Qed.
Definition temp_of (Nk i : nat) (temp : list Z) : list Z :=
  if (i mod Nk =? 0)%nat then xorl (SubWord (RotWord temp)) (Rcon (i / Nk))
  else if (6 <? Nk)%nat && (i mod Nk =? 4)%nat then SubWord temp else temp.
Lemma next_word_app Nk pre a t z : (length (a :: t) = Nk)%nat -> nth (Nk - 1) (a :: t) [] = z ->
  next_word Nk (pre ++ a :: t) = xorl a (temp_of Nk (length pre + Nk) z).
Proof.
  intros HL HZ. unfold next_word. rewrite app_length, HL. cbv zeta. replace (length pre + Nk - Nk)%nat with (length pre) by lia. rewrite app_nth2, Nat.sub_diag by lia. cbn [nth].
  assert (NP : (0 < Nk)%nat) by (cbn [length] in HL; lia).
  rewrite (app_nth2 pre (a :: t)) by lia. replace (length pre + Nk - 1 - length pre)%nat with (Nk - 1)%nat by lia. rewrite HZ. reflexivity.
Qed.
Lemma subword_ok w : bytes w -> SubWord w = subword w.
Proof. intros H. apply map_ext_in. intros x Hx. symmetry; apply sub_ok. unfold bytes in H; rewrite Forall_forall in H; apply H, Hx. Qed.
Lemma SubRot x0 x1 x2 x3 : byte x0 -> byte x1 -> byte x2 -> byte x3 -> SubWord (RotWord [x0; x1; x2; x3]) = [sub x1; sub x2; sub x3; sub x0].
Proof. intros. unfold RotWord, SubWord; cbn [tl hd app map]. rewrite !sub_ok by assumption. reflexivity. Qed.
Lemma SubW x0 x1 x2 x3 : byte x0 -> byte x1 -> byte x2 -> byte x3 -> SubWord [x0; x1; x2; x3] = [sub x0; sub x1; sub x2; sub x3].
Proof. intros. unfold SubWord; cbn [map]. rewrite !sub_ok by assumption. reflexivity. Qed.
Lemma push {A} (pre : list A) a t x : (pre ++ a :: t) ++ [x] = (pre ++ [a]) ++ (t ++ [x]).
Proof. rewrite <- !app_assoc; reflexivity. Qed.
Lemma mod_shape (n j s : nat) : (s < n)%nat -> ((n * j + s) mod n = s /\ (n * j + s) / n = j)%nat.
Proof. intros H. replace (n * j + s)%nat with (s + j * n)%nat by lia. rewrite Nat.mod_add, Nat.div_add by lia. rewrite Nat.mod_small, Nat.div_small by lia. lia. Qed.
Lemma temp_plain Nk i j s z : (i = Nk * j + s)%nat -> (0 < s < Nk)%nat -> (s <> 4 \/ Nk <= 6)%nat -> temp_of Nk i z = z.
Proof.
  intros -> HS H4. unfold temp_of. destruct (mod_shape Nk j s ltac:(lia)) as [-> _].
  replace (s =? 0)%nat with false by lia. replace ((6 <? Nk)%nat && (s =? 4)%nat) with false by lia. reflexivity.
Qed.
Lemma temp_rot Nk i j z : (i = Nk * S j)%nat -> (0 < Nk)%nat -> temp_of Nk i z = xorl (SubWord (RotWord z)) [xpow j; 0; 0; 0].
Proof.
  intros -> HN. unfold temp_of. destruct (mod_shape Nk (S j) 0 HN) as [E1 E2]. rewrite Nat.add_0_r in *. rewrite E1, E2. cbn [Nat.eqb].
  unfold Rcon. replace (S j - 1)%nat with j by lia. reflexivity.
Qed.
Lemma temp_sub i j z : (i = 8 * j + 4)%nat -> temp_of 8 i z = SubWord z.
Proof. intros ->. unfold temp_of. destruct (mod_shape 8 j 4 ltac:(lia)) as [-> _]. reflexivity. Qed.

Lemma step128 pre j k : block k -> length pre = (4 * j)%nat ->
  expand 4 4 (pre ++ words4 k) = (pre ++ words4 k) ++ words4 (nextRoundKey (xpow j) k).
Proof.
  intros B HP. destruct (block_16 k B) as (a0 & a1 & a2 & a3 & a4 & a5 & a6 & a7 & a8 & a9 & a10 & a11 & a12 & a13 & a14 & a15 & -> & K).
  unfold words4, dword. cbn [seq map skipn firstn Nat.mul Nat.add].
  rewrite expand_S. rewrite (next_word_app 4 pre _ _ [a12; a13; a14; a15]) by reflexivity. rewrite (temp_rot 4 _ j) by lia. rewrite SubRot by tauto.
  rewrite push; cbn [app].
  set (n0 := xorl [a0; a1; a2; a3] _).
  rewrite expand_S. rewrite (next_word_app 4 _ _ _ n0) by reflexivity. rewrite (temp_plain 4 _ (S j) 1) by (rewrite ?app_length; cbn [length]; lia).
  rewrite push; cbn [app]. set (n1 := xorl [a4; a5; a6; a7] n0).
  rewrite expand_S. rewrite (next_word_app 4 _ _ _ n1) by reflexivity. rewrite (temp_plain 4 _ (S j) 2) by (rewrite ?app_length; cbn [length]; lia).
  rewrite push; cbn [app]. set (n2 := xorl [a8; a9; a10; a11] n1).
  rewrite expand_S. rewrite (next_word_app 4 _ _ _ n2) by reflexivity. rewrite (temp_plain 4 _ (S j) 3) by (rewrite ?app_length; cbn [length]; lia).
  cbn [expand]. rewrite <- !app_assoc. cbn [app]. do 5 f_equal.
  unfold nextRoundKey, aeskeygenassist, subword, rotword, srli_si128, slli_si128, dword, n2, n1, n0.
  cbn [Nat.mul Nat.add Nat.sub skipn firstn map app repeat xorl map2].
  rewrite ?Z.lxor_0_r, !Z.lxor_assoc, ?Z.lxor_0_r. reflexivity.
Qed.

Lemma words4_length k : length (words4 k) = 4%nat. Proof. reflexivity. Qed.
Lemma nextRoundKey_block rc k : byte rc -> block k -> block (nextRoundKey rc k).
Proof.
  intros HR B. destruct (block_16 k B) as (a0 & a1 & a2 & a3 & a4 & a5 & a6 & a7 & a8 & a9 & a10 & a11 & a12 & a13 & a14 & a15 & -> & K).
  unfold nextRoundKey, aeskeygenassist, subword, rotword, srli_si128, slli_si128, dword.
  cbn [Nat.mul Nat.add Nat.sub skipn firstn map app repeat xorl map2]. rewrite ?Z.lxor_0_r.
  split; [reflexivity|]. unfold bytes. repeat (apply Forall_cons; [repeat first [tauto | apply sub_byte | apply lxor_byte]|]). constructor.
Qed.
Lemma chain128 rcs : forall pre j k, block k -> length pre = (4 * j)%nat -> (forall n, (n < length rcs)%nat -> nth n rcs 0 = xpow (j + n)) -> Forall byte rcs ->
  expand 4 (4 * length rcs) (pre ++ words4 k) = pre ++ words4 k ++ flat_map words4 (key_chain rcs k) /\ Forall block (key_chain rcs k).
Proof.
  induction rcs as [|rc rcs IH]; intros pre j k B HP HR HB; [cbn [length Nat.mul expand key_chain flat_map]; rewrite app_nil_r; split; [reflexivity | constructor]|].
  cbn [length]. replace (4 * S (length rcs))%nat with (4 + 4 * length rcs)%nat by lia. rewrite expand_add.
  pose proof (HR 0%nat ltac:(cbn [length]; lia)) as R0. cbn [nth] in R0. rewrite Nat.add_0_r in R0.
  rewrite (step128 pre j k B HP), <- R0. inversion_clear HB as [|? ? HB0 HBT].
  assert (BN : block (nextRoundKey rc k)) by (apply nextRoundKey_block; assumption).
  destruct (IH (pre ++ words4 k) (S j) (nextRoundKey rc k) BN) as [E F].
  - rewrite app_length, words4_length; lia.
  - intros n Hn. specialize (HR (S n) ltac:(cbn [length]; lia)). cbn [nth] in HR. rewrite HR. f_equal; lia.
  - exact HBT.
  - rewrite E. cbn [key_chain flat_map]. split; [rewrite <- !app_assoc; reflexivity | constructor; assumption].
Qed.
Lemma words_of_flat rks : words_of rks (flat_map words4 rks).
Proof.
  induction rks as [|k rks IH]; intros n c Hn Hc; [cbn [length] in Hn; lia|]. cbn [flat_map]. destruct n as [|n].
  - cbn [nth]. rewrite Nat.mul_0_r, Nat.add_0_l, app_nth1 by (rewrite words4_length; exact Hc). cases4 c Hc; reflexivity.
  - rewrite app_nth2 by (rewrite words4_length; lia). rewrite words4_length. replace (4 * S n + c - 4)%nat with (4 * n + c)%nat by lia. cbn [nth]. apply IH; [cbn [length] in Hn; lia | exact Hc].
Qed.
Lemma sched128_ok garbage key : length key = 16%nat -> bytes key ->
  exists rks, sched128 garbage key = Ok rks /\ length rks = 11%nat /\ Forall block rks /\ words_of rks (KeyExpansion 4 10 key).
Proof.
  intros HL HB. unfold sched128. replace (176 <? zlen key) with false by (unfold zlen; lia).
  replace (firstn 16 (key ++ skipn (length key) garbage)) with key by (rewrite firstn_app, HL; replace (16 - 16)%nat with 0%nat by lia; rewrite firstn_O, app_nil_r, <- HL; symmetry; apply firstn_all).
  eexists; split; [reflexivity|]. split; [reflexivity|].
  assert (BK : block key) by (split; assumption).
  destruct (chain128 roundConstants [] 0 key BK eq_refl) as [E F].
  - intros n Hn. do 10 (destruct n as [|n]; [vm_compute; reflexivity|]). cbn [roundConstants length] in Hn; lia.
  - apply bytesb_iff; reflexivity.
  - split; [constructor; assumption|]. unfold KeyExpansion. change (4 * (10 + 1) - 4)%nat with (4 * length roundConstants)%nat.
    change (map (fun i => firstn 4 (skipn (4 * i) key)) (seq 0 4)) with ([] ++ words4 key). rewrite E. cbn [app].
    change (words4 key ++ flat_map words4 (key_chain roundConstants key)) with (flat_map words4 (key :: key_chain roundConstants key)). apply words_of_flat.
Qed.

Lemma step_a_ok pre j a b : block a -> block b -> length pre = (8 * j)%nat ->
  expand 8 4 (pre ++ words4 a ++ words4 b) = (pre ++ words4 a ++ words4 b) ++ words4 (step_a (xpow j) a b).
Proof.
  intros A B HP. destruct (block_16 a A) as (a0 & a1 & a2 & a3 & a4 & a5 & a6 & a7 & a8 & a9 & a10 & a11 & a12 & a13 & a14 & a15 & -> & K).
  destruct (block_16 b B) as (b0 & b1 & b2 & b3 & b4 & b5 & b6 & b7 & b8 & b9 & b10 & b11 & b12 & b13 & b14 & b15 & -> & L).
  unfold words4, dword. cbn [seq map skipn firstn Nat.mul Nat.add app].
  rewrite expand_S. rewrite (next_word_app 8 pre _ _ [b12; b13; b14; b15]) by reflexivity. rewrite (temp_rot 8 _ j) by lia. rewrite SubRot by tauto.
  rewrite push; cbn [app].
  set (n0 := xorl [a0; a1; a2; a3] _).
  rewrite expand_S. rewrite (next_word_app 8 _ _ _ n0) by reflexivity. rewrite (temp_plain 8 _ (S j) 1) by (rewrite ?app_length; cbn [length]; lia).
  rewrite push; cbn [app]. set (n1 := xorl [a4; a5; a6; a7] n0).
  rewrite expand_S. rewrite (next_word_app 8 _ _ _ n1) by reflexivity. rewrite (temp_plain 8 _ (S j) 2) by (rewrite ?app_length; cbn [length]; lia).
  rewrite push; cbn [app]. set (n2 := xorl [a8; a9; a10; a11] n1).
  rewrite expand_S. rewrite (next_word_app 8 _ _ _ n2) by reflexivity. rewrite (temp_plain 8 _ (S j) 3) by (rewrite ?app_length; cbn [length]; lia).
  cbn [expand]. rewrite <- !app_assoc. cbn [app]. do 9 f_equal.
  unfold step_a, aeskeygenassist, subword, rotword, shuffle_epi32, slli_si128, dword, n2, n1, n0.
  change (Z.to_nat ((255 / 4 ^ Z.of_nat 0) mod 4)) with 3%nat. change (seq 0 4) with [0; 1; 2; 3]%nat. cbn [flat_map].
  change (Z.to_nat ((255 / 4 ^ Z.of_nat 0) mod 4)) with 3%nat. change (Z.to_nat ((255 / 4 ^ Z.of_nat 1) mod 4)) with 3%nat.
  change (Z.to_nat ((255 / 4 ^ Z.of_nat 2) mod 4)) with 3%nat. change (Z.to_nat ((255 / 4 ^ Z.of_nat 3) mod 4)) with 3%nat.
  cbn [Nat.mul Nat.add Nat.sub skipn firstn map app repeat xorl map2].
  rewrite ?Z.lxor_0_r, ?Z.lxor_0_l, !Z.lxor_assoc, ?Z.lxor_0_r, ?Z.lxor_0_l. reflexivity.
Qed.
Lemma step_b_ok pre j a b : block a -> block b -> length pre = (8 * j + 4)%nat ->
  expand 8 4 (pre ++ words4 b ++ words4 a) = (pre ++ words4 b ++ words4 a) ++ words4 (step_b a b).
Proof.
  intros A B HP. destruct (block_16 a A) as (a0 & a1 & a2 & a3 & a4 & a5 & a6 & a7 & a8 & a9 & a10 & a11 & a12 & a13 & a14 & a15 & -> & K).
  destruct (block_16 b B) as (b0 & b1 & b2 & b3 & b4 & b5 & b6 & b7 & b8 & b9 & b10 & b11 & b12 & b13 & b14 & b15 & -> & L).
  unfold words4, dword. cbn [seq map skipn firstn Nat.mul Nat.add app].
  rewrite expand_S. rewrite (next_word_app 8 pre _ _ [a12; a13; a14; a15]) by reflexivity. rewrite (temp_sub _ (S j)) by lia. rewrite SubW by tauto.
  rewrite push; cbn [app].
  set (n0 := xorl [b0; b1; b2; b3] _).
  rewrite expand_S. rewrite (next_word_app 8 _ _ _ n0) by reflexivity. rewrite (temp_plain 8 _ (S j) 5) by (rewrite ?app_length; cbn [length]; lia).
  rewrite push; cbn [app]. set (n1 := xorl [b4; b5; b6; b7] n0).
  rewrite expand_S. rewrite (next_word_app 8 _ _ _ n1) by reflexivity. rewrite (temp_plain 8 _ (S j) 6) by (rewrite ?app_length; cbn [length]; lia).
  rewrite push; cbn [app]. set (n2 := xorl [b8; b9; b10; b11] n1).
  rewrite expand_S. rewrite (next_word_app 8 _ _ _ n2) by reflexivity. rewrite (temp_plain 8 _ (S j) 7) by (rewrite ?app_length; cbn [length]; lia).
  cbn [expand]. rewrite <- !app_assoc. cbn [app]. do 9 f_equal.
  unfold step_b, aeskeygenassist, subword, rotword, shuffle_epi32, slli_si128, dword, n2, n1, n0.
  change (seq 0 4) with [0; 1; 2; 3]%nat. cbn [flat_map].
  change (Z.to_nat ((170 / 4 ^ Z.of_nat 0) mod 4)) with 2%nat. change (Z.to_nat ((170 / 4 ^ Z.of_nat 1) mod 4)) with 2%nat.
  change (Z.to_nat ((170 / 4 ^ Z.of_nat 2) mod 4)) with 2%nat. change (Z.to_nat ((170 / 4 ^ Z.of_nat 3) mod 4)) with 2%nat.
  cbn [Nat.mul Nat.add Nat.sub skipn firstn map app repeat xorl map2].
  rewrite ?Z.lxor_0_r, ?Z.lxor_0_l, !Z.lxor_assoc, ?Z.lxor_0_r, ?Z.lxor_0_l. reflexivity.
Qed.
Lemma step_block a (f : list Z) : block a -> block f -> block (xorl a (xorl (xorl (xorl (slli_si128 a 4) (slli_si128 a 8)) (slli_si128 a 12)) f)).
Proof.
  intros A F. assert (SL : forall k, (k <= 16)%nat -> block (slli_si128 a k)).
  { intros k Hk. destruct A as [L1 B1]. split; [unfold slli_si128; rewrite app_length, repeat_length, firstn_length_le; lia|].
    apply bytes_app; split; [apply bytes_repeat; unfold byte; lia | apply bytes_firstn, B1]. }
  repeat apply xorl_block; try assumption; apply SL; lia.
Qed.
Lemma assist_block v rc imm : byte rc -> block v -> 0 <= imm -> block (shuffle_epi32 (aeskeygenassist v rc) imm).
Proof.
  intros HR B HI. assert (BA : block (aeskeygenassist v rc)).
  { destruct (block_16 v B) as (a0 & a1 & a2 & a3 & a4 & a5 & a6 & a7 & a8 & a9 & a10 & a11 & a12 & a13 & a14 & a15 & -> & K).
    unfold aeskeygenassist, subword, rotword, dword. cbn [Nat.mul Nat.add Nat.sub skipn firstn map app repeat xorl map2]. rewrite ?Z.lxor_0_r.
    split; [reflexivity|]. unfold bytes. repeat (apply Forall_cons; [repeat first [tauto | apply sub_byte | apply lxor_byte]|]). constructor. }
  set (w := aeskeygenassist v rc) in *. clearbody w. unfold shuffle_epi32. cbn [seq flat_map].
  assert (D : forall i, (i < 4)%nat -> length (dword w i) = 4%nat /\ bytes (dword w i)).
  { intros i Hi. destruct BA as [L1 B1]. unfold dword. split; [rewrite firstn_length_le; [reflexivity | rewrite skipn_length; lia] | apply bytes_firstn, bytes_skipn, B1]. }
  assert (M : forall z, (Z.to_nat (z mod 4) < 4)%nat) by (intros z; pose proof (Z.mod_pos_bound z 4 ltac:(lia)); lia).
  assert (DM : forall z, length (dword w (Z.to_nat (z mod 4))) = 4%nat /\ bytes (dword w (Z.to_nat (z mod 4)))) by (intros z; apply D, M).
  split; [rewrite !app_length, !(proj1 (DM _)); reflexivity|].
  repeat (apply bytes_app; split; [apply DM|]). constructor.
Qed.
Lemma step_a_block rc a b : byte rc -> block a -> block b -> block (step_a rc a b).
Proof. intros HR A B. unfold step_a. apply step_block; [exact A | apply assist_block; [exact HR | exact B | lia]]. Qed.
Lemma step_b_block a b : block a -> block b -> block (step_b a b).
Proof. intros A B. unfold step_b. apply step_block; [exact B | apply assist_block; [unfold byte; lia | exact A | lia]]. Qed.
Lemma chain256 rcs : forall pre j a b, rcs <> [] -> block a -> block b -> length pre = (8 * j)%nat -> (forall n, (n < length rcs)%nat -> nth n rcs 0 = xpow (j + n)) -> Forall byte rcs ->
  expand 8 (8 * length rcs - 4) (pre ++ words4 a ++ words4 b) = pre ++ words4 a ++ words4 b ++ flat_map words4 (key_pairs rcs a b) /\ Forall block (key_pairs rcs a b).
Proof.
  induction rcs as [|rc rcs IH]; intros pre j a b NE A B HP HR HB; [contradiction|].
  pose proof (HR 0%nat ltac:(cbn [length]; lia)) as R0. cbn [nth] in R0. rewrite Nat.add_0_r in R0.
  inversion_clear HB as [|? ? HB0 HBT]. pose proof (step_a_block rc a b HB0 A B) as BA.
  destruct rcs as [|rc2 rcs].
  - change (8 * length [rc] - 4)%nat with 4%nat. rewrite (step_a_ok pre j a b A B HP), <- R0. cbn [key_pairs flat_map]. rewrite app_nil_r, <- !app_assoc. split; [reflexivity | constructor; [exact BA | constructor]].
  - assert (E8 : (8 * length (rc :: rc2 :: rcs) - 4 = 4 + (4 + (8 * length (rc2 :: rcs) - 4)))%nat) by (cbn [length]; lia). rewrite E8. rewrite expand_add.
    rewrite (step_a_ok pre j a b A B HP), <- R0. rewrite expand_add.
    pose proof (step_b_block (step_a rc a b) b BA B) as BB. rewrite <- !app_assoc.
    rewrite (app_assoc pre). rewrite (step_b_ok (pre ++ words4 a) j (step_a rc a b) b BA B) by (rewrite app_length, words4_length; lia).
    destruct (IH (pre ++ words4 a ++ words4 b) (S j) (step_a rc a b) (step_b (step_a rc a b) b)) as [E F].
    + discriminate.
    + exact BA.
    + exact BB.
    + rewrite !app_length, !words4_length; lia.
    + intros n Hn. specialize (HR (S n) ltac:(cbn [length] in *; lia)). cbn [nth] in HR. cbn [nth]. rewrite HR. f_equal; lia.
    + exact HBT.
    + rewrite <- !app_assoc in E. rewrite <- !app_assoc. rewrite E. cbn [key_pairs flat_map].
      split; [reflexivity|]. constructor; [exact BA|]. constructor; [exact BB | exact F].
Qed.
Lemma sched256_ok key : length key = 32%nat -> bytes key ->
  exists rks, sched256 key = Ok rks /\ length rks = 15%nat /\ Forall block rks /\ words_of rks (KeyExpansion 8 14 key).
Proof.
  intros HL HB. unfold sched256. rewrite !slice_ok by (unfold zlen; lia). cbn [bind].
  set (a := firstn (Z.to_nat 16) (skipn (Z.to_nat 0) key)). set (b := firstn (Z.to_nat 16) (skipn (Z.to_nat 16) key)).
  assert (A : block a) by (split; [unfold a; rewrite firstn_length_le; [reflexivity | rewrite skipn_length; lia] | apply bytes_firstn, bytes_skipn, HB]).
  assert (B : block b) by (split; [unfold b; rewrite firstn_length_le; [reflexivity | rewrite skipn_length; lia] | apply bytes_firstn, bytes_skipn, HB]).
  eexists; split; [reflexivity|]. split; [reflexivity|].
  destruct (chain256 [0x01; 0x02; 0x04; 0x08; 0x10; 0x20; 0x40] [] 0 a b ltac:(discriminate) A B eq_refl) as [E F].
  - intros n Hn. do 7 (destruct n as [|n]; [vm_compute; reflexivity|]). cbn [length] in Hn; lia.
  - apply bytesb_iff; reflexivity.
  - split; [constructor; [exact A | constructor; [exact B | exact F]]|]. 
    assert (G : map (fun i => firstn 4 (skipn (4 * i) key)) (seq 0 8) = [] ++ words4 a ++ words4 b).
    { unfold a, b. clear -HL. do 32 (destruct key as [|? key]; [discriminate HL|]). destruct key; [|discriminate HL]. reflexivity. }
    unfold KeyExpansion. rewrite G. change (words_of (a :: b :: key_pairs [1; 2; 4; 8; 16; 32; 64] a b) (expand 8 (8 * length [1; 2; 4; 8; 16; 32; 64] - 4) ([] ++ words4 a ++ words4 b))).
    rewrite E. exact (words_of_flat (a :: b :: key_pairs [1; 2; 4; 8; 16; 32; 64] a b)).
Qed.

(** ** Inverse *)
Lemma xtime_lxor a b : byte a -> byte b -> xtime (Z.lxor a b) = Z.lxor (xtime a) (xtime b).
Proof.
  intros Ha Hb. unfold xtime, w8. rewrite <- !land_0xff.
  assert (D : 2 * Z.lxor a b = Z.lxor (2 * a) (2 * b)).
  { rewrite !(Z.mul_comm 2). change 2 with (2 ^ 1). rewrite <- !Z.shiftl_mul_pow2 by lia. apply Z.shiftl_lxor. }
  rewrite D. assert (T : forall x, byte x -> (128 <=? x) = Z.testbit x 7).
  { intros x Hx. pose proof (by_bytesP (fun x => Bool.eqb (128 <=? x) (Z.testbit x 7)) ltac:(vm_compute; reflexivity) x Hx) as K. apply Bool.eqb_prop in K. exact K. }
  rewrite !T by (try apply lxor_byte; assumption). rewrite Z.lxor_spec.
  replace (Z.land (Z.lxor (2 * a) (2 * b)) 255) with (Z.lxor (Z.land (2 * a) 255) (Z.land (2 * b) 255)).
  - destruct (Z.testbit a 7), (Z.testbit b 7); cbn [xorb]; rewrite ?Z.lxor_0_r; rewrite ?Z.lxor_assoc; f_equal.
    + rewrite (Z.lxor_comm 27), !Z.lxor_assoc, Z.lxor_nilpotent, Z.lxor_0_r. reflexivity.
    + apply Z.lxor_comm.
  - apply Z.bits_inj'; intros i Hi. rewrite !Z.land_spec, !Z.lxor_spec, !Z.land_spec. destruct (Z.testbit (2 * a) i), (Z.testbit (2 * b) i), (Z.testbit 255 i); reflexivity.
Qed.
Definition mul9 (x : Z) : Z := Z.lxor (xtime (xtime (xtime x))) x.
Definition mul11 (x : Z) : Z := Z.lxor (xtime (Z.lxor (xtime (xtime x)) x)) x.
Definition mul13 (x : Z) : Z := Z.lxor (xtime (xtime (Z.lxor (xtime x) x))) x.
Definition mul14 (x : Z) : Z := xtime (Z.lxor (xtime (Z.lxor (xtime x) x)) x).
Definition inv_mix_column (c : list Z) : list Z :=
  match c with
  | [a; b; c; d] =>
      [ Z.lxor (Z.lxor (Z.lxor (mul14 a) (mul11 b)) (mul13 c)) (mul9 d); Z.lxor (Z.lxor (Z.lxor (mul9 a) (mul14 b)) (mul11 c)) (mul13 d);
        Z.lxor (Z.lxor (Z.lxor (mul13 a) (mul9 b)) (mul14 c)) (mul11 d); Z.lxor (Z.lxor (Z.lxor (mul11 a) (mul13 b)) (mul9 c)) (mul14 d) ]
  | _ => []
  end.

From Coq Require Import Btauto.
Ltac bytetac := repeat first [assumption | tauto | apply xtime_byte | apply lxor_byte].
Ltac bitxor := apply Z.bits_inj'; intros i _; rewrite ?Z.lxor_spec;
  repeat match goal with |- context [Z.testbit ?x i] => let b := fresh "b" in set (b := Z.testbit x i); clearbody b end; btauto.
Lemma inv_mix_mix a b c d : byte a -> byte b -> byte c -> byte d -> inv_mix_column (mix_column [a; b; c; d]) = [a; b; c; d].
Proof.
  intros Ha Hb Hc Hd. unfold inv_mix_column, mix_column, mul14, mul13, mul11, mul9. cbv zeta.
  repeat (rewrite xtime_lxor by bytetac).
  f_equal; [bitxor|]. f_equal; [bitxor|]. f_equal; [bitxor|]. f_equal; bitxor.
Qed.
Lemma mix_inv_mix a b c d : byte a -> byte b -> byte c -> byte d -> mix_column (inv_mix_column [a; b; c; d]) = [a; b; c; d].
Proof.
  intros Ha Hb Hc Hd. unfold inv_mix_column, mix_column, mul14, mul13, mul11, mul9. cbv zeta.
  repeat (rewrite xtime_lxor by bytetac).
  f_equal; [bitxor|]. f_equal; [bitxor|]. f_equal; [bitxor|]. f_equal; bitxor.
Qed.
Definition inv_sbox : list Z :=
  [
   0x52; 0x09; 0x6a; 0xd5; 0x30; 0x36; 0xa5; 0x38; 0xbf; 0x40; 0xa3; 0x9e; 0x81; 0xf3; 0xd7; 0xfb;
   0x7c; 0xe3; 0x39; 0x82; 0x9b; 0x2f; 0xff; 0x87; 0x34; 0x8e; 0x43; 0x44; 0xc4; 0xde; 0xe9; 0xcb;
   0x54; 0x7b; 0x94; 0x32; 0xa6; 0xc2; 0x23; 0x3d; 0xee; 0x4c; 0x95; 0x0b; 0x42; 0xfa; 0xc3; 0x4e;
   0x08; 0x2e; 0xa1; 0x66; 0x28; 0xd9; 0x24; 0xb2; 0x76; 0x5b; 0xa2; 0x49; 0x6d; 0x8b; 0xd1; 0x25;
   0x72; 0xf8; 0xf6; 0x64; 0x86; 0x68; 0x98; 0x16; 0xd4; 0xa4; 0x5c; 0xcc; 0x5d; 0x65; 0xb6; 0x92;
   0x6c; 0x70; 0x48; 0x50; 0xfd; 0xed; 0xb9; 0xda; 0x5e; 0x15; 0x46; 0x57; 0xa7; 0x8d; 0x9d; 0x84;
   0x90; 0xd8; 0xab; 0x00; 0x8c; 0xbc; 0xd3; 0x0a; 0xf7; 0xe4; 0x58; 0x05; 0xb8; 0xb3; 0x45; 0x06;
   0xd0; 0x2c; 0x1e; 0x8f; 0xca; 0x3f; 0x0f; 0x02; 0xc1; 0xaf; 0xbd; 0x03; 0x01; 0x13; 0x8a; 0x6b;
   0x3a; 0x91; 0x11; 0x41; 0x4f; 0x67; 0xdc; 0xea; 0x97; 0xf2; 0xcf; 0xce; 0xf0; 0xb4; 0xe6; 0x73;
   0x96; 0xac; 0x74; 0x22; 0xe7; 0xad; 0x35; 0x85; 0xe2; 0xf9; 0x37; 0xe8; 0x1c; 0x75; 0xdf; 0x6e;
   0x47; 0xf1; 0x1a; 0x71; 0x1d; 0x29; 0xc5; 0x89; 0x6f; 0xb7; 0x62; 0x0e; 0xaa; 0x18; 0xbe; 0x1b;
   0xfc; 0x56; 0x3e; 0x4b; 0xc6; 0xd2; 0x79; 0x20; 0x9a; 0xdb; 0xc0; 0xfe; 0x78; 0xcd; 0x5a; 0xf4;
   0x1f; 0xdd; 0xa8; 0x33; 0x88; 0x07; 0xc7; 0x31; 0xb1; 0x12; 0x10; 0x59; 0x27; 0x80; 0xec; 0x5f;
   0x60; 0x51; 0x7f; 0xa9; 0x19; 0xb5; 0x4a; 0x0d; 0x2d; 0xe5; 0x7a; 0x9f; 0x93; 0xc9; 0x9c; 0xef;
   0xa0; 0xe0; 0x3b; 0x4d; 0xae; 0x2a; 0xf5; 0xb0; 0xc8; 0xeb; 0xbb; 0x3c; 0x83; 0x53; 0x99; 0x61;
   0x17; 0x2b; 0x04; 0x7e; 0xba; 0x77; 0xd6; 0x26; 0xe1; 0x69; 0x14; 0x63; 0x55; 0x21; 0x0c; 0x7d
  ].
Definition isub (b : Z) : Z := nth (Z.to_nat b) inv_sbox 0.
Lemma isub_sub b : byte b -> isub (sub b) = b.
Proof. apply (by_bytes (fun b => isub (sub b)) (fun b => b)). vm_compute; reflexivity. Qed.
Lemma sub_isub b : byte b -> sub (isub b) = b.
Proof. apply (by_bytes (fun b => sub (isub b)) (fun b => b)). vm_compute; reflexivity. Qed.
Lemma isub_byte b : byte b -> byte (isub b).
Proof. intros H. pose proof (by_bytesP (fun b => byteb (isub b)) ltac:(vm_compute; reflexivity) b H) as K. unfold byteb in K. unfold byte; lia. Qed.
Definition inv_shift_rows (v : list Z) : list Z :=
  map (fun i => nth i v 0) [0; 13; 10; 7; 4; 1; 14; 11; 8; 5; 2; 15; 12; 9; 6; 3]%nat.
Definition inv_mix_columns (v : list Z) : list Z := flat_map (fun i => inv_mix_column (dword v i)) (seq 0 4).
Definition dec_last (c rk : list Z) : list Z := inv_shift_rows (map isub (xorl c rk)).
Definition dec_round (c rk : list Z) : list Z := inv_shift_rows (map isub (inv_mix_columns (xorl c rk))).
Lemma inv_shift_block v : block v -> block (inv_shift_rows v).
Proof. intros [HL HB]; split; [reflexivity|]. unfold inv_shift_rows. apply Forall_map, Forall_forall. intros i _. apply bytes_nth, HB. Qed.
Lemma map_isub_block v : block v -> block (map isub v).
Proof. intros [HL HB]; split; [rewrite map_length; exact HL|]. apply Forall_map. eapply Forall_impl; [|exact HB]. intros; apply isub_byte; assumption. Qed.
Lemma shift_inv v : block v -> shift_rows (inv_shift_rows v) = v.
Proof. intros [HL _]. len16 v HL. reflexivity. Qed.
Lemma inv_shift v : block v -> inv_shift_rows (shift_rows v) = v.
Proof. intros [HL _]. len16 v HL. reflexivity. Qed.
Lemma map_isub_sub v : bytes v -> map isub (map sub v) = v.
Proof. intros H. rewrite map_map. rewrite <- (map_id v) at 2. apply map_ext_in. intros x Hx. apply isub_sub. unfold bytes in H; rewrite Forall_forall in H; apply H, Hx. Qed.
Lemma map_sub_isub v : bytes v -> map sub (map isub v) = v.
Proof. intros H. rewrite map_map. rewrite <- (map_id v) at 2. apply map_ext_in. intros x Hx. apply sub_isub. unfold bytes in H; rewrite Forall_forall in H; apply H, Hx. Qed.
Lemma column4 a b c d : byte a -> byte b -> byte c -> byte d ->
  (exists a' b' c' d', mix_column [a; b; c; d] = [a'; b'; c'; d']) /\ (exists a' b' c' d', inv_mix_column [a; b; c; d] = [a'; b'; c'; d'] /\ byte a' /\ byte b' /\ byte c' /\ byte d').
Proof.
  intros Ha Hb Hc Hd. split; [do 4 eexists; reflexivity|]. do 4 eexists. split; [reflexivity|]. unfold mul9, mul11, mul13, mul14. repeat split; bytetac.
Qed.
Lemma columns16 a0 a1 a2 a3 a4 a5 a6 a7 a8 a9 a10 a11 a12 a13 a14 a15 :
  mix_columns [a0; a1; a2; a3; a4; a5; a6; a7; a8; a9; a10; a11; a12; a13; a14; a15] =
    mix_column [a0; a1; a2; a3] ++ mix_column [a4; a5; a6; a7] ++ mix_column [a8; a9; a10; a11] ++ mix_column [a12; a13; a14; a15] /\
  inv_mix_columns [a0; a1; a2; a3; a4; a5; a6; a7; a8; a9; a10; a11; a12; a13; a14; a15] =
    inv_mix_column [a0; a1; a2; a3] ++ inv_mix_column [a4; a5; a6; a7] ++ inv_mix_column [a8; a9; a10; a11] ++ inv_mix_column [a12; a13; a14; a15].
Proof. split; reflexivity. Qed.
Lemma inv_mix_ok v : block v -> inv_mix_columns (mix_columns v) = v.
Proof.
  intros H. destruct (block_16 v H) as (a0 & a1 & a2 & a3 & a4 & a5 & a6 & a7 & a8 & a9 & a10 & a11 & a12 & a13 & a14 & a15 & -> & K).
  rewrite (proj1 (columns16 _ _ _ _ _ _ _ _ _ _ _ _ _ _ _ _)).
  destruct (column4 a0 a1 a2 a3) as [(? & ? & ? & ? & E0) _]; try tauto. destruct (column4 a4 a5 a6 a7) as [(? & ? & ? & ? & E1) _]; try tauto.
  destruct (column4 a8 a9 a10 a11) as [(? & ? & ? & ? & E2) _]; try tauto. destruct (column4 a12 a13 a14 a15) as [(? & ? & ? & ? & E3) _]; try tauto.
  rewrite E0, E1, E2, E3. cbn [app]. rewrite (proj2 (columns16 _ _ _ _ _ _ _ _ _ _ _ _ _ _ _ _)).
  rewrite <- E0, <- E1, <- E2, <- E3. rewrite !inv_mix_mix by tauto. reflexivity.
Qed.
Lemma mix_inv_ok v : block v -> mix_columns (inv_mix_columns v) = v /\ block (inv_mix_columns v).
Proof.
  intros H. destruct (block_16 v H) as (a0 & a1 & a2 & a3 & a4 & a5 & a6 & a7 & a8 & a9 & a10 & a11 & a12 & a13 & a14 & a15 & -> & K).
  rewrite (proj2 (columns16 _ _ _ _ _ _ _ _ _ _ _ _ _ _ _ _)).
  destruct (column4 a0 a1 a2 a3) as [_ (? & ? & ? & ? & E0 & ?)]; try tauto. destruct (column4 a4 a5 a6 a7) as [_ (? & ? & ? & ? & E1 & ?)]; try tauto.
  destruct (column4 a8 a9 a10 a11) as [_ (? & ? & ? & ? & E2 & ?)]; try tauto. destruct (column4 a12 a13 a14 a15) as [_ (? & ? & ? & ? & E3 & ?)]; try tauto.
  rewrite E0, E1, E2, E3. cbn [app]. rewrite (proj1 (columns16 _ _ _ _ _ _ _ _ _ _ _ _ _ _ _ _)).
  split.
  - rewrite <- E0, <- E1, <- E2, <- E3. rewrite !mix_inv_mix by tauto. reflexivity.
  - split; [reflexivity|]. unfold bytes. repeat (apply Forall_cons; [tauto|]). apply Forall_nil.
Qed.
Lemma xorl_twice v k : block v -> block k -> xorl (xorl v k) k = v.
Proof. intros [L1 _] [L2 _]. apply xorl_cancel; lia. Qed.
Lemma dec_enc v rk : block v -> block rk -> dec_round (aesenc v rk) rk = v /\ dec_last (aesenclast v rk) rk = v.
Proof.
  intros HV HK. pose proof (shift_rows_block v HV) as B1. pose proof (map_sub_block _ B1) as B2. pose proof (mix_columns_block _ B2) as B3. unfold dec_round, dec_last, aesenc, aesenclast.
  rewrite !xorl_twice by assumption. rewrite inv_mix_ok by exact B2. rewrite map_isub_sub by apply B1. rewrite inv_shift by exact HV. split; reflexivity.
Qed.
Lemma enc_dec c rk : block c -> block rk -> aesenc (dec_round c rk) rk = c /\ aesenclast (dec_last c rk) rk = c /\ block (dec_round c rk) /\ block (dec_last c rk).
Proof.
  intros HC HK. pose proof (xorl_block c rk HC HK) as B1. destruct (mix_inv_ok _ B1) as [E B2].
  pose proof (map_isub_block _ B2) as B3. pose proof (map_isub_block _ B1) as B4. unfold dec_round, dec_last, aesenc, aesenclast.
  rewrite !shift_inv by assumption. rewrite !map_sub_isub by (apply B2 || apply B1). rewrite E, xorl_twice by assumption.
  repeat split; try apply inv_shift_block; assumption.
Qed.
Fixpoint dec_rounds (rks : list (list Z)) (c : list Z) : list Z :=
  match rks with
  | [] => c
  | [rk] => dec_last c rk
  | rk :: t => dec_round (dec_rounds t c) rk
  end.
Lemma dec_rounds_ok rks : forall v, Forall block rks -> block v -> dec_rounds rks (enc_rounds rks v) = v /\ block (enc_rounds rks v).
Proof.
  induction rks as [|rk rks IH]; intros v HF HV; [split; [reflexivity | exact HV]|]. inversion_clear HF as [|? ? BK BT]. destruct rks as [|rk2 rks].
  - cbn [enc_rounds dec_rounds]. split; [apply dec_enc; assumption | apply aesenclast_block; assumption].
  - change (enc_rounds (rk :: rk2 :: rks) v) with (enc_rounds (rk2 :: rks) (aesenc v rk)). pose proof (aesenc_block v rk HV BK) as BE. destruct (IH _ BT BE) as [E B].
    split; [|exact B]. change (dec_round (dec_rounds (rk2 :: rks) (enc_rounds (rk2 :: rks) (aesenc v rk))) rk = v). rewrite E. apply dec_enc; assumption.
Qed.
Lemma enc_rounds_ok rks : forall c, Forall block rks -> block c -> enc_rounds rks (dec_rounds rks c) = c /\ block (dec_rounds rks c).
Proof.
  induction rks as [|rk rks IH]; intros c HF HC; [split; [reflexivity | exact HC]|]. inversion_clear HF as [|? ? BK BT]. destruct rks as [|rk2 rks].
  - cbn [enc_rounds dec_rounds]. split; apply enc_dec; assumption.
  - destruct (IH c BT HC) as [E B]. change (dec_rounds (rk :: rk2 :: rks) c) with (dec_round (dec_rounds (rk2 :: rks) c) rk).
    destruct (enc_dec _ rk B BK) as (E1 & _ & B1 & _). split; [|exact B1].
    change (enc_rounds (rk2 :: rks) (aesenc (dec_round (dec_rounds (rk2 :: rks) c) rk) rk) = c). rewrite E1. exact E.
Qed.
Definition AesDecrypt (rks : list (list Z)) (c : list Z) : list Z :=
  match rks with [] => c | rk0 :: t => xorl (dec_rounds t c) rk0 end.
Lemma AesDecrypt_ok rks v : Forall block rks -> block v -> AesDecrypt rks (AesEncrypt rks v) = v /\ block (AesEncrypt rks v).
Proof.
  intros HF HV. destruct rks as [|rk0 t]; [split; [reflexivity | exact HV]|]. inversion_clear HF as [|? ? BK BT]. cbn [AesEncrypt AesDecrypt].
  destruct (dec_rounds_ok t (xorl v rk0) BT (xorl_block _ _ HV BK)) as [E B]. rewrite E. split; [apply xorl_twice; assumption | exact B].
Qed.
Lemma AesEncrypt_Decrypt rks c : Forall block rks -> block c -> AesEncrypt rks (AesDecrypt rks c) = c /\ block (AesDecrypt rks c).
Proof.
  intros HF HC. destruct rks as [|rk0 t]; [split; [reflexivity | exact HC]|]. inversion_clear HF as [|? ? BK BT]. cbn [AesEncrypt AesDecrypt].
  destruct (enc_rounds_ok t c BT HC) as [E B]. rewrite xorl_twice by assumption. split; [exact E | apply xorl_block; assumption].
Qed.
