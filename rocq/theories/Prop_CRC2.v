(** Properties C89 - C91: error detection of CRC-32. *)
From Coq Require Import Znumtheory.
From Verif Require Import Base BaseP M_CRC S_CRC P_CRC P_GF2 P_CRC2.
Open Scope Z_scope.

(** The digest of one object that was given the whole message. *)
Definition digest (m : list Z) : list Z := crc_digest (crc_add crc_init m).
(** Number of positions at which two bit strings differ. *)
Definition differ (a b : list bool) : nat := length (filter (fun p => xorb (fst p) (snd p)) (combine a b)).

Definition xbits (a b : list bool) : list bool := map (fun p => xorb (fst p) (snd p)) (combine a b).
Lemma digest_be m : bytes m -> digest m = be_bytes 4 (crc32 m).
Proof.
  intros B; pose proof (crc_stream [m] (Forall_cons _ B (Forall_nil _))) as C; cbn [fold_left concat] in C; rewrite app_nil_r in C; exact C.
Qed.
Lemma digest_eq m1 m2 : bytes m1 -> bytes m2 -> digest m1 = digest m2 <-> fold_left clock (msg_bits m1) 0xFFFFFFFF = fold_left clock (msg_bits m2) 0xFFFFFFFF.
Proof.
  intros B1 B2; rewrite !digest_be by assumption; split; intros E.
  - apply (f_equal be_val) in E; rewrite !be_val_bytes in E by apply crc32_range; unfold crc32 in E; apply lxor_cancel_r in E; exact E.
  - unfold crc32; rewrite E; reflexivity.
Qed.
Lemma clock_xor s t a b : clock (Z.lxor s t) (xorb a b) = Z.lxor (clock s a) (clock t b).
Proof.
  rewrite !clock_T, <- T_lin; f_equal; replace (Z.b2z (xorb a b)) with (Z.lxor (Z.b2z a) (Z.b2z b)) by (destruct a, b; reflexivity); apply lxor_swap.
Qed.
Lemma fold_clock_xor a : forall b s t, length a = length b -> fold_left clock (xbits a b) (Z.lxor s t) = Z.lxor (fold_left clock a s) (fold_left clock b t).
Proof.
  induction a as [|x a IH]; intros [|y b] s t L; cbn [length] in L; try discriminate; [reflexivity|].
  unfold xbits in *; cbn [combine map fold_left fst snd]; rewrite clock_xor; apply IH; lia.
Qed.
Lemma differ_cnt a b : differ a b = cnt (xbits a b).
Proof. unfold differ, cnt, xbits; induction (combine a b) as [|p l IH]; [reflexivity|]; cbn [filter map]; destruct (xorb (fst p) (snd p)); cbn [length]; rewrite IH; reflexivity. Qed.
Lemma xbits_app a b c d : length a = length c -> xbits (a ++ b) (c ++ d) = xbits a c ++ xbits b d.
Proof. intros L; unfold xbits; rewrite <- map_app; f_equal; revert c L; induction a as [|x a IH]; intros [|y c] L; cbn [length] in L; try discriminate; [reflexivity|]; cbn [combine app]; rewrite IH by lia; reflexivity. Qed.
Lemma xbits_length a b : length a = length b -> length (xbits a b) = length a.
Proof. intros L; unfold xbits; rewrite map_length, combine_length; lia. Qed.
Lemma msg_bits_length m : length (msg_bits m) = (8 * length m)%nat.
Proof. unfold msg_bits; induction m as [|b m IH]; [reflexivity|]; cbn [flat_map length]; rewrite app_length, IH; cbn; lia. Qed.
Lemma msg_bits_app a b : msg_bits (a ++ b) = msg_bits a ++ msg_bits b.
Proof. apply flat_map_app. Qed.
Lemma byte_bits_xor a b : xbits (byte_bits a) (byte_bits b) = byte_bits (Z.lxor a b).
Proof. unfold xbits, byte_bits; cbn [seq map combine fst snd]; rewrite !Z.lxor_spec; reflexivity. Qed.
Lemma msg_bits_xor a : forall b, length a = length b -> xbits (msg_bits a) (msg_bits b) = msg_bits (xorl a b).
Proof.
  induction a as [|x a IH]; intros [|y b] L; cbn [length] in L; try discriminate; [reflexivity|].
  cbn [msg_bits flat_map xorl map2]; change (flat_map byte_bits a) with (msg_bits a); change (flat_map byte_bits b) with (msg_bits b).
  rewrite xbits_app, byte_bits_xor by reflexivity; cbn [msg_bits flat_map] in *; f_equal; apply IH; lia.
Qed.
Lemma msg_bits_val m : bytes m -> bval (msg_bits m) = le_val m.
Proof.
  induction m as [|b m IH]; intros B; [reflexivity|]; apply bytes_cons in B; destruct B as [Bb Bm].
  change (msg_bits (b :: m)) with (byte_bits b ++ msg_bits m); cbn [le_val]; rewrite <- IH by exact Bm.
  assert (Q : forall a c, bval (a ++ c) = bval a + 2 ^ zlen a * bval c).
  { clear; induction a as [|x a IH]; intros c; cbn [app bval]; [change (zlen (@nil bool)) with 0; rewrite Z.pow_0_r; lia|]; rewrite IH, zlen_cons, Z.pow_add_r by (pose proof (zlen_nonneg a); lia); lia. }
  rewrite Q, byte_bits_val by exact Bb; reflexivity.
Qed.
Lemma cnt_msg_rev m : cnt (msg_bits (rev m)) = cnt (msg_bits m).
Proof.
  induction m as [|b m IH]; [reflexivity|]; cbn [rev]; rewrite msg_bits_app, cnt_app, IH; change (msg_bits (b :: m)) with (byte_bits b ++ msg_bits m).
  rewrite cnt_app; unfold msg_bits at 2; cbn [flat_map]; rewrite app_nil_r; lia.
Qed.
Lemma xorl_be4 x y : 0 <= x < 2 ^ 32 -> 0 <= y < 2 ^ 32 -> xorl (be_bytes 4 x) (be_bytes 4 y) = be_bytes 4 (Z.lxor x y).
Proof.
  intros Hx Hy; unfold be_bytes; cbn [le_bytes rev app xorl map2].
  assert (M : forall a b, Z.lxor a b mod 256 = Z.lxor (a mod 256) (b mod 256)).
  { intros a b; change 256 with (2 ^ 8); rewrite <- !Z.land_ones by lia; apply Z.bits_inj'; intros i Hi; rewrite !Z.lxor_spec, !Z.land_spec, !Z.lxor_spec; destruct (Z.testbit a i), (Z.testbit b i), (Z.testbit (Z.ones 8) i); reflexivity. }
  assert (D : forall a b, Z.lxor a b / 256 = Z.lxor (a / 256) (b / 256)) by (intros a b; change 256 with (2 ^ 8); rewrite <- !Z.shiftr_div_pow2 by lia; apply Z.shiftr_lxor).
  unfold xorl; cbn [map2]; rewrite !M, !D, !M; reflexivity.
Qed.

(** ** C89: two wrong bits are missed exactly at distances divisible by 2^32 - 1. *)
Theorem C89_two_bits : forall (m1 m2 : list Z) (pre mid post : list bool) (a b : bool), bytes m1 -> bytes m2 ->
  msg_bits m1 = pre ++ a :: mid ++ b :: post -> msg_bits m2 = pre ++ negb a :: mid ++ negb b :: post ->
  (digest m1 = digest m2 <-> (2 ^ 32 - 1 | zlen mid + 1)).
Proof.
  intros m1 m2 pre mid post a b B1 B2 E1 E2; rewrite digest_eq by assumption.
  assert (O1 : 0 <= 1 < 2 ^ 32) by lia.
  assert (L : length (msg_bits m1) = length (msg_bits m2)) by (rewrite E1, E2; rewrite !app_length; cbn [length]; rewrite !app_length; reflexivity).
  assert (Q : Z.lxor (fold_left clock (msg_bits m1) 0xFFFFFFFF) (fold_left clock (msg_bits m2) 0xFFFFFFFF) =
              Tn (length post) (T (Z.lxor (Tn (S (length mid)) 1) 1))).
  { rewrite <- fold_clock_xor, Z.lxor_nilpotent by exact L.
    assert (X : xbits (msg_bits m1) (msg_bits m2) = repeat false (length pre) ++ true :: repeat false (length mid) ++ true :: repeat false (length post)).
    { assert (X0 : forall l, xbits l l = repeat false (length l)) by (clear; intros l; induction l as [|x l IH]; [reflexivity|]; unfold xbits in *; cbn [combine map length repeat fst snd]; rewrite IH, xorb_nilpotent; reflexivity).
      rewrite E1, E2, xbits_app, X0 by reflexivity; f_equal.
      change (xbits (a :: mid ++ b :: post) (negb a :: mid ++ negb b :: post)) with (xorb a (negb a) :: xbits (mid ++ b :: post) (mid ++ negb b :: post)).
      rewrite xbits_app, X0 by reflexivity; change (xbits (b :: post) (negb b :: post)) with (xorb b (negb b) :: xbits post post); rewrite X0.
      destruct a, b; reflexivity. }
    rewrite X, clock_first, Tn0, Z.lxor_0_l, clock_first, clock_falses; cbn [Tn]; reflexivity. }
  assert (Rg : 0 <= Z.lxor (Tn (S (length mid)) 1) 1 < 2 ^ 32) by (apply lxor_range; [lia | apply Tn_range, O1 | exact O1]).
  replace (zlen mid + 1) with (Z.of_nat (S (length mid))) by (unfold zlen; lia).
  change (2 ^ 32 - 1) with n32; rewrite <- power_one by lia; split.
  - intros E; rewrite E, Z.lxor_nilpotent in Q; symmetry in Q; apply Tn_zero in Q; [|apply T_range, Rg]; apply T_zero in Q; [|exact Rg].
    apply Z.lxor_eq in Q; rewrite Tn_one in Q; change 1 with (gx 32 P32 31) in Q; apply (gx_cancel 32 P32 w32pos P32_top 31); [lia | lia | exact Q].
  - intros E; apply Z.lxor_eq; rewrite Q, Tn_one, gx_add, E by (exact w32pos || exact P32_top || lia).
    rewrite gmul_one_r by (exact w32pos || (apply gx_rng; [exact w32pos | exact P32_top])); change (gx 32 P32 31) with 1; rewrite Z.lxor_nilpotent, T0; apply Tn0.
Qed.
Print Assumptions C89_two_bits.
Example C89_case : msg_bits [0x41; 0x10] = msg_bits [] ++ true :: [false; false; false; false; false] ++ true :: (false :: msg_bits [0x10]) /\
  msg_bits [0; 0x10] = msg_bits [] ++ false :: [false; false; false; false; false] ++ false :: (false :: msg_bits [0x10]) /\ digest [0x41; 0x10] <> digest [0; 0x10].
Proof. repeat split; try (vm_compute; reflexivity); vm_compute; discriminate. Qed.

(** ** C90: messages of at most 11450 bytes with their CRC attached differ in at least four bits. *)
Theorem C90_distance : forall m1 m2 : list Z, bytes m1 -> bytes m2 -> length m1 = length m2 -> zlen m1 <= 11450 -> m1 <> m2 ->
  (4 <= differ (msg_bits (m1 ++ digest m1)) (msg_bits (m2 ++ digest m2)))%nat.
Proof.
  intros m1 m2 B1 B2 L HL D; pose proof (crc32_range m1) as R1; pose proof (crc32_range m2) as R2.
  rewrite !digest_be by assumption; set (r := Z.lxor (crc32 m1) (crc32 m2)).
  assert (Hr : 0 <= r < 2 ^ 32) by (apply lxor_range; lia).
  assert (Lb : length (msg_bits m1) = length (msg_bits m2)) by (rewrite !msg_bits_length; lia).
  assert (Er : fold_left clock (xbits (msg_bits m1) (msg_bits m2)) 0 = r).
  { rewrite <- (Z.lxor_nilpotent 0xFFFFFFFF), fold_clock_xor by exact Lb; unfold r, crc32; rewrite lxor_swap, Z.lxor_nilpotent, Z.lxor_0_r; reflexivity. }
  set (w := xbits (msg_bits m1) (msg_bits m2) ++ msg_bits (le_bytes 4 r)).
  assert (EW : fold_left clock w 0 = 0).
  { unfold w; rewrite fold_left_app, Er, fold_clock, msg_bits_val, le_val_bytes by (apply le_bytes_bytes || exact Hr); rewrite Z.lxor_nilpotent; apply Tn0. }
  assert (C : differ (msg_bits (m1 ++ be_bytes 4 (crc32 m1))) (msg_bits (m2 ++ be_bytes 4 (crc32 m2))) = cnt w).
  { rewrite differ_cnt, !msg_bits_app, xbits_app by exact Lb; rewrite (msg_bits_xor (be_bytes 4 _)), xorl_be4 by (rewrite ?be_bytes_length; auto).
    unfold w; rewrite !cnt_app; f_equal; apply cnt_msg_rev. }
  rewrite C; destruct (few_bits w EW) as [Z0|G]; [| |exact G].
  - unfold zlen, w; rewrite app_length, xbits_length, !msg_bits_length, le_bytes_length by exact Lb; unfold zlen, span in *; lia.
  - exfalso; apply D; unfold w in Z0; rewrite cnt_app, msg_bits_xor in Z0 by exact L; assert (Z1 : cnt (msg_bits (xorl m1 m2)) = O) by lia.
    assert (BX : bytes (xorl m1 m2)) by (apply bytes_xorl; assumption).
    assert (V : le_val (xorl m1 m2) = 0).
    { rewrite <- msg_bits_val by exact BX; clear - Z1; induction (msg_bits (xorl m1 m2)) as [|b l IH]; [reflexivity|]; destruct b; cbn in Z1; [discriminate|]; cbn [bval Z.b2z]; rewrite IH by exact Z1; reflexivity. }
    clear - V BX L B1 B2; revert m2 L V BX B1 B2; induction m1 as [|x m1 IH]; intros [|y m2] L V BX B1 B2; cbn [length] in L; try discriminate; [reflexivity|].
    unfold xorl in *; cbn [map2 le_val] in V, BX; apply bytes_cons in BX, B1, B2; destruct BX as [Bx BX], B1 as [Hx B1], B2 as [Hy B2].
    pose proof (le_val_range _ BX) as Rv; unfold byte in Bx.
    assert (E0 : Z.lxor x y = 0) by lia; apply Z.lxor_eq in E0; subst y; f_equal; apply IH; try assumption; lia.
Qed.
Print Assumptions C90_distance.
Example C90_case : differ (msg_bits ([1; 2; 3] ++ digest [1; 2; 3])) (msg_bits ([1; 2; 7] ++ digest [1; 2; 7])) = 15%nat.
Proof. vm_compute; reflexivity. Qed.

(** One byte more, and three wrong bits can go unnoticed. *)
Definition quiet : list Z := repeat 0 (Z.to_nat 11451).
Definition noisy : list Z := 1 :: repeat 0 (Z.to_nat 6244) ++ 2 :: repeat 0 (Z.to_nat 5205).
Theorem C90_sharp : length quiet = length noisy /\ differ (msg_bits (quiet ++ digest quiet)) (msg_bits (noisy ++ digest noisy)) = 3%nat.
Proof. split; vm_compute; reflexivity. Qed.

(** ** C91: a message with its CRC attached least significant byte first has a fixed CRC, and no
    other four bytes give that. *)
Theorem C91_residue : forall m t : list Z, bytes m -> bytes t -> length t = 4%nat ->
  (digest (m ++ t) = [0x21; 0x44; 0xdf; 0x1c] <-> t = rev (digest m)).
Proof.
  intros m t B Bt Lt; assert (BB : bytes (m ++ t)) by (apply bytes_app; split; assumption).
  rewrite !digest_be by assumption; unfold be_bytes at 2; rewrite rev_involutive.
  change [0x21; 0x44; 0xdf; 0x1c] with (be_bytes 4 0x2144df1c).
  assert (S0 : 0 <= fold_left clock (msg_bits m) 0xFFFFFFFF < 2 ^ 32) by (apply fold_clock_range; lia).
  assert (Vt : 0 <= le_val t < 2 ^ 32) by (pose proof (le_val_range t Bt) as V; unfold zlen in V; rewrite Lt in V; exact V).
  assert (Q : crc32 (m ++ t) = Z.lxor (Tn 32 (Z.lxor (fold_left clock (msg_bits m) 0xFFFFFFFF) (le_val t))) 0xFFFFFFFF).
  { unfold crc32; rewrite msg_bits_app, fold_left_app, fold_clock, msg_bits_length, Lt, msg_bits_val by exact Bt; reflexivity. }
  assert (K : 0x2144df1c = Z.lxor (Tn 32 0xFFFFFFFF) 0xFFFFFFFF) by (vm_compute; reflexivity).
  set (s := fold_left clock (msg_bits m) 0xFFFFFFFF) in *; split.
  - intros E; apply (f_equal be_val) in E; rewrite !be_val_bytes in E by (apply crc32_range || lia); rewrite Q, K in E; apply lxor_cancel_r in E.
    apply Tn_inj in E; [| apply lxor_range; lia | lia]; change (crc32 m) with (Z.lxor s 0xFFFFFFFF).
    rewrite <- E, <- Z.lxor_assoc, Z.lxor_nilpotent, Z.lxor_0_l, <- Lt; symmetry; apply le_bytes_val; exact Bt.
  - intros ->; rewrite Q, le_val_bytes by apply crc32_range; change (crc32 m) with (Z.lxor s 0xFFFFFFFF).
    rewrite <- Z.lxor_assoc, Z.lxor_nilpotent, Z.lxor_0_l, <- K; reflexivity.
Qed.
Print Assumptions C91_residue.
Example C91_case : digest ([49; 50; 51; 52; 53; 54; 55; 56; 57] ++ [0x26; 0x39; 0xf4; 0xcb]) = [0x21; 0x44; 0xdf; 0x1c].
Proof. vm_compute; reflexivity. Qed.
