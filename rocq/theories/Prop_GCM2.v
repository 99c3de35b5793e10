(** Properties C32 - C35: counter blocks, parameters, CTR, ECB and CBC. *)
From Verif Require Import Base BaseP M_HKDF M_GCM S_GCM P_Ghash P_GHM P_GCM Prop_GCM.
Open Scope Z_scope.

(** ** C32 *)
Lemma incs_S n C : incs (S n) C = inc32 (incs n C).
Proof. cbn [incs]; apply incs_inc. Qed.
Lemma incs_form n C : block C -> incs n C = firstn 12 C ++ be_bytes 4 ((be_val (skipn 12 C) + Z.of_nat n) mod 2 ^ 32).
Proof.
  intros [L B]; assert (L4 : length (skipn 12 C) = 4%nat) by (rewrite skipn_length; lia).
  assert (B4 : bytes (skipn 12 C)) by (apply bytes_skipn; exact B).
  pose proof (be_val_range _ B4) as Rg; unfold zlen in Rg; rewrite L4 in Rg; change (256 ^ Z.of_nat 4) with (2 ^ 32) in Rg.
  assert (L12 : length (firstn 12 C) = 12%nat) by (rewrite firstn_length; lia).
  induction n as [|n IH].
  - cbn [incs]; rewrite Z.add_0_r, Z.mod_small by exact Rg; pose proof (be_bytes_val _ B4) as BV; rewrite L4 in BV; rewrite BV; symmetry; apply firstn_skipn.
  - rewrite incs_S, IH; unfold inc32 at 1; rewrite (firstn_app_exact (firstn 12 C)), (skipn_app_exact (firstn 12 C)) by (rewrite L12; reflexivity).
    rewrite be_val_bytes by (apply Z.mod_pos_bound; lia); rewrite Z.add_mod_idemp_l by lia; do 3 f_equal; lia.
Qed.
Lemma counters_map n C : C :: counters n C = map (fun k => incs k C) (seq 0 (S n)).
Proof.
  cbn [seq map incs]; f_equal; revert C; induction n as [|n IH]; intros C; [reflexivity|]; cbn [counters seq map]; f_equal.
  rewrite IH, <- (seq_shift n 1), map_map; reflexivity.
Qed.
Lemma in_counters b n C : block C -> In b (C :: counters n C) -> exists k, (k <= n)%nat /\ b = incs k C /\ firstn 12 b = firstn 12 C.
Proof.
  intros B H; rewrite counters_map in H; apply in_map_iff in H; destruct H as (k & <- & Hk); apply in_seq in Hk; exists k; split; [lia|]; split; [reflexivity|].
  rewrite incs_form by exact B; destruct B as [L _]; apply firstn_app_exact; rewrite firstn_length; lia.
Qed.
Lemma NoDup_map_inj {A B} (f : A -> B) l : NoDup l -> (forall x y, In x l -> In y l -> f x = f y -> x = y) -> NoDup (map f l).
Proof.
  induction 1 as [|x l N D IH]; intros H; cbn [map]; constructor.
  - intros I; apply in_map_iff in I; destruct I as (y & E & I); apply N; rewrite (H x y); [exact I | left; reflexivity | right; exact I | symmetry; exact E].
  - apply IH; intros a b Ia Ib; apply H; right; assumption.
Qed.
Lemma counters_NoDup n C : block C -> Z.of_nat n < 2 ^ 32 -> NoDup (C :: counters n C).
Proof.
  intros B Hn; rewrite counters_map; apply NoDup_map_inj; [apply seq_NoDup|]; intros x y Hx Hy E; apply in_seq in Hx, Hy.
  rewrite !incs_form in E by exact B; apply app_inv_head in E; apply (f_equal be_val) in E; rewrite !be_val_bytes in E by (apply Z.mod_pos_bound; lia).
  set (v := be_val (skipn 12 C)) in E; assert (D : (Z.of_nat x - Z.of_nat y) mod 2 ^ 32 = 0).
  { replace (Z.of_nat x - Z.of_nat y) with ((v + Z.of_nat x) - (v + Z.of_nat y)) by lia; rewrite Zminus_mod, E, Z.sub_diag; reflexivity. }
  apply Z.mod_divide in D; [|lia]; destruct D as [q D]; assert (q = 0) by lia; lia.
Qed.
Lemma xorl_inj a b c : length a = length b -> length a = length c -> xorl a b = xorl a c -> b = c.
Proof.
  revert b c; induction a as [|x a IH]; intros [|y b] [|z c] L1 L2 E; try discriminate; [reflexivity|]; cbn in E; injection E as E1 E2; f_equal.
  - apply (f_equal (Z.lxor x)) in E1; rewrite <- !Z.lxor_assoc, Z.lxor_nilpotent, !Z.lxor_0_l in E1; exact E1.
  - apply IH; [injection L1 as L1; exact L1 | injection L2 as L2; exact L2 | exact E2].
Qed.
Lemma with_counter_inj j m n : block j -> 0 <= m < 2 ^ 64 -> 0 <= n < 2 ^ 64 -> firstn 12 (with_counter j m) = firstn 12 (with_counter j n) -> m = n.
Proof.
  intros [L B] Hm Hn E; unfold with_counter in E.
  assert (K : forall m, firstn 12 (firstn 4 j ++ xorl (firstn 8 (skipn 4 j)) (be_bytes 8 m) ++ skipn 12 j) = firstn 4 j ++ xorl (firstn 8 (skipn 4 j)) (be_bytes 8 m)).
  { intros k; rewrite app_assoc; apply firstn_app_exact; rewrite app_length, xorl_length, !firstn_length, skipn_length, be_bytes_length, L; reflexivity. }
  rewrite !K in E; apply app_inv_head, xorl_inj in E; try (rewrite firstn_length, skipn_length, be_bytes_length, L; reflexivity).
  apply (f_equal be_val) in E; rewrite !be_val_bytes in E by (change (256 ^ Z.of_nat 8) with (2 ^ 64); lia); exact E.
Qed.
Lemma NoDup_app {A} (a b : list A) : NoDup a -> NoDup b -> (forall x, In x a -> In x b -> False) -> NoDup (a ++ b).
Proof.
  induction 1 as [|x l N D IH]; intros Nb H; cbn [app]; [exact Nb|]; constructor.
  - rewrite in_app_iff; intros [I|I]; [exact (N I) | exact (H x (or_introl eq_refl) I)].
  - apply IH; [exact Nb|]; intros y Iy; apply H; right; exact Iy.
Qed.
Lemma NoDup_concat {A B} (f : A -> list B) (l : list A) : NoDup l -> (forall x, In x l -> NoDup (f x)) ->
  (forall x y b, In x l -> In y l -> In b (f x) -> In b (f y) -> x = y) -> NoDup (concat (map f l)).
Proof.
  induction 1 as [|x l N D IH]; intros H1 H2; cbn [map concat]; [constructor|].
  apply NoDup_app; [apply H1; left; reflexivity | apply IH; [intros; apply H1; right; assumption | intros; eapply H2; eauto; right; assumption] |].
  intros b I1 I2; apply in_concat in I2; destruct I2 as (fy & I2 & I3); apply in_map_iff in I2; destruct I2 as (y & <- & I2).
  assert (x = y) by (apply (H2 x y b); [left; reflexivity | right; exact I2 | exact I1 | exact I3]); subst; exact (N I2).
Qed.
(** Messages of at most 2^32 - 2 blocks; at most 2^64 calls of Encrypt and Decrypt in any order. *)
Definition short_call (c : call) : Prop := bytes (call_text c) /\ bytes (call_aad c) /\ zlen (call_text c) <= 16 * (2 ^ 32 - 2) /\ zlen (call_aad c) < 2 ^ 61.
Lemma short_blocks X : zlen X <= 16 * (2 ^ 32 - 2) -> Z.of_nat (nblocks X) <= 2 ^ 32 - 2.
Proof.
  intros H; unfold nblocks; pose proof (zlen_nonneg X); rewrite Z2Nat.id by (apply Z.div_pos; lia).
  enough ((zlen X + 15) / 16 < 2 ^ 32 - 1) by lia; apply Z.div_lt_upper_bound; lia.
Qed.
Theorem C32_counter_blocks_unique : forall E iv cs, blockfun E -> iv_ok iv -> Forall short_call cs -> Z.of_nat (length cs) <= 2 ^ 64 ->
  exists g g' used, gcm_init E iv = Ok g /\ run_calls E g cs = Ok (g', used) /\ NoDup (concat used) /\
    (zlen iv = 12 -> ~ In (repeat 0 16) (concat used)) /\
    (forall k, (k < length cs)%nat -> length (nth k used []) = S (length (chunks 16 (call_text (nth k cs (Enc [] [])))))).
Proof.
  intros E iv cs HE HI F LC; apply blockfun_cipher in HE; destruct (init_ok E iv HE HI) as (g & Eg & U & C0 & EJ).
  assert (F' : Forall call_ok cs).
  { eapply Forall_impl; [|exact F]; intros c (B1 & B2 & L1 & L2); repeat split; try assumption; lia. }
  pose proof (run_ok E HE cs g U F') as Rn; exists g; do 2 eexists; split; [exact Eg|]; split; [exact Rn|].
  set (f := fun k => let c := nth k cs (Enc [] []) in let b := mblock (nexts k g) in b :: counters (nblocks (call_text c)) b).
  assert (Bk : forall k, block (mblock (nexts k g))) by (intros k; apply (mblock_block E), nexts_ok, U).
  assert (Sk : forall k, (k < length cs)%nat -> Z.of_nat (nblocks (call_text (nth k cs (Enc [] [])))) <= 2 ^ 32 - 2).
  { intros k Hk; apply short_blocks; rewrite Forall_forall in F; apply (F (nth k cs (Enc [] []))), nth_In; exact Hk. }
  split; [|split].
  - apply NoDup_concat; [apply seq_NoDup | |].
    + intros k Hk; apply in_seq in Hk; unfold f; apply counters_NoDup; [apply Bk|]; specialize (Sk k ltac:(lia)); lia.
    + intros x y b Hx Hy Ix Iy; apply in_seq in Hx, Hy; unfold f in Ix, Iy; cbv zeta in Ix, Iy.
      apply in_counters in Ix, Iy; try apply Bk; destruct Ix as (_ & _ & _ & E1), Iy as (_ & _ & _ & E2).
      rewrite E1 in E2; unfold mblock in E2; destruct (nexts_ok E x g U) as (_ & Ix & Cx); destruct (nexts_ok E y g U) as (_ & Iy & Cy).
      rewrite Ix, Iy, Cx, Cy, C0, !Z.add_0_l in E2; rewrite !w64_small in E2 by lia.
      apply with_counter_inj in E2; [lia | | lia | lia]; destruct U as (_ & Hl & B & _); apply J_block; assumption.
  - intros H12 I; apply in_concat in I; destruct I as (l & I1 & I2); apply in_map_iff in I1; destruct I1 as (k & <- & Hk); apply in_seq in Hk.
    unfold f in I2; cbv zeta in I2; apply in_counters in I2; [|apply Bk]; destruct I2 as (i & Hi & E2 & _).
    rewrite incs_form in E2 by apply Bk.
    assert (T : skipn 12 (mblock (nexts k g)) = [0; 0; 0; 1]).
    { unfold mblock; destruct (nexts_ok E k g U) as (_ & Ik & Ck); rewrite Ik, EJ; unfold J0; rewrite H12; cbn [Z.eqb Pos.eqb].
      unfold with_counter; set (j := iv ++ [0; 0; 0; 1]).
      assert (Lj : length j = 16%nat) by (unfold j; rewrite app_length; unfold zlen in H12; cbn [length]; lia).
      rewrite app_assoc, skipn_app_exact by (rewrite app_length, xorl_length, !firstn_length, skipn_length, be_bytes_length, Lj; reflexivity).
      unfold j; apply skipn_app_exact; unfold zlen in H12; lia. }
    rewrite T in E2; change (be_val [0; 0; 0; 1]) with 1 in E2; specialize (Sk k ltac:(lia)).
    rewrite Z.mod_small in E2 by lia.
    apply (f_equal (fun l => be_val (skipn 12 l))) in E2; rewrite skipn_app_exact in E2 by (rewrite firstn_length; destruct (Bk k) as [Lk _]; lia).
    rewrite be_val_bytes in E2 by (change (256 ^ Z.of_nat 4) with (2 ^ 32); lia); change (be_val (skipn 12 (repeat 0 16))) with 0 in E2; lia.
  - intros k Hk; rewrite (nth_indep _ [] (f O)) by (rewrite map_length, seq_length; exact Hk); rewrite (map_nth f), seq_nth by exact Hk; cbn [plus].
    unfold f; cbn [length]; f_equal; rewrite chunks_nblocks; generalize (mblock (nexts k g)); generalize (nblocks (call_text (nth k cs (Enc [] [])))).
    induction n as [|n IH]; intros b; [reflexivity|]; cbn [counters length]; f_equal; apply IH.
Qed.
Print Assumptions C32_counter_blocks_unique.
Example C32_case : iv_ok (repeat 9 12) /\ Forall short_call [Enc [1; 2; 3] [4]; Enc (repeat 5 40) []; Dec (repeat 5 40) [6; 7] [8]].
Proof. split; [split; [apply bytesb_iff; reflexivity | right; cbn; lia]|]; repeat constructor; cbn; lia || (unfold byte; lia). Qed.

(** ** C33 is false. *)
(** IV sizes below 12 other than 8: no error, nothing encrypted, an all-zero "tag". *)
Theorem C33_unsupported_iv : forall E iv P A, zlen iv < 12 -> zlen iv <> 8 ->
  exists g, gcm_init E iv = Ok g /\ Encrypt E g P A = Ok ([], repeat 0 16, g, []).
Proof.
  intros E iv P A H1 H2; unfold gcm_init; replace ((zlen iv =? 8) || (12 <? zlen iv)) with false by lia; eexists; split; [reflexivity|].
  unfold Encrypt; cbn [g_iv]; destruct (Z.ltb_spec (zlen iv) 12); [reflexivity | lia].
Qed.
Print Assumptions C33_unsupported_iv.
Theorem C33_iv_refuted : exists E iv P, blockfun E /\ bytes iv /\ P <> [] /\
  (do g <- gcm_init E iv; Encrypt E g P []) = Ok ([], repeat 0 16, Gcm 0 iv 0, []).
Proof.
  exists (fun _ => repeat 0 16), (repeat 1 11), [1; 2; 3]; split; [intros b _ _; split; [reflexivity | apply bytesb_iff; reflexivity]|].
  split; [apply bytesb_iff; reflexivity|]; split; [discriminate | vm_compute; reflexivity].
Qed.
Print Assumptions C33_iv_refuted.
(** Messages beyond the limit: no error, and the keystream repeats after 2^36 bytes. *)
Lemma gctr_nth E : cipher E -> forall k X C i, block C -> (i < 16)%nat -> (16 * k + i < length X)%nat ->
  nth (16 * k + i) (gctr_blocks E C (chunks 16 X)) 0 = Z.lxor (nth (16 * k + i) X 0) (nth i (E (incs k C)) 0).
Proof.
  intros HE; induction k as [|k IH]; intros X C i Bc Hi L; destruct (HE _ Bc) as [LE _].
  - rewrite Nat.mul_0_r in *; cbn [plus incs] in *; assert (NX : X <> []) by (intros ->; cbn [length] in L; lia).
    rewrite chunks_step by (exact NX || lia); cbn [gctr_blocks].
    assert (K : forall a b j, (j < length a)%nat -> (j < length b)%nat -> nth j (xorl a b) 0 = Z.lxor (nth j a 0) (nth j b 0)).
    { clear; induction a as [|x a IH]; intros [|y b] j Ha Hb; cbn [length] in *; try lia; destruct j as [|j]; [reflexivity|]; cbn; apply IH; lia. }
    rewrite app_nth1 by (rewrite xorl_length, firstn_length; lia); rewrite K by (rewrite ?firstn_length; lia); f_equal.
    rewrite <- (firstn_skipn 16 X) at 2; rewrite app_nth1 by (rewrite firstn_length; lia); reflexivity.
  - destruct (split_at 16 X ltac:(lia)) as (p & r & -> & Lp); rewrite gctr_app by exact Lp; rewrite app_length in L.
    rewrite !app_nth2 by (rewrite ?xorl_length; lia); rewrite xorl_length, Lp, LE, Nat.min_id.
    replace (16 * S k + i - 16)%nat with (16 * k + i)%nat by lia; cbn [incs]; apply IH; [apply inc32_block; exact Bc | exact Hi | lia].
Qed.
Theorem C33_long_message : forall E iv P A, blockfun E -> iv_ok iv -> bytes P -> bytes A -> zlen A < 2 ^ 61 -> 2 ^ 36 + 16 <= zlen P < 2 ^ 61 ->
  exists g C T g' u, gcm_init E iv = Ok g /\ Encrypt E g P A = Ok (C, T, g', u) /\
    forall i, 0 <= i < 16 -> Z.lxor (nth (Z.to_nat i) P 0) (nth (Z.to_nat i) C 0) = Z.lxor (nth (Z.to_nat (2 ^ 36 + i)) P 0) (nth (Z.to_nat (2 ^ 36 + i)) C 0).
Proof.
  intros E iv P A HE HI BP BA LA LP; apply blockfun_cipher in HE; destruct (init_ok E iv HE HI) as (g & Eg & U & C0 & EJ).
  pose proof (Encrypt_ok E g P A HE U BP BA ltac:(lia) LA) as E1; cbv zeta in E1; exists g; do 4 eexists; split; [exact Eg|]; split; [exact E1|].
  intros i Hi; pose proof (mblock_block E g U) as Bc; pose proof (inc32_block _ Bc) as Bi; unfold GCTR; set (c := inc32 (mblock g)) in *.
  replace (Z.to_nat i) with (16 * 0 + Z.to_nat i)%nat by lia; replace (Z.to_nat (2 ^ 36 + i)) with (16 * Z.to_nat (2 ^ 32) + Z.to_nat i)%nat.
  2:{ change (2 ^ 36) with (16 * 2 ^ 32); generalize (2 ^ 32), (eq_refl : (0 <=? 2 ^ 32) = true); intros b Hb; apply Z.leb_le in Hb || idtac; lia. }
  rewrite !(gctr_nth E HE) by (first [exact Bi | lia | unfold zlen in LP; generalize (2 ^ 32), (eq_refl : 2 ^ 36 = 16 * 2 ^ 32), (eq_refl : (0 <=? 2 ^ 32) = true); intros; lia]).
  assert (W : incs (Z.to_nat (2 ^ 32)) c = incs 0 c).
  { rewrite !incs_form by exact Bi; do 2 f_equal; rewrite Z2Nat.id by lia; rewrite <- (Z.mul_1_l (2 ^ 32)) at 1; rewrite Z.mod_add, Z.add_0_r by lia; reflexivity. }
  rewrite W; rewrite <- !Z.lxor_assoc, !Z.lxor_nilpotent; reflexivity.
Qed.
Print Assumptions C33_long_message.
Theorem C33_long_refuted : exists P : list Z, bytes P /\ zlen P = 2 ^ 36 + 16 /\ forall E iv, blockfun E -> iv_ok iv ->
  exists g C T g' u, gcm_init E iv = Ok g /\ Encrypt E g P [] = Ok (C, T, g', u) /\
    forall i, 0 <= i < 16 -> Z.lxor (nth (Z.to_nat i) P 0) (nth (Z.to_nat i) C 0) = Z.lxor (nth (Z.to_nat (2 ^ 36 + i)) P 0) (nth (Z.to_nat (2 ^ 36 + i)) C 0).
Proof.
  exists (repeat 0 (Z.to_nat (2 ^ 36 + 16))).
  assert (L : zlen (repeat 0 (Z.to_nat (2 ^ 36 + 16))) = 2 ^ 36 + 16) by (unfold zlen; rewrite repeat_length, Z2Nat.id by lia; reflexivity).
  assert (B : bytes (repeat 0 (Z.to_nat (2 ^ 36 + 16)))) by (apply bytes_repeat; unfold byte; lia).
  split; [exact B|]; split; [exact L|]; intros E iv HE HI; apply (C33_long_message E iv _ [] HE HI B); [constructor | cbn; lia | rewrite L; lia].
Qed.
Print Assumptions C33_long_refuted.

(** ** C34 is false: the keystream is always zero. *)
Lemma xor_zero l : map2 Z.lxor l (repeat 0 (length l)) = l.
Proof. induction l as [|x t IH]; [reflexivity|]; cbn; rewrite Z.lxor_0_r; f_equal; exact IH. Qed.
Theorem C34_identity : forall E iv m data, blockfun E -> length iv = 16%nat -> bytes iv -> 0 <= m < 2 ^ 64 -> ctr_crypt E iv m data = Ok (data, w64 (m + 1)).
Proof.
  intros E iv m data HE L B Hm; unfold ctr_crypt, GenerateKeystream; apply blockfun_cipher in HE.
  rewrite first_ctr_ok by (try lia; right; unfold zlen; rewrite L; reflexivity); cbn [bind].
  assert (St : forall count n c pre post, block c -> 16 * n = zlen pre -> length post = (16 * count)%nat -> exists cap, ctr_store E count n c (pre ++ post) = Ok cap).
  { induction count as [|k IH]; intros n c pre post Bc Hn Lp; [exists (pre ++ post); reflexivity|]; cbn [ctr_store]; rewrite ctr_inc_ok by exact Bc; cbn [bind].
    destruct (split_at 16 post ltac:(lia)) as (o & post' & -> & Lo); rewrite app_length in Lp; pose proof (HE _ (inc32_block _ Bc)) as [LE _].
    rewrite blit_at by (try lia; congruence); cbn [bind]; rewrite app_assoc; apply IH; [apply inc32_block; exact Bc | rewrite zlen_app; unfold zlen at 2; lia | lia]. }
  assert (Bj : block (with_counter (J iv) m)) by (apply with_counter_block, J_block; [right; unfold zlen; rewrite L; reflexivity | exact B]).
  pose proof (zlen_nonneg data) as ND; pose proof (Z.div_pos (zlen data + 15) 16 ltac:(lia) ltac:(lia)).
  destruct (St (Z.to_nat ((zlen data + 15) / 16)) 0 _ [] (repeat 0 (Z.to_nat (16 * ((zlen data + 15) / 16)))) Bj eq_refl ltac:(rewrite repeat_length; lia)) as [cap Ec].
  cbn [app] in Ec; unfold J in Ec; rewrite Ec; cbn [bind]; do 2 f_equal.
  unfold resize; rewrite zlen_to_nat, firstn_nil; cbn [app length]; rewrite Nat.sub_0_r; apply xor_zero.
Qed.
Print Assumptions C34_identity.
(** Against the claim: with this cipher the first keystream byte of the standard is 1, and the
    ciphertext is the plaintext. *)
Theorem C34_ctr_refuted : exists E iv data, blockfun E /\ length iv = 16%nat /\ bytes iv /\ bytes data /\
  ctr_crypt E iv 0 data = Ok (data, 1) /\ data <> GCTR E iv data /\ data <> GCTR E (inc32 iv) data.
Proof.
  exists (fun _ => repeat 1 16), (repeat 0 16), [5; 6; 7]; split; [intros b _ _; split; [reflexivity | apply bytesb_iff; reflexivity]|].
  split; [reflexivity|]; split; [apply bytesb_iff; reflexivity|]; split; [apply bytesb_iff; reflexivity|].
  split; [vm_compute; reflexivity|]; split; vm_compute; discriminate.
Qed.
Print Assumptions C34_ctr_refuted.
(** Only this much is left of the claim. *)
Theorem C34_round_trip_partial : forall E iv m data, blockfun E -> length iv = 16%nat -> bytes iv -> 0 <= m < 2 ^ 64 ->
  (do (c, _) <- ctr_crypt E iv m data; do (d, _) <- ctr_crypt E iv m c; Ok d) = Ok data.
Proof. intros E iv m data HE L B Hm; rewrite C34_identity by assumption; cbn [bind]; rewrite C34_identity by assumption; reflexivity. Qed.
Print Assumptions C34_round_trip_partial.
(** Key and IV sizes are checked. *)
Theorem C34_sizes : forall ks key iv, ctr_init ks key iv = Ok tt <-> (zlen key = ks /\ zlen iv = 16).
Proof.
  intros ks key iv; unfold ctr_init; destruct (Z.eqb_spec (zlen key) ks), (Z.eqb_spec (zlen iv) 16); cbn [negb orb]; split; intros H; try discriminate H; try tauto; reflexivity.
Qed.
Print Assumptions C34_sizes.

(** ** C35 *)
Lemma blocks_loop_ok f n : 0 < n -> (forall b, zlen b = n -> zlen (f b) = n) -> forall k fuel pre rest, length rest = (k * Z.to_nat n)%nat -> (k <= fuel)%nat ->
  blocks_loop f n fuel (zlen pre) (pre ++ rest) = Ok (pre ++ concat (map f (chunks (Z.to_nat n) rest))).
Proof.
  intros Hn Hf; induction k as [|k IH]; intros fuel pre rest L Hk.
  - destruct rest; [|discriminate L]; rewrite chunks_nil; cbn [map concat]; rewrite !app_nil_r.
    destruct fuel; cbn [blocks_loop]; rewrite Z.ltb_irrefl; reflexivity.
  - destruct fuel as [|fuel]; [lia|]; cbn [blocks_loop].
    destruct (split_at (Z.to_nat n) rest ltac:(lia)) as (b & r & -> & Lb); rewrite app_length in L.
    rewrite !zlen_app; assert (Hb : zlen b = n) by (unfold zlen; lia); pose proof (zlen_nonneg r).
    destruct (Z.ltb_spec (zlen pre) (zlen pre + (zlen b + zlen r))); [|lia].
    rewrite slice_at by (reflexivity || lia); cbn [bind]; rewrite blit_at by (try reflexivity; specialize (Hf b Hb); unfold zlen in *; lia); cbn [bind].
    rewrite app_assoc; replace (zlen pre + n) with (zlen (pre ++ f b)) by (rewrite zlen_app, (Hf b Hb); reflexivity).
    rewrite IH by lia; rewrite chunks_app_full by (exact Lb || lia); cbn [map concat]; rewrite <- app_assoc; reflexivity.
Qed.
Lemma whole_blocks {A} (data : list A) n : 0 < n -> zlen data mod n = 0 -> exists k, length data = (k * Z.to_nat n)%nat /\ (k <= length data)%nat.
Proof.
  intros Hn H; exists (Z.to_nat (zlen data / n)); pose proof (Z.div_mod (zlen data) n ltac:(lia)) as D; pose proof (zlen_nonneg data).
  assert (0 <= zlen data / n) by (apply Z.div_pos; lia); rewrite H in D; unfold zlen in *; split; [|nia].
  rewrite <- Z2Nat.inj_mul by lia; rewrite Z.mul_comm; lia.
Qed.
Theorem C35_ecb : forall E D n data, 0 < n -> (forall b, zlen b = n -> zlen (E b) = n /\ D (E b) = b) -> (forall b, zlen b = n -> zlen (D b) = n) -> zlen data mod n = 0 ->
  exists c, ecb_crypt E n data = Ok c /\ zlen c = zlen data /\ c = concat (map E (chunks (Z.to_nat n) data)) /\ ecb_crypt D n c = Ok data.
Proof.
  intros E D n data Hn HE HD Hd; destruct (whole_blocks data n Hn Hd) as (k & L & Lk).
  assert (CL : forall k data, length data = (k * Z.to_nat n)%nat -> length (concat (map E (chunks (Z.to_nat n) data))) = length data /\
      concat (map D (chunks (Z.to_nat n) (concat (map E (chunks (Z.to_nat n) data))))) = data).
  { clear data Hd k L Lk; induction k as [|k IH]; intros data L; [destruct data; [split; reflexivity | discriminate L]|].
    destruct (split_at (Z.to_nat n) data ltac:(lia)) as (b & r & -> & Lb); rewrite app_length in L; destruct (IH r ltac:(lia)) as [I1 I2].
    rewrite chunks_app_full by (exact Lb || lia); cbn [map concat]; destruct (HE b ltac:(unfold zlen; lia)) as [LE DE]; unfold zlen in LE.
    rewrite !app_length, I1; split; [lia|]; rewrite chunks_app_full by lia; cbn [map concat]; rewrite DE, I2; reflexivity. }
  destruct (CL k data L) as [L2 R2].
  pose proof (blocks_loop_ok E n Hn (fun b H => proj1 (HE b H)) k (length data) [] data L Lk) as B1; cbn [app] in B1; change (zlen []) with 0 in B1.
  unfold ecb_crypt; rewrite Hd; cbn [Z.eqb negb]; eexists; split; [exact B1|]; split; [unfold zlen; lia|]; split; [reflexivity|].
  replace (zlen (concat (map E (chunks (Z.to_nat n) data)))) with (zlen data) by (unfold zlen; lia); rewrite Hd; cbn [Z.eqb negb].
  pose proof (blocks_loop_ok D n Hn HD k (length data) [] (concat (map E (chunks (Z.to_nat n) data))) ltac:(lia) Lk) as B2; cbn [app] in B2; change (zlen []) with 0 in B2.
  rewrite L2, B2, R2; reflexivity.
Qed.
Print Assumptions C35_ecb.
(** CBC of SP 800-38A, 6.2: C_1 = E(P_1 xor IV), C_j = E(P_j xor C_{j-1}). *)
Fixpoint CBC (E : list Z -> list Z) (prev : list Z) (ps : list (list Z)) : list Z :=
  match ps with [] => [] | p :: t => E (xorl p prev) ++ CBC E (E (xorl p prev)) t end.
Lemma cbc_loop_ok E n iv : 0 < n -> (forall b, zlen b = n -> zlen (E b) = n) -> zlen iv = n -> forall k fuel pre rest prev, length rest = (k * Z.to_nat n)%nat -> (k <= fuel)%nat ->
  zlen prev = n -> (pre = [] /\ prev = iv \/ exists p0, pre = p0 ++ prev) ->
  cbc_loop E n iv fuel (zlen pre) (pre ++ rest) = Ok (pre ++ CBC E prev (chunks (Z.to_nat n) rest)).
Proof.
  intros Hn HE Hiv; induction k as [|k IH]; intros fuel pre rest prev L Hk Hp Hpre.
  - destruct rest; [|discriminate L]; rewrite chunks_nil; cbn [CBC]; rewrite !app_nil_r.
    destruct fuel; cbn [cbc_loop]; rewrite Z.ltb_irrefl; reflexivity.
  - destruct fuel as [|fuel]; [lia|]; cbn [cbc_loop].
    destruct (split_at (Z.to_nat n) rest ltac:(lia)) as (b & r & -> & Lb); rewrite app_length in L.
    rewrite !zlen_app; assert (Hb : zlen b = n) by (unfold zlen; lia); pose proof (zlen_nonneg r).
    destruct (Z.ltb_spec (zlen pre) (zlen pre + (zlen b + zlen r))); [|lia].
    rewrite slice_at by (reflexivity || lia); cbn [bind].
    assert (PV : (if zlen pre =? 0 then slice iv 0 n else slice (pre ++ b ++ r) (zlen pre - n) n) = Ok prev).
    { destruct Hpre as [[-> ->]|[p0 ->]].
      - change (zlen [] =? 0) with true; cbv iota; pose proof (slice_at [] iv [] 0 n eq_refl (eq_sym Hiv)) as S0; cbn [app] in S0; rewrite app_nil_r in S0; exact S0.
      - rewrite zlen_app; pose proof (zlen_nonneg p0); destruct (Z.eqb_spec (zlen p0 + zlen prev) 0); [lia|].
        rewrite <- app_assoc; apply slice_at; lia. }
    rewrite PV; cbn [bind].
    assert (HX : zlen (xorl b prev) = n) by (unfold zlen in *; rewrite xorl_length; lia); pose proof (HE _ HX) as HEX.
    rewrite blit_at by (try reflexivity; unfold zlen in *; lia); cbn [bind].
    rewrite app_assoc; replace (zlen pre + n) with (zlen (pre ++ E (xorl b prev))) by (rewrite zlen_app, HEX; reflexivity).
    rewrite (IH _ _ _ (E (xorl b prev))) by (try lia; try exact HEX; right; exists pre; reflexivity).
    rewrite chunks_app_full by (exact Lb || lia); cbn [CBC]; rewrite <- app_assoc; reflexivity.
Qed.
Theorem C35_cbc_encrypt : forall E n iv data, 0 < n -> (forall b, zlen b = n -> zlen (E b) = n) -> zlen iv = n -> zlen data mod n = 0 ->
  cbc_encrypt E n iv data = Ok (CBC E iv (chunks (Z.to_nat n) data)).
Proof.
  intros E n iv data Hn HE Hiv Hd; destruct (whole_blocks data n Hn Hd) as (k & L & Lk); unfold cbc_encrypt; rewrite Hd; cbn [Z.eqb negb].
  apply (cbc_loop_ok E n iv Hn HE Hiv k (length data) [] data iv L Lk Hiv); left; split; reflexivity.
Qed.
Print Assumptions C35_cbc_encrypt.
(** Decrypt never undoes the chaining: it is the ECB decryption, whatever the IV. *)
Theorem C35_cbc_decrypt : forall D n iv data, cbc_decrypt D n iv data = ecb_crypt D n data.
Proof. reflexivity. Qed.
Print Assumptions C35_cbc_decrypt.
Theorem C35_cbc_refuted : exists E D n iv data, 0 < n /\ (forall b, zlen b = n -> zlen (E b) = n /\ D (E b) = b /\ E (D b) = b) /\ zlen iv = n /\ zlen data mod n = 0 /\
  (do c <- cbc_encrypt E n iv data; cbc_decrypt D n iv c) <> Ok data.
Proof.
  exists (@rev Z), (@rev Z), 8, [1; 2; 3; 4; 5; 6; 7; 8], (repeat 0 16); split; [lia|]; split.
  - intros b Hb; unfold zlen in *; rewrite rev_length, !rev_involutive; repeat split; exact Hb.
  - split; [reflexivity|]; split; [reflexivity|]; vm_compute; discriminate.
Qed.
Print Assumptions C35_cbc_refuted.
Example C35_case : ecb_crypt (@rev Z) 8 [1; 2; 3; 4; 5; 6; 7; 8; 9; 10; 11; 12; 13; 14; 15; 16] = Ok [8; 7; 6; 5; 4; 3; 2; 1; 16; 15; 14; 13; 12; 11; 10; 9].
Proof. reflexivity. Qed.
