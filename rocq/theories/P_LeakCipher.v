(** The records of M_LeakCipher: the results are those of M_GCM and M_ChaCha, and what is recorded
    in terms of lengths, the last four bytes of the first counter block, and the comparison. *)
From Verif Require Import Base BaseP M_HKDF M_AES S_AES P_AES M_ChaCha M_GCM S_GCM P_Ghash P_GHM P_GCM Prop_GCM M_X25519 M_Mont M_RSA M_Leak P_Leak M_LeakCipher.
Open Scope Z_scope.

(** ** Results *)
Lemma absorb_blocks_t_value h data : forall count n c, snd (absorb_blocks_t h data count n c) = absorb_blocks h data count n c.
Proof. induction count as [|k IH]; intros n c; [reflexivity|]. cbn [absorb_blocks_t absorb_blocks]. rewrite !snd_tbind. cbn [emit snd bind]. rewrite ?snd_tbind. apply bind_ext. intros; apply IH. Qed.
Lemma absorb_t_value line h data c : snd (absorb_t line h data c) = absorb h data c.
Proof. unfold absorb_t, absorb. cbv zeta. rewrite snd_tbind, absorb_blocks_t_value. apply bind_ext. intros a. rewrite snd_tbind. cbn [emit snd bind]. destruct (0 <? _); [rewrite snd_tbind; reflexivity | reflexivity]. Qed.
Lemma ghash_t_value h C A : snd (ghash_t h C A) = ghash h C A.
Proof. unfold ghash_t, ghash. rewrite snd_tbind, absorb_t_value. apply bind_ext. intros a. rewrite snd_tbind, absorb_t_value. apply bind_ext. intros b. reflexivity. Qed.
Lemma calculate_tag_t_value h z C A : snd (calculate_tag_t h z C A) = calculate_tag h z C A.
Proof. unfold calculate_tag_t, calculate_tag. rewrite snd_tbind, ghash_t_value. reflexivity. Qed.
Lemma gcm_init_t_value rks iv : snd (gcm_init_t rks iv) = gcm_init (AesEncrypt rks) iv.
Proof.
  unfold gcm_init_t, gcm_init. rewrite snd_tbind. cbn [AesEncrypt_t emit snd bind]. cbv zeta. rewrite snd_tbind. cbn [emit snd bind]. rewrite snd_tbind. destruct (zlen iv =? 8); cbn [ret emit snd bind orb]; [|destruct (12 <? zlen iv)]; rewrite ?snd_tbind, ?ghash_t_value; reflexivity.
Qed.
Lemma ctr_inc_t_value C : snd (ctr_inc_t C) = ctr_inc C.
Proof.
  unfold ctr_inc_t, ctr_inc. rewrite snd_tbind. apply bind_ext. intros [C1 z1]. rewrite snd_tbind. cbn [emit snd fst bind]. destruct (negb z1); [reflexivity|].
  rewrite snd_tbind. apply bind_ext. intros [C2 z2]. rewrite snd_tbind. cbn [emit snd fst bind]. destruct (negb z2); [reflexivity|].
  rewrite snd_tbind. apply bind_ext. intros [C3 z3]. rewrite snd_tbind. cbn [emit snd fst bind]. destruct (negb z3); [reflexivity|].
  rewrite snd_tbind. apply bind_ext. intros [C4 z4]. reflexivity.
Qed.
Lemma ctr_loop_t_value rks shrink inp : forall count n ctr out used, snd (ctr_loop_t rks shrink inp count n ctr out used) = ctr_loop (AesEncrypt rks) shrink inp count n ctr out used.
Proof.
  induction count as [|k IH]; intros n ctr out used; [reflexivity|]. cbn [ctr_loop_t ctr_loop]. rewrite snd_tbind. cbn [emit snd bind]. rewrite snd_tbind, ctr_inc_t_value. apply bind_ext. intros c1. rewrite snd_tbind. cbn [AesEncrypt_t emit snd bind].
  rewrite snd_tbind. cbn [snd]. apply bind_ext. intros o1. rewrite snd_tbind. cbn [xor_range_t snd]. apply bind_ext. intros o2. apply IH.
Qed.
Lemma full_loop_t_value rks inp : forall count n ctr out used, snd (full_loop_t rks inp count n ctr out used) = full_loop (AesEncrypt rks) inp count n ctr out used.
Proof.
  induction count as [|k IH]; intros n ctr out used; [reflexivity|]. cbn [full_loop_t full_loop]. rewrite snd_tbind. cbn [emit snd bind]. rewrite snd_tbind, ctr_inc_t_value. apply bind_ext. intros c1. rewrite snd_tbind. cbn [AesEncrypt_t emit snd bind].
  rewrite snd_tbind. cbn [snd]. apply bind_ext. intros p. rewrite snd_tbind. cbn [snd]. apply bind_ext. intros o. apply IH.
Qed.
Lemma Encrypt_t_value rks g P A : snd (Encrypt_t rks g P A) = Encrypt (AesEncrypt rks) g P A.
Proof.
  unfold Encrypt_t, Encrypt. rewrite snd_tbind. cbn [emit snd bind]. destruct (zlen (g_iv g) <? 12); [reflexivity|]. rewrite snd_tbind. cbn [first_ctr_t snd]. apply bind_ext. intros ctr. rewrite snd_tbind. cbn [AesEncrypt_t emit snd bind]. cbv zeta.
  rewrite snd_tbind. cbn [choose emit snd bind]. rewrite snd_tbind, full_loop_t_value. apply bind_ext. intros [[c1 o1] u1]. cbn [fst snd]. rewrite snd_tbind, ctr_loop_t_value. apply bind_ext. intros [o2 u2]. cbn [fst snd]. rewrite snd_tbind, calculate_tag_t_value. reflexivity.
Qed.
Lemma compare_t_value : forall a b, snd (compare_t a b) = Ok (list_eqb a b).
Proof. induction a as [|x a IH]; intros [|y b]; try reflexivity. cbn [compare_t list_eqb]. rewrite snd_tbind. cbn [emit snd bind]. destruct (x =? y); [apply IH | reflexivity]. Qed.
Lemma Decrypt_t_value rks g C A T : snd (Decrypt_t rks g C A T) = Decrypt (AesEncrypt rks) g C A T.
Proof.
  unfold Decrypt_t, Decrypt. rewrite snd_tbind. cbn [emit snd bind]. destruct (zlen (g_iv g) <? 12); [reflexivity|]. rewrite snd_tbind. cbn [first_ctr_t snd]. apply bind_ext. intros ctr. rewrite snd_tbind. cbn [AesEncrypt_t emit snd bind]. cbv zeta.
  rewrite snd_tbind, ctr_loop_t_value. apply bind_ext. intros [o1 u1]. cbn [fst snd]. rewrite snd_tbind, calculate_tag_t_value. apply bind_ext. intros t. rewrite snd_tbind, compare_t_value. reflexivity.
Qed.
Lemma ChaCha20_t_value key nonce : snd (ChaCha20_t key nonce) = ChaCha20 key nonce.
Proof. unfold ChaCha20_t, ChaCha20. rewrite snd_tbind. cbn [emit snd bind]. destruct (negb _); [reflexivity|]. rewrite snd_tbind. cbn [emit snd bind]. destruct (negb _); reflexivity. Qed.
Lemma chacha_t_value : forall data c, snd (chacha_t c data) = M_ChaCha.Encrypt c data.
Proof.
  induction data as [|x l IH]; intros c; [reflexivity|]. cbn [chacha_t M_ChaCha.Encrypt]. rewrite snd_tbind. cbn [emit snd bind]. rewrite snd_tbind. cbn [get_t snd]. apply bind_ext. intros k. cbv zeta. rewrite snd_tbind. cbn [emit snd bind]. rewrite snd_tbind.
  destruct (_ =? 64); cbn [GenerateBlock_t ret emit snd bind]; rewrite snd_tbind, IH; reflexivity.
Qed.
Lemma chachas_t_value : forall ps c, snd (chachas_t c ps) = Encrypts c ps.
Proof. induction ps as [|p ps IH]; intros c; [reflexivity|]. cbn [chachas_t Encrypts]. rewrite snd_tbind, chacha_t_value. apply bind_ext. intros r. rewrite snd_tbind, IH. reflexivity. Qed.

(** ** Records of GCM *)
(** What one step of the counter shows of its last four bytes, and what it makes of them. *)
Definition inc_record (t : list Z) : list event :=
  match t with
  | [a; b; c; d] =>
      Choose 28 (negb (w8 (d + 1) =? 0)) :: (if negb (w8 (d + 1) =? 0) then [] else
      Choose 30 (negb (w8 (c + 1) =? 0)) :: (if negb (w8 (c + 1) =? 0) then [] else [Choose 32 (negb (w8 (b + 1) =? 0))]))
  | _ => []
  end.
Definition inc_tail (t : list Z) : list Z :=
  match t with
  | [a; b; c; d] =>
      if negb (w8 (d + 1) =? 0) then [a; b; c; w8 (d + 1)] else
      if negb (w8 (c + 1) =? 0) then [a; b; w8 (c + 1); w8 (d + 1)] else
      if negb (w8 (b + 1) =? 0) then [a; w8 (b + 1); w8 (c + 1); w8 (d + 1)] else [w8 (a + 1); w8 (b + 1); w8 (c + 1); w8 (d + 1)]
  | _ => []
  end.
Lemma four (t : list Z) : length t = 4%nat -> exists a b c d, t = [a; b; c; d].
Proof. intros L. do 4 (destruct t as [|? t]; [discriminate L|]). destruct t; [|discriminate L]. do 4 eexists. reflexivity. Qed.
Lemma inc_tail_length t : length t = 4%nat -> length (inc_tail t) = 4%nat.
Proof. intros L. destruct (four t L) as (a & b & c & d & ->). cbn [inc_tail]. do 3 (destruct (negb _); [reflexivity|]). reflexivity. Qed.
Lemma ctr_inc_t_parts p t : length p = 12%nat -> length t = 4%nat -> fst (ctr_inc_t (p ++ t)) = inc_record t /\ snd (ctr_inc_t (p ++ t)) = Ok (p ++ inc_tail t).
Proof.
  intros L Lt. destruct (four t Lt) as (a & b & c & d & ->). rewrite ctr_inc_t_value. split; [|apply ctr_inc_parts; exact L]. cbn [inc_record]. unfold ctr_inc_t.
  assert (L3 : forall x y z, 15 = zlen (p ++ [x; y; z])) by (intros; rewrite zlen_app; unfold zlen; rewrite L; reflexivity).
  assert (L2 : forall x y, 14 = zlen (p ++ [x; y])) by (intros; rewrite zlen_app; unfold zlen; rewrite L; reflexivity).
  assert (L1 : forall x, 13 = zlen (p ++ [x])) by (intros; rewrite zlen_app; unfold zlen; rewrite L; reflexivity).
  assert (L0 : 12 = zlen p) by (unfold zlen; rewrite L; reflexivity).
  change [a; b; c; d] with ([a; b; c] ++ [d]). rewrite app_assoc, bump8_at by apply L3. unfold tbind. cbn [emit fst snd app].
  destruct (w8 (d + 1) =? 0); cbn [negb]; [|reflexivity].
  rewrite <- app_assoc. change ([a; b; c] ++ [w8 (d + 1)]) with ([a; b] ++ c :: [w8 (d + 1)]). rewrite app_assoc, bump8_at by apply L2. cbn [emit fst snd app].
  destruct (w8 (c + 1) =? 0); cbn [negb]; [|reflexivity].
  rewrite <- app_assoc. change ([a; b] ++ [w8 (c + 1); w8 (d + 1)]) with ([a] ++ b :: [w8 (c + 1); w8 (d + 1)]). rewrite app_assoc, bump8_at by apply L1. cbn [emit fst snd app].
  destruct (w8 (b + 1) =? 0); cbn [negb]; [|reflexivity].
  rewrite <- app_assoc. cbn [app]. rewrite bump8_at by apply L0. reflexivity.
Qed.
Fixpoint inc_tails (count : nat) (t : list Z) : list Z := match count with O => t | S k => inc_tails k (inc_tail t) end.
Fixpoint full_record (nr count : nat) (n : Z) (t : list Z) : list event :=
  match count with
  | O => [Loop false]
  | S k => [Loop true] ++ inc_record t ++ aes_record nr ++ [At (16 * n)] ++ [At (16 * n)] ++ full_record nr k (n + 1) (inc_tail t)
  end.
Fixpoint ctr_record (nr : nat) (len : Z) (count : nat) (n : Z) (t : list Z) : list event :=
  match count with
  | O => [Loop false]
  | S k => [Loop true] ++ inc_record t ++ aes_record nr ++ [At (16 * n)] ++ passes 2 (Z.to_nat (Z.min (len - 16 * n) 16)) (16 * n) ++ ctr_record nr len k (n + 1) (inc_tail t)
  end.
Lemma bind_split {A B} (m : traced A) (f : A -> traced B) r : snd (tbind m f) = Ok r -> exists a, snd m = Ok a /\ fst (tbind m f) = fst m ++ fst (f a) /\ snd (f a) = Ok r.
Proof. unfold tbind. destruct (snd m) as [a| | |]; cbv zeta; cbn [fst snd]; intros H; try discriminate H. exists a. auto. Qed.
Ltac cut H a := apply bind_split in H; destruct H as (a & ? & -> & H).
Lemma full_loop_record rks inp p : length p = 12%nat -> forall count n t out used r, length t = 4%nat -> snd (full_loop_t rks inp count n (p ++ t) out used) = Ok r ->
  fst (full_loop_t rks inp count n (p ++ t) out used) = full_record (length rks) count n t /\ fst (fst r) = p ++ inc_tails count t.
Proof.
  intros Lp. induction count as [|k IH]; intros n t out used r Lt H; [apply (f_equal (fun x => match x with Ok y => y | _ => r end)) in H; cbn in H; subst r; split; reflexivity|].
  cbn [full_loop_t full_record inc_tails] in *. cut H a0. cut H c1. destruct (ctr_inc_t_parts p t Lp Lt) as [F S0]. rewrite F. rewrite S0 in *. match goal with E : Ok (p ++ _) = Ok c1 |- _ => injection E as <- end.
  cut H b. cut H q. cut H o. destruct (IH (n + 1) (inc_tail t) o (used ++ [p ++ inc_tail t]) r (inc_tail_length t Lt) H) as [I1 I2]. rewrite I1. split; [reflexivity | exact I2].
Qed.
Lemma ctr_loop_record rks shrink inp p : length p = 12%nat -> forall count n t out used r, length t = 4%nat -> snd (ctr_loop_t rks shrink inp count n (p ++ t) out used) = Ok r ->
  fst (ctr_loop_t rks shrink inp count n (p ++ t) out used) = ctr_record (length rks) (zlen inp) count n t.
Proof.
  intros Lp. induction count as [|k IH]; intros n t out used r Lt H; [reflexivity|].
  cbn [ctr_loop_t ctr_record] in *. cut H a0. cut H c1. destruct (ctr_inc_t_parts p t Lp Lt) as [F S0]. rewrite F. rewrite S0 in *. match goal with E : Ok (p ++ _) = Ok c1 |- _ => injection E as <- end.
  cut H b. cut H q. cut H o. cbv zeta in *. rewrite (IH (n + 1) (inc_tail t) _ (used ++ [p ++ inc_tail t]) r (inc_tail_length t Lt) H). reflexivity.
Qed.
Fixpoint absorb_blocks_record (count : nat) (n : Z) : list event := match count with O => [Loop false] | S k => [Loop true] ++ [At (16 * n)] ++ absorb_blocks_record k (n + 1) end.
Definition absorb_record (line len : Z) : list event :=
  absorb_blocks_record (Z.to_nat (len / 16)) 0 ++ [Choose line (0 <? len - len / 16 * 16)] ++ (if 0 <? len - len / 16 * 16 then [At (len - (len - len / 16 * 16))] else []).
Lemma absorb_blocks_recorded h data : forall count n c r, snd (absorb_blocks_t h data count n c) = Ok r -> fst (absorb_blocks_t h data count n c) = absorb_blocks_record count n.
Proof. induction count as [|k IH]; intros n c r H; [reflexivity|]. cbn [absorb_blocks_t absorb_blocks_record] in *. cut H a0. cut H b. rewrite (IH _ _ _ H). reflexivity. Qed.
Lemma absorb_recorded line h data c r : snd (absorb_t line h data c) = Ok r -> fst (absorb_t line h data c) = absorb_record line (zlen data).
Proof.
  intros H. unfold absorb_t, absorb_record in *. cbv zeta in *. apply bind_split in H. destruct H as (a & Ea & -> & H). rewrite (absorb_blocks_recorded _ _ _ _ _ _ Ea). cut H b. destruct (0 <? _); [cut H t|]; rewrite ?app_nil_r; reflexivity.
Qed.
Definition tag_record (lc la : Z) : list event := absorb_record 42 la ++ absorb_record 51 lc ++ sizes_record.
Lemma ghash_recorded h C A r : snd (ghash_t h C A) = Ok r -> fst (ghash_t h C A) = tag_record (zlen C) (zlen A).
Proof.
  intros H. unfold ghash_t, tag_record in *. apply bind_split in H. destruct H as (a & Ea & -> & H). rewrite (absorb_recorded _ _ _ _ _ Ea). apply bind_split in H. destruct H as (b & Eb & -> & H). rewrite (absorb_recorded _ _ _ _ _ Eb).
  cut H u. cbn [ret fst emit]. rewrite app_nil_r. reflexivity.
Qed.
Lemma tag_recorded h z C A r : snd (calculate_tag_t h z C A) = Ok r -> fst (calculate_tag_t h z C A) = tag_record (zlen C) (zlen A).
Proof. intros H. unfold calculate_tag_t in *. apply bind_split in H. destruct H as (a & Ea & -> & H). rewrite (ghash_recorded _ _ _ _ Ea). apply app_nil_r. Qed.
Definition init_record (nr : nat) (iv : Z) : list event :=
  aes_record nr ++ [Choose 19 (iv =? 8)] ++ (if iv =? 8 then [] else [Choose 20 (12 <? iv)]) ++ (if (iv =? 8) || (12 <? iv) then tag_record iv 0 else []).
Lemma init_recorded rks iv g : snd (gcm_init_t rks iv) = Ok g -> fst (gcm_init_t rks iv) = init_record (length rks) (zlen iv).
Proof.
  intros H. unfold gcm_init_t, init_record in *. cut H e. cbv zeta in *. cut H u. cut H u'. cbn [AesEncrypt_t emit fst]. do 2 f_equal. f_equal; [destruct (zlen iv =? 8); reflexivity|].
  destruct ((zlen iv =? 8) || (12 <? zlen iv)); [|reflexivity]. apply bind_split in H. destruct H as (r & Er & -> & H). rewrite (ghash_recorded _ _ _ _ Er). apply app_nil_r.
Qed.
(** The record of a message, from the number of round keys, the size of the IV, the lengths, and the
    last bytes of the first counter block. *)
Definition encrypt_record (nr : nat) (iv lp la : Z) (t : list Z) : list event :=
  let blocks := (lp + 15) / 16 in let partial := negb (lp =? blocks * 16) in let full := if partial then blocks - 1 else blocks in
  [Choose 116 (iv <? 12)] ++ [Choose 127 (iv =? 12)] ++ aes_record nr ++ [Choose 139 partial] ++ full_record nr (Z.to_nat full) 0 t ++
  ctr_record nr lp (Z.to_nat (blocks - full)) full (inc_tails (Z.to_nat full) t) ++ tag_record lp la.
Definition decrypt_record (nr : nat) (iv lc la : Z) (t : list Z) : list event :=
  [Choose 82 (iv <? 12)] ++ [Choose 93 (iv =? 12)] ++ aes_record nr ++ ctr_record nr lc (Z.to_nat ((lc + 15) / 16)) 0 t ++ tag_record lc la.
Lemma inc_tails_length : forall k t, length t = 4%nat -> length (inc_tails k t) = 4%nat.
Proof. induction k as [|k IH]; intros t L; [exact L|]. apply IH, inc_tail_length, L. Qed.
Lemma mblock_parts E g : usable E g -> exists p, length p = 12%nat /\ length (last_bytes (g_iv g)) = 4%nat /\ mblock g = p ++ last_bytes (g_iv g).
Proof.
  intros U. pose proof (mblock_block E g U) as [LM _]. destruct U as (_ & Hl & B & _). pose proof (J_block _ Hl B) as [LJ _].
  assert (L4 : length (last_bytes (g_iv g)) = 4%nat) by (unfold last_bytes; destruct (Z.eqb_spec (zlen (g_iv g)) 12); [reflexivity | rewrite skipn_length; unfold zlen in *; lia]).
  assert (L12 : length (firstn 12 (g_iv g)) = 12%nat) by (rewrite firstn_length; unfold zlen in *; lia).
  exists (firstn 12 (mblock g)). split; [rewrite firstn_length; lia|]. split; [exact L4|]. rewrite <- (firstn_skipn 12 (mblock g)) at 1. f_equal. unfold mblock, with_counter. rewrite app_assoc, skipn_app.
  rewrite skipn_all2 by (rewrite app_length, xorl_length, !firstn_length, skipn_length, be_bytes_length, LJ; reflexivity).
  rewrite app_length, xorl_length, !firstn_length, skipn_length, be_bytes_length, LJ. cbn [Nat.min Nat.sub Nat.add app]. rewrite skipn_O. unfold J. rewrite skipn_app, L12, Nat.sub_diag, skipn_all2 by lia. reflexivity.
Qed.
Lemma encrypt_recorded rks g P A : cipher (AesEncrypt rks) -> usable (AesEncrypt rks) g -> bytes P -> bytes A -> zlen P < 2 ^ 61 -> zlen A < 2 ^ 61 ->
  fst (Encrypt_t rks g P A) = encrypt_record (length rks) (zlen (g_iv g)) (zlen P) (zlen A) (last_bytes (g_iv g)).
Proof.
  intros HE U BP BA LP LA. pose proof (Encrypt_ok _ g P A HE U BP BA LP LA) as R. cbv zeta in R. destruct (mblock_parts _ g U) as (p & Lp & Lt & EM). pose proof (mblock_block _ g U) as Bc.
  assert (LC : zlen (GCTR (AesEncrypt rks) (inc32 (mblock g)) P) = zlen P) by (unfold zlen, GCTR; rewrite gctr_length; [reflexivity | exact HE | apply inc32_block; exact Bc]).
  rewrite <- Encrypt_t_value in R. unfold Encrypt_t, encrypt_record in *. cut R a0. destruct U as (Uh & Hl & B & Um). replace (zlen (g_iv g) <? 12) with false in * by lia. cbv iota in *.
  apply bind_split in R. destruct R as (ctr & Ec & -> & R). cbn [first_ctr_t snd] in Ec. rewrite first_ctr_ok in Ec by (assumption || lia). fold (J (g_iv g)) in Ec. fold (mblock g) in Ec. rewrite EM in Ec. injection Ec as <-.
  cut R e. cbv zeta in *. apply bind_split in R. destruct R as (full & Ef & -> & R). cbn [choose emit snd] in Ef. injection Ef as <-. apply bind_split in R. destruct R as (r & Er & -> & R).
  destruct (full_loop_record rks P p Lp _ _ _ _ _ _ Lt Er) as [F1 F2]. rewrite F1. rewrite F2 in R. rewrite F2. apply bind_split in R. destruct R as (r2 & Er2 & -> & R).
  rewrite (ctr_loop_record rks true P p Lp _ _ _ _ _ _ (inc_tails_length _ _ Lt) Er2). apply bind_split in R. destruct R as (tg & Et & -> & R). rewrite (tag_recorded _ _ _ _ _ Et).
  assert (E2 : zlen (fst r2) = zlen P) by (cbn [ret emit snd] in R; rewrite <- LC; congruence). rewrite E2. cbn [ret emit fst first_ctr_t AesEncrypt_t choose]. rewrite app_nil_r. reflexivity.
Qed.
Lemma decrypt_recorded rks g C A T : cipher (AesEncrypt rks) -> usable (AesEncrypt rks) g -> bytes C -> bytes A -> zlen C < 2 ^ 61 -> zlen A < 2 ^ 61 ->
  fst (Decrypt_t rks g C A T) = decrypt_record (length rks) (zlen (g_iv g)) (zlen C) (zlen A) (last_bytes (g_iv g)) ++ fst (compare_t (spec_tag (AesEncrypt rks) (mblock g) C A) T).
Proof.
  intros HE U BP BA LP LA. pose proof (Decrypt_ok _ g C A T HE U BP BA LP LA) as R. cbv zeta in R. destruct (mblock_parts _ g U) as (p & Lp & Lt & EM). pose proof (mblock_block _ g U) as Bc.
  rewrite <- Decrypt_t_value in R. unfold Decrypt_t, decrypt_record in *. cut R a0. destruct U as (Uh & Hl & B & Um). replace (zlen (g_iv g) <? 12) with false in * by lia. cbv iota in *.
  apply bind_split in R. destruct R as (ctr & Ec & -> & R). cbn [first_ctr_t snd] in Ec. rewrite first_ctr_ok in Ec by (assumption || lia). fold (J (g_iv g)) in Ec. fold (mblock g) in Ec. injection Ec as <-.
  apply bind_split in R. destruct R as (e & Ee & -> & R). cbn [AesEncrypt_t emit snd] in Ee. injection Ee as <-. cbv zeta in *. apply bind_split in R. destruct R as (r & Er & -> & R). rewrite EM in Er. pose proof (ctr_loop_record rks false C p Lp _ _ _ _ _ _ Lt Er) as F. rewrite <- EM in F. rewrite F.
  apply bind_split in R. destruct R as (tg & Et & -> & R). rewrite (tag_recorded _ _ _ _ _ Et). rewrite calculate_tag_t_value, (tag_ok _ (g_h g) (mblock g) _ C A HE Bc eq_refl Uh BP BA LP LA) in Et. injection Et as <-.
  apply bind_split in R. destruct R as (same & Es & -> & R). cbn [ret emit fst first_ctr_t AesEncrypt_t]. rewrite app_nil_r, <- !app_assoc. unfold spec_tag, ghash_input. reflexivity.
Qed.
