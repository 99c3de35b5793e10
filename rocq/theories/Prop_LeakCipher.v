(** Properties C114 and C115: what AES-GCM and ChaCha20 show about keys and messages. *)
From Verif Require Import Base BaseP M_HKDF M_AES S_AES P_AES M_ChaCha P_ChaCha M_GCM S_GCM P_Ghash P_GHM P_GCM Prop_GCM M_X25519 M_Mont M_RSA M_Leak P_Leak M_LeakCipher P_LeakCipher.
Open Scope Z_scope.

(** ** C114: ChaCha20 *)
Definition chacha_session_t (key nonce : list Z) (pieces : list (list Z)) : traced (list (list Z)) :=
  see c <- ChaCha20_t key nonce; see r <- chachas_t c pieces; ret (snd r).
Definition next_offset (o : Z) : Z := if w8 (o + 1) =? 64 then 0 else w8 (o + 1).
Fixpoint stream_record (o : Z) (len : nat) : list event :=
  match len with
  | O => [Loop false]
  | S k => [Loop true] ++ [At o] ++ [Choose 94 (w8 (o + 1) =? 64)] ++ (if w8 (o + 1) =? 64 then block_record else []) ++ stream_record (next_offset o) k
  end.
Fixpoint offset_after (o : Z) (len : nat) : Z := match len with O => o | S k => offset_after (next_offset o) k end.
Fixpoint streams_record (o : Z) (lens : list nat) : list event := match lens with [] => [] | n :: t => stream_record o n ++ streams_record (offset_after o n) t end.
Lemma stream_recorded : forall data c r, snd (chacha_t c data) = Ok r -> fst (chacha_t c data) = stream_record (offset c) (length data) /\ offset (fst r) = offset_after (offset c) (length data).
Proof.
  induction data as [|x l IH]; intros c r H; [cbn in H; injection H as <-; split; reflexivity|]. cbn [chacha_t length stream_record offset_after] in *. cut H a0. cut H k. cbv zeta in *. cut H a1. apply bind_split in H. destruct H as (c' & Ec & -> & H).
  apply bind_split in H. destruct H as (r' & Er & -> & H). destruct (IH c' r' Er) as [I1 I2]. rewrite I1. cbn [ret emit snd] in H. injection H as <-. cbn [fst].
  assert (Q : offset c' = next_offset (offset c)) by (unfold next_offset; destruct (w8 (offset c + 1) =? 64); cbn [GenerateBlock_t ret emit snd] in Ec; injection Ec as <-; reflexivity).
  rewrite I2, Q. split; [|reflexivity]. cbn [ret emit fst]. rewrite app_nil_r. destruct (w8 (offset c + 1) =? 64); reflexivity.
Qed.
Lemma streams_recorded : forall ps c r, snd (chachas_t c ps) = Ok r -> fst (chachas_t c ps) = streams_record (offset c) (map (@length Z) ps).
Proof.
  induction ps as [|p ps IH]; intros c r H; [reflexivity|]. cbn [chachas_t map streams_record] in *. apply bind_split in H. destruct H as (r1 & E1 & -> & H). destruct (stream_recorded _ _ _ E1) as [I1 I2]. rewrite I1. apply bind_split in H. destruct H as (r2 & E2 & -> & H).
  rewrite (IH _ _ E2), I2. cbn [ret emit fst]. rewrite app_nil_r. reflexivity.
Qed.
(** Everything that is recorded while messages are encrypted (or decrypted, which is the same code)
    in pieces is a function of the lengths of the pieces. *)
Theorem C114_chacha20 : exists record : list nat -> list event, forall key nonce pieces, bytes key -> bytes nonce -> zlen key = 32 -> zlen nonce = 12 ->
  fst (chacha_session_t key nonce pieces) = record (map (@length Z) pieces) /\ snd (chacha_session_t key nonce pieces) = (do c <- ChaCha20 key nonce; do r <- Encrypts c pieces; Ok (snd r)).
Proof.
  exists (fun lens => [Choose 11 false; Choose 12 false] ++ block_record ++ streams_record 0 lens). intros key nonce ps HK HN LK LN.
  assert (V : snd (chacha_session_t key nonce ps) = (do c <- ChaCha20 key nonce; do r <- Encrypts c ps; Ok (snd r))).
  { unfold chacha_session_t. rewrite snd_tbind, ChaCha20_t_value. apply bind_ext. intros c. rewrite snd_tbind, chachas_t_value. reflexivity. }
  split; [|exact V]. rewrite new_ok in V by assumption. cbn [bind] in V. destruct (encrypts_ok key nonce HK HN LK LN ps 0 ltac:(lia)) as (outs & EO & _). rewrite EO in V. cbn [bind snd] in V.
  unfold chacha_session_t in *. apply bind_split in V. destruct V as (c & Ec & -> & V). rewrite ChaCha20_t_value, new_ok in Ec by assumption. injection Ec as <-. apply bind_split in V. destruct V as (r & Er & -> & V). rewrite (streams_recorded _ _ _ Er).
  unfold ChaCha20_t, tbind. rewrite LK, LN. change (negb (32 =? 32)) with false. change (negb (12 =? 12)) with false. cbn [emit snd fst app GenerateBlock_t ret]. rewrite app_nil_r. reflexivity.
Qed.
Print Assumptions C114_chacha20.

(** ** C114: AES-GCM with IVs of 12 bytes *)
Fixpoint run_t (rks : list (list Z)) (g : gcm) (cs : list call) : traced (list bool) :=
  match cs with
  | [] => ret []
  | Enc P A :: t => see r <- Encrypt_t rks g P A; see vs <- run_t rks (snd (fst r)) t; ret (true :: vs)
  | Dec C A T :: t => see r <- Decrypt_t rks g C A T; see vs <- run_t rks (snd (fst r)) t; ret (snd (fst (fst r)) :: vs)
  end.
(** An object is made and used. *)
Definition gcm_session_t (rks : list (list Z)) (iv : list Z) (cs : list call) : traced (list bool) := see g <- gcm_init_t rks iv; run_t rks g cs.
(** What may be known of a call. *)
Definition shape (c : call) : bool * Z * Z := match c with Enc P A => (true, zlen P, zlen A) | Dec C A _ => (false, zlen C, zlen A) end.
Fixpoint agreed (n : nat) : list event := match n with O => [Loop false] | S k => [Loop true; Choose 113 true] ++ agreed k end.
Lemma compare_same : forall a, fst (compare_t a a) = agreed (length a).
Proof. induction a as [|x a IH]; [reflexivity|]. cbn [compare_t length agreed]. unfold tbind. cbn [emit snd fst]. rewrite Z.eqb_refl, IH. reflexivity. Qed.
Definition session_record (nr : nat) (s : bool * Z * Z) : list event :=
  let '(enc, lt, la) := s in if enc then encrypt_record nr 12 lt la [0; 0; 0; 1] else decrypt_record nr 12 lt la [0; 0; 0; 1] ++ agreed 16.
Lemma spec_tag_length E j C A : cipher E -> P_GHM.block j -> length (spec_tag E j C A) = 16%nat.
Proof. intros HE Hj. unfold spec_tag, GCTR. rewrite gctr_length by assumption. apply be_bytes_length. Qed.
Lemma run_recorded rks : cipher (AesEncrypt rks) -> forall cs g vs, usable (AesEncrypt rks) g -> zlen (g_iv g) = 12 -> Forall call_ok cs -> snd (run_t rks g cs) = Ok vs -> Forall (eq true) vs ->
  fst (run_t rks g cs) = flat_map (session_record (length rks)) (map shape cs).
Proof.
  intros HE. induction cs as [|c cs IH]; intros g vs U L F H V; [reflexivity|]. inversion_clear F as [|? ? Hc Ht]. destruct Hc as (B1 & B2 & L1 & L2). destruct c as [P A|C A T]; cbn [call_text call_aad run_t map shape flat_map session_record] in *.
  - apply bind_split in H. destruct H as (r & Er & -> & H). rewrite encrypt_recorded by assumption. rewrite Encrypt_t_value in Er. pose proof (Encrypt_ok _ g P A HE U B1 B2 L1 L2) as E1. cbv zeta in E1. rewrite E1 in Er. injection Er as <-. cbn [fst snd] in *.
    apply bind_split in H. destruct H as (vs' & Ev & -> & H). cbn [ret emit fst snd] in *. injection H as <-. inversion_clear V. rewrite (IH (next g) vs' (next_usable _ g U) L Ht Ev) by assumption. rewrite app_nil_r, L. unfold last_bytes. rewrite L. reflexivity.
  - apply bind_split in H. destruct H as (r & Er & -> & H). rewrite decrypt_recorded by assumption. rewrite Decrypt_t_value in Er. pose proof (Decrypt_ok _ g C A T HE U B1 B2 L1 L2) as E1. cbv zeta in E1. rewrite E1 in Er. injection Er as <-. cbn [fst snd] in *.
    apply bind_split in H. destruct H as (vs' & Ev & -> & H). cbn [ret emit fst snd] in *. injection H as <-. inversion_clear V as [|? ? V1 V2]. symmetry in V1. apply list_eqb_eq in V1.
    rewrite (IH (next g) vs' (next_usable _ g U) L Ht Ev) by assumption. rewrite app_nil_r, L. unfold last_bytes. rewrite L. cbn [Z.eqb Pos.eqb]. f_equal. f_equal. rewrite <- V1.
    fold (ghash_input A C) in *. unfold spec_tag. fold (ghash_input A C). rewrite compare_same. f_equal. apply (spec_tag_length _ _ C A HE (mblock_block _ g U)).
Qed.
(** An object with a 12 byte IV is made and used for any calls, of which the decryptions find the
    tag valid: all that is recorded is a function of the number of rounds and the lengths. *)
Theorem C114_aes_gcm : exists record : nat -> list (bool * Z * Z) -> list event, forall key rks iv cs vs, aes_schedule key rks -> bytes iv -> zlen iv = 12 -> Forall call_ok cs ->
  snd (gcm_session_t rks iv cs) = Ok vs -> Forall (eq true) vs -> fst (gcm_session_t rks iv cs) = record (length rks) (map shape cs).
Proof.
  exists (fun nr shapes => init_record nr 12 ++ flat_map (session_record nr) shapes). intros key rks iv cs vs HS BI LI F H V. pose proof (blockfun_cipher _ (aes_blockfun _ _ HS)) as HE.
  unfold gcm_session_t in *. apply bind_split in H. destruct H as (g & Eg & -> & H). rewrite (init_recorded _ _ _ Eg), LI. f_equal. rewrite gcm_init_t_value in Eg.
  destruct (init_ok (AesEncrypt rks) iv HE ltac:(split; [exact BI | lia])) as (g' & Eg' & U & _). rewrite Eg in Eg'. injection Eg' as <-.
  assert (I : g_iv g = iv) by (unfold gcm_init in Eg; rewrite LI in Eg; change ((12 =? 8) || (12 <? 12)) with false in Eg; cbv iota zeta in Eg; injection Eg as <-; reflexivity).
  apply (run_recorded rks HE cs g vs U ltac:(rewrite I; exact LI) F H V).
Qed.
Print Assumptions C114_aes_gcm.
(** The results are those of the model of GCM; decryptions of what was sealed are valid (C29). *)
Theorem C114_same_result : forall rks iv g P A C T, snd (gcm_init_t rks iv) = gcm_init (AesEncrypt rks) iv /\ snd (Encrypt_t rks g P A) = Encrypt (AesEncrypt rks) g P A /\ snd (Decrypt_t rks g C A T) = Decrypt (AesEncrypt rks) g C A T.
Proof. intros. split; [apply gcm_init_t_value|]. split; [apply Encrypt_t_value | apply Decrypt_t_value]. Qed.

(** ** C115: AES-GCM with other IVs, and wrong tags *)
Fixpoint common (a b : list Z) : nat := match a, b with x :: a', y :: b' => if x =? y then S (common a' b') else O | _, _ => O end.
(** Two observers: the outcomes of the comparisons of gcm.h:113, and of the condition of gcm.h:28. *)
Fixpoint right_bytes (l : list event) : nat := match l with [] => O | Choose 113 true :: l' => S (right_bytes l') | _ :: l' => right_bytes l' end.
Fixpoint carries (l : list event) : list bool := match l with [] => [] | Choose 28 b :: l' => b :: carries l' | _ :: l' => carries l' end.
Definition sees (line : Z) (e : event) : bool := match e with Choose n _ => n =? line | _ => false end.
Lemma right_bytes_cons e l : right_bytes (e :: l) = ((match e with Choose n b => if ((n =? 113) && b)%Z then 1 else 0 | _ => 0 end) + right_bytes l)%nat.
Proof. destruct e as [x|n x|i]; try reflexivity. destruct n as [|p|p]; try reflexivity. destruct (Z.eqb_spec (Zpos p) 113) as [E|E]; [injection E as ->; destruct x; reflexivity|]. cbn [andb plus]. do 7 (destruct p as [p|p|]; try reflexivity). exfalso; apply E; reflexivity. Qed.
Lemma carries_cons e l : carries (e :: l) = (match e with Choose n b => if n =? 28 then [b] else [] | _ => [] end) ++ carries l.
Proof. destruct e as [x|n x|i]; try reflexivity. destruct n as [|p|p]; try reflexivity. destruct (Z.eqb_spec (Zpos p) 28) as [E|E]; [injection E as ->; reflexivity|]. do 5 (destruct p as [p|p|]; try reflexivity). exfalso; apply E; reflexivity. Qed.
Lemma right_bytes_app a b : right_bytes (a ++ b) = (right_bytes a + right_bytes b)%nat.
Proof. induction a as [|e a IH]; [reflexivity|]. cbn [app]. rewrite !right_bytes_cons, IH. lia. Qed.
Lemma carries_app a b : carries (a ++ b) = carries a ++ carries b.
Proof. induction a as [|e a IH]; [reflexivity|]. cbn [app]. rewrite !carries_cons, IH, app_assoc. reflexivity. Qed.
Lemma right_none l : existsb (sees 113) l = false -> right_bytes l = O.
Proof. induction l as [|e l IH]; [reflexivity|]. cbn [existsb]. rewrite right_bytes_cons. intros H. apply orb_false_iff in H. destruct H as [H1 H2]. rewrite IH by exact H2. destruct e; try reflexivity. cbn [sees] in H1. rewrite H1. reflexivity. Qed.
Lemma carries_none l : existsb (sees 28) l = false -> carries l = [].
Proof. induction l as [|e l IH]; [reflexivity|]. cbn [existsb]. rewrite carries_cons. intros H. apply orb_false_iff in H. destruct H as [H1 H2]. rewrite IH by exact H2. destruct e; try reflexivity. cbn [sees] in H1. rewrite H1. reflexivity. Qed.
Lemma passes_none line k : forall n i, existsb (sees line) (passes k n i) = false.
Proof. induction n as [|n IH]; intros i; [reflexivity|]. cbn [passes existsb sees]. rewrite existsb_app, IH, orb_false_r. clear IH. induction k as [|k IHk]; [reflexivity | exact IHk]. Qed.
Lemma aes_none line nr : existsb (sees line) (aes_record nr) = false.
Proof. unfold aes_record. cbn [existsb sees]. rewrite existsb_app, passes_none. reflexivity. Qed.
Lemma absorb_none line other len : other =? line = false -> existsb (sees line) (absorb_record other len) = false.
Proof.
  intros H. unfold absorb_record. rewrite !existsb_app. replace (existsb (sees line) (absorb_blocks_record _ _)) with false. 2:{ symmetry. generalize 0. induction (Z.to_nat (len / 16)) as [|k IH]; intros n; [reflexivity|]. cbn [absorb_blocks_record]. rewrite !existsb_app, IH. reflexivity. }
  cbn [existsb sees]. rewrite H. destruct (0 <? _); reflexivity.
Qed.
Lemma tag_none line lc la : 42 =? line = false -> 51 =? line = false -> existsb (sees line) (tag_record lc la) = false.
Proof. intros H1 H2. unfold tag_record. rewrite !existsb_app, !absorb_none by assumption. reflexivity. Qed.
Lemma inc_none t : existsb (sees 113) (inc_record t) = false.
Proof. destruct t as [|a [|b [|c [|d [|]]]]]; try reflexivity. cbn [inc_record]. destruct (negb _); [reflexivity|]. destruct (negb _); reflexivity. Qed.
Lemma ctr_none nr len : forall count n t, existsb (sees 113) (ctr_record nr len count n t) = false.
Proof. induction count as [|k IH]; intros n t; [reflexivity|]. cbn [ctr_record]. rewrite !existsb_app, inc_none, aes_none, passes_none, IH. reflexivity. Qed.
Lemma compare_right : forall a b, right_bytes (fst (compare_t a b)) = common a b.
Proof. induction a as [|x a IH]; intros [|y b]; try reflexivity. cbn [compare_t common]. unfold tbind. cbn [emit snd fst]. rewrite right_bytes_app. destruct (x =? y); [rewrite IH; reflexivity | reflexivity]. Qed.
(** Whatever the IV: how many bytes of a tag are right, from the first on, can be seen. *)
Theorem C115_tag_refuted : exists look : list event -> nat, forall key rks iv g C A T, aes_schedule key rks -> iv_ok iv -> gcm_init (AesEncrypt rks) iv = Ok g -> bytes C -> bytes A -> zlen C < 2 ^ 61 -> zlen A < 2 ^ 61 ->
  look (fst (Decrypt_t rks g C A T)) = common (spec_tag (AesEncrypt rks) (message_block (AesEncrypt rks) iv 0) C A) T.
Proof.
  exists right_bytes. intros key rks iv g C A T HS HI Eg BC BA LC LA. pose proof (blockfun_cipher _ (aes_blockfun _ _ HS)) as HE. destruct (init_ok _ iv HE HI) as (g' & Eg' & U & C0 & EJ). rewrite Eg in Eg'. injection Eg' as <-.
  rewrite decrypt_recorded by assumption. unfold decrypt_record. rewrite !right_bytes_app, compare_right. rewrite (right_none (aes_record _)) by apply aes_none. rewrite (right_none (ctr_record _ _ _ _ _)) by apply ctr_none. rewrite (right_none (tag_record _ _)) by (apply tag_none; reflexivity).
  unfold mblock. rewrite EJ, C0. reflexivity.
Qed.
Print Assumptions C115_tag_refuted.

Fixpoint outcomes (k : nat) (d : Z) : list bool := match k with O => [] | S k' => negb (w8 (d + 1) =? 0) :: outcomes k' (w8 (d + 1)) end.
Lemma inc_carries a b c d : carries (inc_record [a; b; c; d]) = [negb (w8 (d + 1) =? 0)].
Proof. cbn [inc_record]. destruct (negb (w8 (d + 1) =? 0)); [reflexivity|]. destruct (negb _); reflexivity. Qed.
Lemma inc_last a b c d : exists a' b' c', inc_tail [a; b; c; d] = [a'; b'; c'; w8 (d + 1)].
Proof. cbn [inc_tail]. do 3 (destruct (negb _); [do 3 eexists; reflexivity|]). do 3 eexists; reflexivity. Qed.
Lemma full_carries nr : forall count n a b c d, exists a' b' c' d', carries (full_record nr count n [a; b; c; d]) = outcomes count d /\ inc_tails count [a; b; c; d] = [a'; b'; c'; d'] /\ forall k, outcomes count d ++ outcomes k d' = outcomes (count + k) d.
Proof.
  induction count as [|k IH]; intros n a b c d; [do 4 eexists; split; [reflexivity|]; split; [reflexivity | intros; reflexivity]|].
  destruct (inc_last a b c d) as (a1 & b1 & c1 & E). destruct (IH (n + 1) a1 b1 c1 (w8 (d + 1))) as (a' & b' & c' & d' & I1 & I2 & I3). exists a', b', c', d'. cbn [full_record inc_tails outcomes]. rewrite E. split; [|split; [exact I2|]].
  - rewrite !carries_app, inc_carries, I1, (carries_none (aes_record nr)) by apply aes_none. reflexivity.
  - intros m. cbn [app plus outcomes]. rewrite I3. reflexivity.
Qed.
Lemma ctr_carries nr len : forall count n a b c d, carries (ctr_record nr len count n [a; b; c; d]) = outcomes count d.
Proof.
  induction count as [|k IH]; intros n a b c d; [reflexivity|]. destruct (inc_last a b c d) as (a1 & b1 & c1 & E). cbn [ctr_record outcomes]. rewrite E, !carries_app, inc_carries, IH, (carries_none (aes_record nr)), (carries_none (passes _ _ _)) by (apply aes_none || apply passes_none). reflexivity.
Qed.
Lemma encrypt_carries nr iv lp la a b c d : 0 <= lp -> carries (encrypt_record nr iv lp la [a; b; c; d]) = outcomes (Z.to_nat ((lp + 15) / 16)) d.
Proof.
  intros HL. unfold encrypt_record. cbv zeta. set (full := if negb (lp =? (lp + 15) / 16 * 16) then (lp + 15) / 16 - 1 else (lp + 15) / 16). pose proof (Z.div_mod (lp + 15) 16). pose proof (Z.mod_pos_bound (lp + 15) 16).
  assert (HF : 0 <= full <= (lp + 15) / 16) by (unfold full; destruct (negb _) eqn:E; lia). destruct (full_carries nr (Z.to_nat full) 0 a b c d) as (a' & b' & c' & d' & F1 & F2 & F3). rewrite F2, !carries_app, F1, ctr_carries, (carries_none (aes_record nr)), (carries_none (tag_record _ _)) by (apply aes_none || (apply tag_none; reflexivity)).
  cbn [carries app]. rewrite app_nil_r, F3. f_equal. lia.
Qed.
(** The position of the first carry. *)
Fixpoint first_carry (l : list bool) : Z := match l with [] => 0 | b :: l' => if b then 1 + first_carry l' else 0 end.
Lemma outcomes_carry : forall k d, byte d -> 256 - d <= Z.of_nat k -> first_carry (outcomes k d) = 255 - d.
Proof.
  induction k as [|k IH]; intros d B H; unfold byte in B; [lia|]. cbn [outcomes first_carry]. destruct (Z.eq_dec d 255) as [->|D]; [reflexivity|]. replace (w8 (d + 1)) with (d + 1) by (unfold w8; rewrite Z.mod_small; lia).
  destruct (Z.eqb_spec (d + 1) 0); [lia|]. cbn [negb]. rewrite IH; unfold byte; lia.
Qed.
Lemma ok_eq {A} (a b : A) : Ok a = Ok b -> a = b. Proof. intros H; injection H; trivial. Qed.
(** With an IV of another size, the counter starts from a secret value, the GHASH of the IV: its
    last byte shows in any message of 4081 bytes or more. *)
Theorem C115_counter_refuted : exists look : list event -> Z, forall key rks iv g P A, aes_schedule key rks -> iv_ok iv -> zlen iv <> 12 -> gcm_init (AesEncrypt rks) iv = Ok g ->
  bytes P -> bytes A -> 4081 <= zlen P < 2 ^ 61 -> zlen A < 2 ^ 61 -> look (fst (Encrypt_t rks g P A)) = nth 15 (J0 (be_val (AES key (repeat 0 16))) iv) 0.
Proof.
  exists (fun l => 255 - first_carry (carries l)). intros key rks iv g P A HS HI L12 Eg BP BA LP LA. pose proof (blockfun_cipher _ (aes_blockfun _ _ HS)) as HE. destruct (init_ok _ iv HE HI) as (g' & Eg' & U & C0 & EJ). rewrite Eg in Eg'. injection Eg' as <-.
  assert (Z0 : P_GHM.block (repeat 0 16)) by (split; [reflexivity | apply bytes_repeat; unfold byte; lia]). rewrite <- (proj1 (aes_ok key rks HS _ Z0)), <- EJ. rewrite encrypt_recorded by (assumption || lia).
  assert (L16 : zlen (g_iv g) = 16).
  { unfold gcm_init in Eg. destruct HI as [_ HL]. replace ((zlen iv =? 8) || (12 <? zlen iv)) with true in Eg by lia. destruct (ghash _ _ _) as [r| | |] eqn:Er in Eg; try discriminate Eg. cbn [bind] in Eg. injection Eg as <-. cbn [g_iv]. destruct U as (_ & [H|H] & _); [|exact H]. exfalso.
    cbn [g_iv] in H. unfold ghash in Er. destruct (absorb _ [] 0) as [c1| | |]; try discriminate Er. cbn [bind] in Er. destruct (absorb _ iv c1) as [c2| | |]; try discriminate Er. cbn [bind] in Er. cbv zeta in Er. apply ok_eq in Er. rewrite <- Er in H. unfold zlen in H. rewrite le_bytes_length in H. discriminate H. }
  destruct U as (_ & _ & B & _). unfold J, last_bytes. replace (zlen (g_iv g) =? 12) with false by lia. rewrite firstn_skipn. assert (LL : length (g_iv g) = 16%nat) by (unfold zlen in L16; lia). destruct (four (skipn 12 (g_iv g)) ltac:(rewrite skipn_length; lia)) as (a & b & c & d & E4).
  assert (N : nth 15 (g_iv g) 0 = d) by (rewrite <- (firstn_skipn 12 (g_iv g)), E4, app_nth2; rewrite firstn_length, LL; [reflexivity | lia]). assert (Bd : byte d) by (apply bytes_skipn with (n := 12%nat) in B; rewrite E4 in B; unfold bytes in B; rewrite Forall_forall in B; apply B; cbn; tauto).
  rewrite E4, N, encrypt_carries by lia. rewrite outcomes_carry; [lia | exact Bd|]. pose proof (Z.div_le_mono 4096 (zlen P + 15) 16 ltac:(lia) ltac:(lia)) as M. change (4096 / 16) with 256 in M. unfold byte in Bd. lia.
Qed.
Print Assumptions C115_counter_refuted.

(** ** Cases *)
Definition key_of (x : Z) : list (list Z) := match sched128 [] (repeat x 16) with Ok r => r | _ => [] end.
Lemma key_of_ok x : byte x -> sched128 [] (repeat x 16) = Ok (key_of x) -> aes_schedule (repeat x 16) (key_of x).
Proof. intros B H. apply (aes128 []); [reflexivity | apply bytes_repeat, B | exact H]. Qed.
(** Two keys, messages of the same lengths: the records are the same and the results are not. *)
Example C114_case : aes_schedule (repeat 7 16) (key_of 7) /\ aes_schedule (repeat 9 16) (key_of 9) /\
  Forall (eq true) (match snd (gcm_session_t (key_of 7) (repeat 1 12) [Enc [1; 2; 3] [4]; Enc [] []]) with Ok v => v | _ => [false] end) /\
  map shape [Enc [1; 2; 3] [4]; Enc [] []] = map shape [Enc [7; 7; 9] [0]; Enc [] []] /\
  fst (chacha_session_t (repeat 1 32) (repeat 2 12) [[1; 2]; []]) = fst (chacha_session_t (repeat 3 32) (repeat 4 12) [[7; 8]; []]) /\
  snd (chacha_session_t (repeat 1 32) (repeat 2 12) [[1; 2]; []]) <> snd (chacha_session_t (repeat 3 32) (repeat 4 12) [[7; 8]; []]).
Proof.
  split; [apply key_of_ok; [unfold byte; lia | vm_compute; reflexivity]|]. split; [apply key_of_ok; [unfold byte; lia | vm_compute; reflexivity]|]. split; [vm_compute; repeat constructor|]. split; [reflexivity|].
  split; [vm_compute; reflexivity | vm_compute; discriminate].
Qed.
(** The last byte of the first counter is another one under another key, and guesses of a tag of
    which none and one of the bytes are right are told apart. *)
Definition start_of (x : Z) : list Z := match gcm_init (AesEncrypt (key_of x)) (repeat 1 16) with Ok g => g_iv g | _ => [] end.
Lemma start_byte x : byte x -> sched128 [] (repeat x 16) = Ok (key_of x) -> zlen (start_of x) = 16 -> nth 15 (J0 (be_val (AES (repeat x 16) (repeat 0 16))) (repeat 1 16)) 0 = nth 15 (start_of x) 0.
Proof.
  intros B E L. pose proof (key_of_ok x B E) as HS. assert (HI : iv_ok (repeat 1 16)) by (split; [apply bytes_repeat; unfold byte; lia | right; change (zlen (repeat 1 16)) with 16; lia]).
  destruct (init_ok _ _ (blockfun_cipher _ (aes_blockfun _ _ HS)) HI) as (g & Eg & _ & _ & EJ). assert (Z0 : P_GHM.block (repeat 0 16)) by (split; [reflexivity | apply bytes_repeat; unfold byte; lia]).
  rewrite <- (proj1 (aes_ok _ _ HS _ Z0)), <- EJ. unfold start_of in *. rewrite Eg in *. unfold J, last_bytes. rewrite L. change (16 =? 12) with false. rewrite firstn_skipn. reflexivity.
Qed.
Example C115_case : iv_ok (repeat 1 16) /\ zlen (repeat 1 16) <> 12 /\ nth 15 (J0 (be_val (AES (repeat 7 16) (repeat 0 16))) (repeat 1 16)) 0 <> nth 15 (J0 (be_val (AES (repeat 9 16) (repeat 0 16))) (repeat 1 16)) 0 /\
  common [5; 6; 7] [5; 6; 8] = 2%nat /\ common [5; 6; 7] [4; 6; 7] = 0%nat.
Proof.
  split; [split; [apply bytes_repeat; unfold byte; lia | right; change (zlen (repeat 1 16)) with 16; lia]|]. split; [change (zlen (repeat 1 16)) with 16; lia|]. split; [|split; reflexivity].
  rewrite !start_byte by (unfold byte; lia || (vm_compute; reflexivity)). vm_compute. discriminate.
Qed.
