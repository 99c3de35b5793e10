(** Properties C26 - C33: GHASH and GCM. *)
From Verif Require Import Base BaseP M_HKDF M_AES S_AES P_AES M_GCM S_GCM P_Ghash P_GHM P_GCM.
Open Scope Z_scope.

(** ** C26: load, mirror, multiply, mirror, store is the block product of SP 800-38D, 6.3. *)
Theorem C26_multiply : forall X Y, length X = 16%nat -> bytes X -> length Y = 16%nat -> bytes Y ->
  le_bytes 16 (reflect (galoisMultiply (reflect (le_val X)) (reflect (le_val Y)))) = be_bytes 16 (block_mul (be_val X) (be_val Y)).
Proof. intros X Y LX BX LY BY; apply mirror_store, galois_mirror; apply mirror_block; split; assumption. Qed.
Print Assumptions C26_multiply.
(** Test case 2 of the GCM specification: X1 * H. *)
Example C26_case : le_bytes 16 (reflect (galoisMultiply
    (reflect (le_val [0x03; 0x88; 0xda; 0xce; 0x60; 0xb6; 0xa3; 0x92; 0xf3; 0x28; 0xc2; 0xb9; 0x71; 0xb2; 0xfe; 0x78]))
    (reflect (le_val [0x66; 0xe9; 0x4b; 0xd4; 0xef; 0x8a; 0x2c; 0x3b; 0x88; 0x4c; 0xfa; 0x59; 0xca; 0x34; 0x2b; 0x2e])))) =
  [0x5e; 0x2e; 0xc7; 0x46; 0x91; 0x70; 0x62; 0x88; 0x2c; 0x85; 0xb0; 0x68; 0x53; 0x53; 0xde; 0xb7].
Proof. vm_compute; reflexivity. Qed.

(** ** C27 *)
Theorem C27_ghash : forall Hk C A, length Hk = 16%nat -> bytes Hk -> bytes C -> bytes A -> zlen C < 2 ^ 61 -> zlen A < 2 ^ 61 ->
  ghash (reflect (le_val Hk)) C A =
  Ok (be_bytes 16 (GHASH (be_val Hk) (A ++ repeat 0 (Z.to_nat ((- zlen A) mod 16)) ++ C ++ repeat 0 (Z.to_nat ((- zlen C) mod 16)) ++
                                      be_bytes 8 (8 * zlen A) ++ be_bytes 8 (8 * zlen C)))).
Proof.
  intros Hk C A LH BH BC BA LC LA; destruct (ghash_ok _ _ C A (mirror_block Hk (conj LH BH)) BC BA LC LA) as [E _]; rewrite E; reflexivity.
Qed.
Print Assumptions C27_ghash.
Example C27_case : ghash (reflect (le_val [0x66; 0xe9; 0x4b; 0xd4; 0xef; 0x8a; 0x2c; 0x3b; 0x88; 0x4c; 0xfa; 0x59; 0xca; 0x34; 0x2b; 0x2e]))
    [0x03; 0x88; 0xda; 0xce; 0x60; 0xb6; 0xa3; 0x92; 0xf3; 0x28; 0xc2; 0xb9; 0x71; 0xb2; 0xfe; 0x78] [] =
  Ok [0xf3; 0x8c; 0xbb; 0x1a; 0xd6; 0x92; 0x23; 0xdc; 0xc3; 0x45; 0x7a; 0xe5; 0xb6; 0xb0; 0xf8; 0x85].
Proof. vm_compute; reflexivity. Qed.

(** ** C28 *)
(** IV sizes the class accepts. *)
Definition iv_ok (iv : list Z) : Prop := bytes iv /\ (zlen iv = 8 \/ 12 <= zlen iv < 2 ^ 61).
(** A block cipher: 16 bytes to 16 bytes. *)
Definition blockfun (E : list Z -> list Z) : Prop := forall b, length b = 16%nat -> bytes b -> length (E b) = 16%nat /\ bytes (E b).
Lemma blockfun_cipher E : blockfun E -> cipher E.
Proof. intros H b [L B]; apply H; assumption. Qed.
Lemma pad_whole b : length b = 16%nat -> pad16 b = [].
Proof. intros L; unfold pad16, zlen; rewrite L; reflexivity. Qed.
Lemma init_ok E iv : cipher E -> iv_ok iv -> exists g, gcm_init E iv = Ok g /\ usable E g /\ g_count g = 0 /\
  J (g_iv g) = J0 (be_val (E (repeat 0 16))) iv.
Proof.
  intros HE [B Hl]; unfold gcm_init.
  assert (Z0 : block (repeat 0 16)) by (split; [reflexivity | apply bytes_repeat; unfold byte; lia]).
  unfold J0; destruct (Z.eqb_spec (zlen iv) 12) as [E12|D12].
  - rewrite E12; change ((12 =? 8) || (12 <? 12)) with false; eexists; split; [reflexivity|]; cbn [g_iv g_count]; split; [|split; [reflexivity|]].
    + unfold usable; cbn [g_h g_iv g_count]; repeat split; try assumption; tauto || lia.
    + unfold J, last_bytes; rewrite E12; cbn [Z.eqb Pos.eqb]; rewrite firstn_all2 by (unfold zlen in E12; lia); reflexivity.
  - replace ((zlen iv =? 8) || (12 <? zlen iv)) with true by lia.
    destruct (ghash_ok _ _ iv [] (mirror_block _ (HE _ Z0)) B ltac:(constructor) ltac:(lia) ltac:(cbn; lia)) as [Eg Rg]; rewrite Eg; cbn [bind].
    eexists; split; [reflexivity|]; cbn [g_iv g_count]; pose proof (store_bytes _ Rg) as [LS BS]; split; [|split; [reflexivity|]].
    + unfold usable; cbn [g_h g_iv g_count]; repeat split; try lia; [right; unfold zlen; rewrite LS; reflexivity | exact BS].
    + unfold J, last_bytes; replace (zlen _ =? 12) with false by (unfold zlen; rewrite LS; reflexivity); rewrite firstn_skipn; reflexivity.
Qed.
Lemma with_counter_0 j : block j -> with_counter j 0 = j.
Proof.
  intros [L B]; unfold with_counter; change (be_bytes 8 0) with (repeat 0 8).
  assert (X : forall l, length l = 8%nat -> xorl l (repeat 0 8) = l).
  { intros l Hl; do 8 (destruct l as [|? l]; [discriminate Hl|]); destruct l; [|discriminate Hl]; cbn -[Z.lxor]; rewrite !Z.lxor_0_r; reflexivity. }
  rewrite X by (rewrite firstn_length, skipn_length; lia).
  do 16 (destruct j as [|? j]; [discriminate L|]); reflexivity.
Qed.
Lemma first_mblock E g : usable E g -> g_count g = 0 -> mblock g = J (g_iv g).
Proof. intros (_ & Hl & B & _) E0; unfold mblock; rewrite E0; apply with_counter_0, J_block; assumption. Qed.
Theorem C28_first_message : forall E iv P A, blockfun E -> iv_ok iv -> bytes P -> bytes A -> zlen P < 2 ^ 61 -> zlen A < 2 ^ 61 ->
  exists g g' used C T, gcm_init E iv = Ok g /\ Encrypt E g P A = Ok (C, T, g', used) /\ (C, T) = GCM_AE E iv P A.
Proof.
  intros E iv P A HE HI BP BA LP LA; apply blockfun_cipher in HE; destruct (init_ok E iv HE HI) as (g & Eg & U & C0 & EJ).
  exists g; pose proof (Encrypt_ok E g P A HE U BP BA LP LA) as En; cbv zeta in En; rewrite (first_mblock E g U C0), EJ in En.
  do 4 eexists; split; [exact Eg|]; split; [exact En | reflexivity].
Qed.
Print Assumptions C28_first_message.
(** With AES: the cipher of the standard and the round keys of the library agree. *)
Inductive aes_schedule : list Z -> list (list Z) -> Prop :=
| aes128 garbage key rks : length key = 16%nat -> bytes key -> sched128 garbage key = Ok rks -> aes_schedule key rks
| aes256 key rks : length key = 32%nat -> bytes key -> sched256 key = Ok rks -> aes_schedule key rks.
Definition AES (key : list Z) (b : list Z) : list Z := Cipher (length key / 4) key b.
Lemma aes_ok key rks : aes_schedule key rks -> forall b, block b -> AesEncrypt rks b = AES key b /\ block (AES key b).
Proof.
  enough (Q : aes_schedule key rks -> Forall P_AES.block rks /\ forall b, block b -> AesEncrypt rks b = AES key b).
  { intros S0 b Bb; destruct (Q S0) as [F Q']; rewrite <- (Q' b Bb) at 2; split; [apply Q'; exact Bb|].
    apply AesDecrypt_ok in Bb || idtac; destruct (AesDecrypt_ok rks b F Bb) as [_ R1]; exact R1. }
  intros [garbage k r L B S0|k r L B S0]; unfold AES; rewrite L.
  - destruct (sched128_ok garbage k L B) as (r' & S1 & L1 & F & W); rewrite S0 in S1; injection S1 as <-; split; [exact F|].
    intros b Bb; change (16 / 4)%nat with 4%nat; unfold Cipher; apply (AesEncrypt_ok r (KeyExpansion 4 10 k) b 10 F Bb L1 ltac:(lia) W).
  - destruct (sched256_ok k L B) as (r' & S1 & L1 & F & W); rewrite S0 in S1; injection S1 as <-; split; [exact F|].
    intros b Bb; change (32 / 4)%nat with 8%nat; unfold Cipher; apply (AesEncrypt_ok r (KeyExpansion 8 14 k) b 14 F Bb L1 ltac:(lia) W).
Qed.
Lemma aes_blockfun key rks : aes_schedule key rks -> blockfun (AesEncrypt rks).
Proof. intros S0 b L B; destruct (aes_ok key rks S0 b (conj L B)) as [-> Bb]; exact Bb. Qed.
Lemma gctr_ext E F : (forall b, block b -> E b = F b) -> forall ps C, block C -> gctr_blocks E C ps = gctr_blocks F C ps.
Proof. intros H; induction ps as [|p t IH]; intros C B; cbn [gctr_blocks]; [reflexivity|]; rewrite H, IH by (assumption || apply inc32_block; assumption); reflexivity. Qed.
Theorem C28_aes_gcm : forall key rks iv P A, aes_schedule key rks -> iv_ok iv -> bytes P -> bytes A -> zlen P < 2 ^ 61 -> zlen A < 2 ^ 61 ->
  exists g g' used C T, gcm_init (AesEncrypt rks) iv = Ok g /\ Encrypt (AesEncrypt rks) g P A = Ok (C, T, g', used) /\ (C, T) = GCM_AE (AES key) iv P A.
Proof.
  intros key rks iv P A S0 HI BP BA LP LA; pose proof (aes_blockfun key rks S0) as HE.
  destruct (C28_first_message _ iv P A HE HI BP BA LP LA) as (g & g' & used & C & T & E1 & E2 & E3).
  exists g, g', used, C, T; split; [exact E1|]; split; [exact E2|]; rewrite E3.
  assert (Z0 : block (repeat 0 16)) by (split; [reflexivity | apply bytes_repeat; unfold byte; lia]).
  assert (X : forall b, block b -> AesEncrypt rks b = AES key b) by (intros b Bb; apply (aes_ok key rks S0 b Bb)).
  assert (BJ : block (J0 (be_val (AES key (repeat 0 16))) iv)).
  { destruct (init_ok _ iv (blockfun_cipher _ HE) HI) as (g0 & _ & U & _ & EJ); rewrite <- (X _ Z0), <- EJ; destruct U as (_ & Hl & B & _); apply J_block; assumption. }
  unfold GCM_AE, seal_from, GCTR; rewrite (X _ Z0); rewrite !(gctr_ext _ _ X) by (try apply inc32_block; exact BJ); reflexivity.
Qed.
Print Assumptions C28_aes_gcm.
(** Test case 2 of the GCM specification (AES-128, zero key). *)
Example C28_case : (do rks <- sched128 [] (repeat 0 16); do g <- gcm_init (AesEncrypt rks) (repeat 0 12);
    do (C, T, _, _) <- Encrypt (AesEncrypt rks) g (repeat 0 16) []; Ok (C, T)) =
  Ok ([0x03; 0x88; 0xda; 0xce; 0x60; 0xb6; 0xa3; 0x92; 0xf3; 0x28; 0xc2; 0xb9; 0x71; 0xb2; 0xfe; 0x78],
      [0xab; 0x6e; 0x47; 0xd4; 0x2c; 0xec; 0x13; 0xbd; 0xf5; 0x3a; 0x67; 0xb2; 0x12; 0x57; 0xbd; 0xdf]).
Proof. vm_compute; reflexivity. Qed.

(** ** C29: a sender and a receiver with the same key and IV. *)
Definition message := (list Z * list Z)%type.
Definition message_ok (m : message) : Prop := bytes (fst m) /\ bytes (snd m) /\ zlen (fst m) < 2 ^ 61 /\ zlen (snd m) < 2 ^ 61.
Fixpoint send_all (E : list Z -> list Z) (g : gcm) (ms : list message) : res (list (list Z * list Z)) :=
  match ms with
  | [] => Ok []
  | (P, A) :: t => do (C, T, g', _) <- Encrypt E g P A; do r <- send_all E g' t; Ok ((C, T) :: r)
  end.
Fixpoint receive_all (E : list Z -> list Z) (g : gcm) (ms : list message) (wire : list (list Z * list Z)) : res (list (list Z * bool)) :=
  match ms, wire with
  | (_, A) :: t, (C, T) :: w => do (P, ok, g', _) <- Decrypt E g C A T; do r <- receive_all E g' t w; Ok ((P, ok) :: r)
  | _, _ => Ok []
  end.
Lemma gctr_twice E C X : cipher E -> block C -> GCTR E C (GCTR E C X) = X.
Proof.
  intros HE; unfold GCTR; remember (length X) as n eqn:En; revert X En C; induction n as [n IH] using lt_wf_ind; intros X En C Bc.
  destruct (HE _ Bc) as [LE _]; destruct (le_lt_dec 16 (length X)) as [G|G].
  - destruct (split_at 16 X G) as (p & r & -> & Lp); rewrite app_length in En.
    rewrite (gctr_app E p C r Lp), gctr_app by (rewrite xorl_length, Lp, LE; reflexivity).
    rewrite xorl_cancel by lia; f_equal; apply (IH (length r)); [lia | reflexivity | apply inc32_block; exact Bc].
  - destruct X as [|x t]; [reflexivity|]; set (X := x :: t) in *.
    assert (NX : X <> []) by (unfold X; congruence); clearbody X; rewrite (chunks_step 16 X), firstn_all2, (@skipn_all2 _ 16 X) by (exact NX || lia); rewrite chunks_nil; cbn [gctr_blocks]; rewrite app_nil_r.
    assert (LX : length (xorl X (E C)) = length X) by (rewrite xorl_length; lia).
    rewrite chunks_step, firstn_all2, skipn_all2 by first [lia | intros H0; rewrite H0 in LX; destruct X; [congruence | discriminate LX]]; rewrite chunks_nil; cbn [gctr_blocks]; rewrite app_nil_r.
    apply xorl_cancel; lia.
Qed.
Lemma round_trip E g P A : cipher E -> usable E g -> message_ok (P, A) -> exists C T used used', 
  Encrypt E g P A = Ok (C, T, next g, used) /\ Decrypt E g C A T = Ok (P, true, next g, used') /\ length C = length P.
Proof.
  intros HE U (BP & BA & LP & LA); cbn [fst snd] in *.
  pose proof (mblock_block E g U) as Bc; pose proof (inc32_block _ Bc) as Bi.
  pose proof (Encrypt_ok E g P A HE U BP BA LP LA) as E1; cbv zeta in E1; set (C := GCTR E (inc32 (mblock g)) P) in *.
  assert (LC : zlen C = zlen P) by (unfold zlen, C, GCTR; rewrite gctr_length; [reflexivity | exact HE | exact Bi]).
  assert (BC : bytes C) by (apply gctr_bytes; assumption).
  set (T := GCTR E (mblock g) _) in E1.
  pose proof (Decrypt_ok E g C A T HE U BC BA ltac:(lia) LA) as E2; cbv zeta in E2; fold T in E2; rewrite list_eqb_refl in E2.
  unfold C in E2 at 2; rewrite (gctr_twice E _ P HE Bi) in E2; exists C, T; do 2 eexists; split; [exact E1|]; split; [exact E2 | unfold zlen in LC; lia].
Qed.
Lemma lockstep E : cipher E -> forall ms g, usable E g -> Forall message_ok ms ->
  exists wire, send_all E g ms = Ok wire /\ Forall2 (fun m w => length (fst w) = length (fst m)) ms wire /\ receive_all E g ms wire = Ok (map (fun m => (fst m, true)) ms).
Proof.
  intros HE; induction ms as [|[P A] t IH]; intros g U F; [exists []; repeat split; constructor|].
  inversion_clear F as [|? ? Hm Ht]; destruct (round_trip E g P A HE U Hm) as (C & T & u & u' & E1 & E2 & LC).
  destruct (IH (next g) (next_usable E g U) Ht) as (w & W1 & W2 & W3); exists ((C, T) :: w); cbn [send_all receive_all map fst].
  rewrite E1; cbn [bind]; rewrite W1; cbn [bind]; split; [reflexivity|]; split; [constructor; [exact LC | exact W2]|].
  rewrite E2; cbn [bind]; rewrite W3; reflexivity.
Qed.
Theorem C29_lockstep : forall E iv ms, blockfun E -> iv_ok iv -> Forall message_ok ms ->
  exists g wire, gcm_init E iv = Ok g /\ send_all E g ms = Ok wire /\
    Forall2 (fun m w => length (fst w) = length (fst m)) ms wire /\
    receive_all E g ms wire = Ok (map (fun m => (fst m, true)) ms).
Proof.
  intros E iv ms HE HI F; apply blockfun_cipher in HE; destruct (init_ok E iv HE HI) as (g & Eg & U & _).
  destruct (lockstep E HE ms g U F) as (w & W); exists g, w; split; [exact Eg | exact W].
Qed.
Print Assumptions C29_lockstep.
Example C29_case : blockfun (fun b => b) /\ iv_ok (repeat 7 8) /\ Forall message_ok [([1; 2; 3], [4]); ([], []); (repeat 5 40, [6; 7])].
Proof.
  split; [intros b L B; split; assumption|]; split; [split; [apply bytesb_iff; reflexivity | left; reflexivity]|].
  repeat constructor; cbn; lia || (unfold byte; lia).
Qed.

(** ** C30 *)
(** The tag of SP 800-38D for a pre-counter block, ciphertext and associated data. *)
Definition spec_tag (E : list Z -> list Z) (j C A : list Z) : list Z :=
  GCTR E j (be_bytes 16 (GHASH (be_val (E (repeat 0 16))) (A ++ pad16 A ++ C ++ pad16 C ++ lengths A C))).
(** The pre-counter block of message number [m]: the IV's, with m xored onto bytes 4 to 11. *)
Definition message_block (E : list Z -> list Z) (iv : list Z) (m : Z) : list Z :=
  let j := J0 (be_val (E (repeat 0 16))) iv in
  firstn 4 j ++ xorl (firstn 8 (skipn 4 j)) (be_bytes 8 m) ++ skipn 12 j.
(** Calls on one object. *)
Inductive call := Enc (P A : list Z) | Dec (C A T : list Z).
Definition call_text (c : call) : list Z := match c with Enc P _ => P | Dec C _ _ => C end.
Definition call_aad (c : call) : list Z := match c with Enc _ A => A | Dec _ A _ => A end.
Definition call_ok (c : call) : Prop := bytes (call_text c) /\ bytes (call_aad c) /\ zlen (call_text c) < 2 ^ 61 /\ zlen (call_aad c) < 2 ^ 61.
Fixpoint run_calls (E : list Z -> list Z) (g : gcm) (cs : list call) : res (gcm * list (list (list Z))) :=
  match cs with
  | [] => Ok (g, [])
  | Enc P A :: t => do (_, _, g', u) <- Encrypt E g P A; do (g'', us) <- run_calls E g' t; Ok (g'', u :: us)
  | Dec C A T :: t => do (_, _, g', u) <- Decrypt E g C A T; do (g'', us) <- run_calls E g' t; Ok (g'', u :: us)
  end.
Fixpoint nexts (n : nat) (g : gcm) : gcm := match n with O => g | S k => nexts k (next g) end.
Lemma run_ok E : cipher E -> forall cs g, usable E g -> Forall call_ok cs ->
  run_calls E g cs = Ok (nexts (length cs) g, map (fun k => let c := nth k cs (Enc [] []) in let b := mblock (nexts k g) in b :: counters (nblocks (call_text c)) b) (seq 0 (length cs))).
Proof.
  intros HE; induction cs as [|c t IH]; intros g U F; [reflexivity|]; inversion_clear F as [|? ? Hc Ht]; destruct Hc as (B1 & B2 & L1 & L2).
  assert (Q : map (fun k => let c := nth k t (Enc [] []) in let b := mblock (nexts k (next g)) in b :: counters (nblocks (call_text c)) b) (seq 0 (length t)) =
              map (fun k => let c := nth k (c :: t) (Enc [] []) in let b := mblock (nexts k g) in b :: counters (nblocks (call_text c)) b) (seq 1 (length t))).
  { rewrite <- seq_shift, map_map; reflexivity. }
  destruct c as [P A|C A T]; cbn [call_text call_aad] in *; cbn [run_calls length seq map].
  - pose proof (Encrypt_ok E g P A HE U B1 B2 L1 L2) as E1; cbv zeta in E1; rewrite E1; cbn [bind].
    rewrite (IH (next g) (next_usable E g U) Ht), Q; reflexivity.
  - pose proof (Decrypt_ok E g C A T HE U B1 B2 L1 L2) as E1; cbv zeta in E1; rewrite E1; cbn [bind].
    rewrite (IH (next g) (next_usable E g U) Ht), Q; reflexivity.
Qed.
Lemma nexts_ok E n : forall g, usable E g -> usable E (nexts n g) /\ g_iv (nexts n g) = g_iv g /\ g_count (nexts n g) = w64 (g_count g + Z.of_nat n).
Proof.
  induction n as [|n IH]; intros g U; cbn [nexts].
  - split; [exact U|]; split; [reflexivity|]; rewrite Z.add_0_r, w64_small by apply U; reflexivity.
  - destruct (IH (next g) (next_usable E g U)) as (U2 & I2 & C2); split; [exact U2|]; split; [exact I2|]; rewrite C2; cbn [next g_count].
    unfold w64; rewrite Z.add_mod_idemp_l by lia; f_equal; lia.
Qed.
(** After any calls on a fresh object, the next Decrypt reports valid exactly for the tag of the
    message number; the text returned is the counter mode decryption in any case. *)
Theorem C30_exact_tag : forall E iv cs C A T, blockfun E -> iv_ok iv -> Forall call_ok cs -> bytes C -> bytes A -> zlen C < 2 ^ 61 -> zlen A < 2 ^ 61 ->
  exists g g' us P valid g'' u, gcm_init E iv = Ok g /\ run_calls E g cs = Ok (g', us) /\ Decrypt E g' C A T = Ok (P, valid, g'', u) /\
    let j := message_block E iv (Z.of_nat (length cs) mod 2 ^ 64) in
    P = GCTR E (inc32 j) C /\ (valid = true <-> T = spec_tag E j C A).
Proof.
  intros E iv cs C A T HE HI F BC BA LC LA; apply blockfun_cipher in HE; destruct (init_ok E iv HE HI) as (g & Eg & U & C0 & EJ).
  pose proof (run_ok E HE cs g U F) as Rn; destruct (nexts_ok E (length cs) g U) as (U2 & I2 & C2); set (g' := nexts (length cs) g) in *.
  pose proof (Decrypt_ok E g' C A T HE U2 BC BA LC LA) as D; cbv zeta in D.
  do 7 eexists; split; [exact Eg|]; split; [exact Rn|]; split; [exact D|]; cbv zeta.
  assert (M : mblock g' = message_block E iv (Z.of_nat (length cs) mod 2 ^ 64)).
  { unfold mblock, message_block; rewrite I2, EJ, C2, C0; reflexivity. }
  rewrite M; split; [reflexivity|]; rewrite list_eqb_eq; unfold spec_tag, ghash_input; split; intros H0; symmetry; exact H0.
Qed.
Print Assumptions C30_exact_tag.
(** In particular the tag of Encrypt is accepted and every other one is not. *)
Theorem C30_other_tags : forall E iv cs P A, blockfun E -> iv_ok iv -> Forall call_ok cs -> bytes P -> bytes A -> zlen P < 2 ^ 61 -> zlen A < 2 ^ 61 ->
  exists g g' us C T g'' u, gcm_init E iv = Ok g /\ run_calls E g cs = Ok (g', us) /\ Encrypt E g' P A = Ok (C, T, g'', u) /\
    forall T', exists P' g3 u', Decrypt E g' C A T' = Ok (P', list_eqb T' T, g3, u').
Proof.
  intros E iv cs P A HE HI F BP BA LP LA; apply blockfun_cipher in HE; destruct (init_ok E iv HE HI) as (g & Eg & U & C0 & EJ).
  pose proof (run_ok E HE cs g U F) as Rn; destruct (nexts_ok E (length cs) g U) as (U2 & I2 & C2); set (g' := nexts (length cs) g) in *.
  pose proof (mblock_block E g' U2) as Bc; pose proof (inc32_block _ Bc) as Bi.
  pose proof (Encrypt_ok E g' P A HE U2 BP BA LP LA) as E1; cbv zeta in E1; set (C := GCTR E (inc32 (mblock g')) P) in *.
  assert (LC : zlen C = zlen P) by (unfold zlen, C, GCTR; rewrite gctr_length; [reflexivity | exact HE | exact Bi]).
  assert (BC : bytes C) by (apply gctr_bytes; assumption).
  do 7 eexists; split; [exact Eg|]; split; [exact Rn|]; split; [exact E1|]; intros T'.
  pose proof (Decrypt_ok E g' C A T' HE U2 BC BA ltac:(lia) LA) as D; cbv zeta in D; rewrite D; do 3 eexists; do 4 f_equal.
  apply eq_true_iff_eq; rewrite !list_eqb_eq; split; intros H0; symmetry; exact H0.
Qed.
Print Assumptions C30_other_tags.
Example C30_case : blockfun (AesEncrypt []) /\ iv_ok (repeat 7 12) /\ Forall call_ok [Enc [1; 2; 3] [4]; Dec [] [] []; Dec (repeat 5 40) [6; 7] [8]].
Proof.
  split; [intros b L B; split; assumption|]; split; [split; [apply bytesb_iff; reflexivity | right; cbn; lia]|].
  repeat constructor; cbn; lia || (unfold byte; lia).
Qed.

(** ** C31 is false: the plaintext is returned with valid = false. *)
Theorem C31_released : forall E iv cs P A, blockfun E -> iv_ok iv -> Forall call_ok cs -> bytes P -> bytes A -> zlen P < 2 ^ 61 -> zlen A < 2 ^ 61 ->
  exists g g' us C T g'' u, gcm_init E iv = Ok g /\ run_calls E g cs = Ok (g', us) /\ Encrypt E g' P A = Ok (C, T, g'', u) /\
    forall T', T' <> T -> exists g3 u', Decrypt E g' C A T' = Ok (P, false, g3, u').
Proof.
  intros E iv cs P A HE HI F BP BA LP LA.
  destruct (C30_other_tags E iv cs P A HE HI F BP BA LP LA) as (g & g' & us & C & T & g'' & u & E1 & E2 & E3 & Q).
  exists g, g', us, C, T, g'', u; split; [exact E1|]; split; [exact E2|]; split; [exact E3|]; intros T' D.
  destruct (Q T') as (P' & g3 & u' & E4); apply blockfun_cipher in HE.
  destruct (init_ok E iv HE HI) as (g0 & Eg & U & _); rewrite E1 in Eg; injection Eg as <-.
  pose proof (run_ok E HE cs g U F) as Rn; rewrite E2 in Rn; injection Rn as -> _.
  destruct (nexts_ok E (length cs) g U) as (U2 & _ & _); set (gn := nexts (length cs) g) in *.
  destruct (round_trip E gn P A HE U2 ltac:(repeat split; assumption)) as (C2 & T2 & u2 & u3 & F1 & F2 & _).
  rewrite E3 in F1; injection F1 as <- <- _ _.
  assert (P' = P).
  { pose proof (mblock_block E gn U2) as Bc; pose proof (inc32_block _ Bc) as Bi.
    pose proof (Encrypt_ok E gn P A HE U2 BP BA LP LA) as K; cbv zeta in K; rewrite E3 in K; injection K as KC _ _ _.
    assert (LC : zlen C = zlen P) by (unfold zlen; rewrite KC; unfold GCTR; rewrite gctr_length; [reflexivity | exact HE | exact Bi]).
    assert (BC : bytes C) by (rewrite KC; apply gctr_bytes; assumption).
    pose proof (Decrypt_ok E gn C A T' HE U2 BC BA ltac:(lia) LA) as D1; cbv zeta in D1; rewrite E4 in D1.
    pose proof (Decrypt_ok E gn C A T HE U2 BC BA ltac:(lia) LA) as D2; cbv zeta in D2; rewrite F2 in D2.
    apply (f_equal (fun r => match r with Ok (p, _, _, _) => p | _ => [] end)) in D1, D2; cbv beta iota in D1, D2; rewrite D1, D2; reflexivity. }
  subst P'; exists g3, u'; rewrite E4; do 4 f_equal; destruct (list_eqb T' T) eqn:Q0; [apply list_eqb_eq in Q0; congruence | reflexivity].
Qed.
Print Assumptions C31_released.
(** Witness: AES-128, the tag of the first message with one bit changed. *)
Theorem C31_plaintext_refuted : exists key iv C A T P, P <> [] /\
  (do rks <- sched128 [] key; do g <- gcm_init (AesEncrypt rks) iv; do (p, valid, _, _) <- Decrypt (AesEncrypt rks) g C A T; Ok (p, valid)) = Ok (P, false) /\
  (do rks <- sched128 [] key; do g <- gcm_init (AesEncrypt rks) iv; do (c, _, _, _) <- Encrypt (AesEncrypt rks) g P A; Ok c) = Ok C.
Proof.
  exists (repeat 0 16), (repeat 0 12), [0x03; 0x88; 0xda; 0xce], [], (repeat 0 16), (repeat 0 4); split; [discriminate|]; split; vm_compute; reflexivity.
Qed.
Print Assumptions C31_plaintext_refuted.
