(** Properties C98 and C99: messages at the wrong place of a GCM stream. *)
From Verif Require Import Base BaseP M_AES P_AES Prop_AES M_GCM S_GCM P_GF2 P_GHM P_GCM P_Forge Prop_GCM Prop_GCM2 Prop_Forge.
Open Scope Z_scope.

(** Different blocks have different images. *)
Definition one_to_one (E : list Z -> list Z) : Prop := forall a b, length a = 16%nat -> bytes a -> length b = 16%nat -> bytes b -> E a = E b -> a = b.

Lemma mblock_differ E iv g (cs cs' : list call) : cipher E -> iv_ok iv -> gcm_init E iv = Ok g -> Z.of_nat (length cs) mod 2 ^ 64 <> Z.of_nat (length cs') mod 2 ^ 64 ->
  mblock (nexts (length cs) g) <> mblock (nexts (length cs') g).
Proof.
  intros HB HI Eg D Q; destruct (init_ok E iv HB HI) as (g0 & E0 & U & C0 & EJ); rewrite Eg in E0; injection E0 as <-.
  destruct (nexts_ok E (length cs) g U) as (_ & I1 & C1), (nexts_ok E (length cs') g U) as (_ & I2 & C2).
  unfold mblock in Q; rewrite I1, I2, C1, C2, C0, !Z.add_0_l in Q; apply D.
  apply (f_equal (firstn 12)), with_counter_inj in Q; [exact Q | | apply Z.mod_pos_bound; lia..].
  destruct U as (_ & Hl & B & _); apply J_block; assumption.
Qed.

(** ** C98: no message is accepted at two places *)
Theorem C98_one_place : forall E iv cs cs' g g1 us1 g2 us2 C A T, blockfun E -> one_to_one E -> iv_ok iv -> Forall call_ok cs -> Forall call_ok cs' ->
  bytes C -> bytes A -> zlen C < 2 ^ 61 -> zlen A < 2 ^ 61 -> Z.of_nat (length cs) mod 2 ^ 64 <> Z.of_nat (length cs') mod 2 ^ 64 ->
  gcm_init E iv = Ok g -> run_calls E g cs = Ok (g1, us1) -> run_calls E g cs' = Ok (g2, us2) ->
  accepts E g1 C A T -> ~ accepts E g2 C A T.
Proof.
  intros E iv cs cs' g g1 us1 g2 us2 C A T HB HO HI F1 F2 BC BA LC LA D Eg R1 R2 A1 A2.
  destruct (accepted_tag E iv cs C A T g g1 us1 HB HI F1 BC BA LC LA Eg R1 A1) as (_ & B1 & V1).
  destruct (accepted_tag E iv cs' C A T g g2 us2 HB HI F2 BC BA LC LA Eg R2 A2) as (_ & B2 & V2).
  pose proof HB as HC; apply blockfun_cipher in HC; pose proof (mblock_differ E iv g cs cs' HC HI Eg D) as ND.
  destruct (init_ok E iv HC HI) as (g0 & E0 & U & _); rewrite Eg in E0; injection E0 as <-.
  pose proof (run_ok E HC cs g U F1) as Q1; rewrite R1 in Q1; injection Q1 as -> _. pose proof (run_ok E HC cs' g U F2) as Q2; rewrite R2 in Q2; injection Q2 as -> _.
  apply ND; destruct (mblock_block E _ (proj1 (nexts_ok E (length cs) g U))) as [L1 M1], (mblock_block E _ (proj1 (nexts_ok E (length cs') g U))) as [L2 M2].
  apply HO; try assumption. rewrite V1 in V2; apply (f_equal (Z.lxor (GHASH (be_val (E (repeat 0 16))) (ghash_input A C)))) in V2.
  rewrite <- !Z.lxor_assoc, Z.lxor_nilpotent, !Z.lxor_0_l in V2. destruct B1 as [K1 K2], B2 as [K3 K4].
  rewrite <- (be_bytes_val _ K2), <- (be_bytes_val _ K4), K1, K3, V2; reflexivity.
Qed.
Print Assumptions C98_one_place.
(** In particular a replay: what was accepted once is refused for the next 2^64 - 1 messages. *)
Theorem C98_replay : forall E iv cs C A T between g g1 us1 g2 us2, blockfun E -> one_to_one E -> iv_ok iv -> Forall call_ok cs -> Forall call_ok between ->
  bytes C -> bytes A -> zlen C < 2 ^ 61 -> zlen A < 2 ^ 61 -> Z.of_nat (length between) < 2 ^ 64 - 1 ->
  gcm_init E iv = Ok g -> run_calls E g cs = Ok (g1, us1) -> accepts E g1 C A T ->
  run_calls E g (cs ++ Dec C A T :: between) = Ok (g2, us2) -> ~ accepts E g2 C A T.
Proof.
  intros E iv cs C A T bw g g1 us1 g2 us2 HB HO HI F1 F2 BC BA LC LA LB Eg R1 A1 R2.
  apply (C98_one_place E iv cs (cs ++ Dec C A T :: bw) g g1 us1 g2 us2 C A T); try assumption.
  - apply Forall_app; split; [exact F1|]; constructor; [repeat split; assumption | exact F2].
  - rewrite app_length; cbn [length]; rewrite Nat2Z.inj_add, Nat2Z.inj_succ; set (n := Z.of_nat (length cs)); set (m := Z.of_nat (length bw)) in *; intros Q.
    assert (X : (Z.succ m) mod 2 ^ 64 = 0) by (replace (Z.succ m) with ((n + Z.succ m) - n) by lia; rewrite Zminus_mod, <- Q, Z.sub_diag; reflexivity).
    rewrite Z.mod_small in X by lia; lia.
Qed.
Print Assumptions C98_replay.
(** AES under any key is such a cipher. *)
Lemma aes_cipher key rks : aes_schedule key rks -> blockfun (AesEncrypt rks) /\ one_to_one (AesEncrypt rks).
Proof.
  intros H; assert (P : permutation_of_blocks (AesEncrypt rks)).
  { destruct H as [garbage key rks L B E|key rks L B E]; [destruct (C25_permutation128 garbage key L B) as (r & E2 & Q) | destruct (C25_permutation256 key L B) as (r & E2 & Q)]; rewrite E in E2; injection E2 as <-; exact Q. }
  destruct P as (P1 & P2 & _); split; [intros b L B; apply P1; assumption | exact P2].
Qed.
Theorem C98_aes_replay : forall key rks iv cs C A T between g g1 us1 g2 us2, aes_schedule key rks -> iv_ok iv -> Forall call_ok cs -> Forall call_ok between ->
  bytes C -> bytes A -> zlen C < 2 ^ 61 -> zlen A < 2 ^ 61 -> Z.of_nat (length between) < 2 ^ 64 - 1 ->
  gcm_init (AesEncrypt rks) iv = Ok g -> run_calls (AesEncrypt rks) g cs = Ok (g1, us1) -> accepts (AesEncrypt rks) g1 C A T ->
  run_calls (AesEncrypt rks) g (cs ++ Dec C A T :: between) = Ok (g2, us2) -> ~ accepts (AesEncrypt rks) g2 C A T.
Proof. intros key rks iv cs C A T bw g g1 us1 g2 us2 H; destruct (aes_cipher key rks H); apply C98_replay; assumption. Qed.
Print Assumptions C98_aes_replay.

(** ** C99: a rejected message does not disturb the ones after it *)
(** It does: two objects that have processed different numbers of messages never agree. *)
Theorem C99_out_of_step : forall E iv cs cs' P A, blockfun E -> one_to_one E -> iv_ok iv -> Forall call_ok cs -> Forall call_ok cs' ->
  bytes P -> bytes A -> zlen P < 2 ^ 61 -> zlen A < 2 ^ 61 -> Z.of_nat (length cs) mod 2 ^ 64 <> Z.of_nat (length cs') mod 2 ^ 64 ->
  exists g g1 us1 g2 us2 C T g3 u3 P' g4 u4, gcm_init E iv = Ok g /\ run_calls E g cs = Ok (g1, us1) /\ run_calls E g cs' = Ok (g2, us2) /\
    Encrypt E g1 P A = Ok (C, T, g3, u3) /\ Decrypt E g2 C A T = Ok (P', false, g4, u4).
Proof.
  intros E iv cs cs' P A HB HO HI F1 F2 BP BA LP LA D.
  destruct (C30_other_tags E iv cs P A HB HI F1 BP BA LP LA) as (g & g1 & us1 & C & T & g3 & u3 & Eg & R1 & EN & OT).
  pose proof HB as HC; apply blockfun_cipher in HC; destruct (init_ok E iv HC HI) as (g0 & E0 & U & _); rewrite Eg in E0; injection E0 as <-.
  pose proof (run_ok E HC cs' g U F2) as R2; pose proof (run_ok E HC cs g U F1) as Q1; rewrite R1 in Q1; injection Q1 as G1 _.
  destruct (nexts_ok E (length cs) g U) as (U1 & _); destruct (nexts_ok E (length cs') g U) as (U2 & _); rewrite <- G1 in U1.
  pose proof (Encrypt_ok E g1 P A HC U1 BP BA LP LA) as K; cbv zeta in K; rewrite EN in K; injection K as KC _ _ _.
  pose proof (inc32_block _ (mblock_block E g1 U1)) as Bi.
  assert (LC : zlen C = zlen P) by (unfold zlen; rewrite KC; unfold GCTR; rewrite gctr_length; [reflexivity | exact HC | exact Bi]).
  assert (BC : bytes C) by (rewrite KC; apply gctr_bytes; assumption).
  pose proof (Decrypt_ok E _ C A T HC U2 BC BA ltac:(lia) LA) as D2; cbv zeta in D2.
  destruct (OT T) as (P0 & g5 & u5 & AC). rewrite list_eqb_refl in AC.
  assert (NA : ~ accepts E (nexts (length cs') g) C A T).
  { eapply (C98_one_place E iv cs cs' g); try eassumption; [lia | do 3 eexists; exact AC]. }
  match type of D2 with _ = Ok (?p, ?v, ?h, ?w) => destruct v eqn:V; [exfalso; apply NA; exists p, h, w; exact D2|]; exists g, g1, us1; do 2 eexists; exists C, T, g3, u3, p, h, w end.
  split; [exact Eg|]; split; [exact R1|]; split; [exact R2|]; split; [exact EN | exact D2].
Qed.
Print Assumptions C99_out_of_step.
(** So one wrong message makes the receiver refuse all genuine messages after it. *)
Theorem C99_never_recovers : forall E iv forged ms P A, blockfun E -> one_to_one E -> iv_ok iv -> call_ok forged -> Forall message_ok ms -> message_ok (P, A) ->
  exists g g1 us1 C T g3 u3, gcm_init E iv = Ok g /\ run_calls E g (map (fun m => Enc (fst m) (snd m)) ms) = Ok (g1, us1) /\ Encrypt E g1 P A = Ok (C, T, g3, u3) /\
    forall received, Forall call_ok received -> length received = length ms -> exists g2 us2 P' g4 u4, run_calls E g (forged :: received) = Ok (g2, us2) /\ Decrypt E g2 C A T = Ok (P', false, g4, u4).
Proof.
  intros E iv forged ms P A HB HO HI FF FM (BP & BA & LP & LA); cbn [fst snd] in *. set (cs := map (fun m => Enc (fst m) (snd m)) ms).
  assert (F1 : Forall call_ok cs) by (unfold cs; apply Forall_map; eapply Forall_impl; [|exact FM]; intros m (? & ? & ? & ?); repeat split; assumption).
  destruct (C30_other_tags E iv cs P A HB HI F1 BP BA LP LA) as (g & g1 & us1 & C & T & g3 & u3 & Eg & R1 & EN & _).
  exists g, g1, us1, C, T, g3, u3. split; [exact Eg|]; split; [exact R1|]; split; [exact EN|]; intros rc FR LR.
  destruct (C99_out_of_step E iv cs (forged :: rc) P A) as (g' & g1' & us1' & g2 & us2 & C' & T' & g3' & u3' & P' & g4 & u4 & Q1 & Q2 & Q3 & Q4 & Q5); try assumption; [constructor; assumption | |].
  - cbn [length]; unfold cs; rewrite map_length, LR, Nat2Z.inj_succ; intros Q; set (n := Z.of_nat (length ms)) in *.
    assert (X : 1 mod 2 ^ 64 = 0) by (replace 1 with (Z.succ n - n) by lia; rewrite Zminus_mod, <- Q, Z.sub_diag; reflexivity). discriminate X.
  - rewrite Eg in Q1; injection Q1 as <-. rewrite R1 in Q2; injection Q2 as <- <-. rewrite EN in Q4; injection Q4 as <- <- <- <-. exists g2, us2, P', g4, u4; auto.
Qed.
Print Assumptions C99_never_recovers.
(** With AES-128, the first message of a stream and an empty forged message before it. *)
Theorem C99_recovery_refuted : exists key rks iv g P A C T g3 u3, aes_schedule key rks /\ gcm_init (AesEncrypt rks) iv = Ok g /\ Encrypt (AesEncrypt rks) g P A = Ok (C, T, g3, u3) /\ P <> [] /\
  (exists g' u, Decrypt (AesEncrypt rks) g C A T = Ok (P, true, g', u)) /\
  exists P0 g0 u0 P' g4 u4, Decrypt (AesEncrypt rks) g [] [] [] = Ok (P0, false, g0, u0) /\ Decrypt (AesEncrypt rks) g0 C A T = Ok (P', false, g4, u4).
Proof.
  set (key := repeat 0 16). assert (BK : bytes key) by (apply bytes_repeat; unfold byte; lia). destruct (C25_permutation128 [] key eq_refl BK) as (rks & ES & _).
  assert (SC : aes_schedule key rks) by (apply (aes128 [] key rks); [reflexivity | exact BK | exact ES]). destruct (aes_cipher key rks SC) as [HB HO]. set (iv := repeat 0 12).
  assert (HI : iv_ok iv) by (split; [apply bytes_repeat; unfold byte; lia | right; unfold iv, zlen; rewrite repeat_length; lia]).
  assert (BP : bytes [1; 2; 3]) by (apply bytesb_iff; reflexivity). assert (B0 : bytes []) by (apply bytesb_iff; reflexivity).
  assert (F : call_ok (Dec [] [] [])) by (repeat split; (exact B0 || (vm_compute; reflexivity))).
  destruct (C99_never_recovers (AesEncrypt rks) iv (Dec [] [] []) [] [1; 2; 3] [] HB HO HI F (Forall_nil _)) as (g & g1 & us1 & C & T & g3 & u3 & Eg & R1 & EN & X); [repeat split; (assumption || (vm_compute; reflexivity))|].
  cbn [map run_calls] in R1. injection R1 as <- <-. destruct (X [] (Forall_nil _) eq_refl) as (g2 & us2 & P' & g4 & u4 & R2 & D2).
  pose proof HB as HC; apply blockfun_cipher in HC; destruct (init_ok _ iv HC HI) as (g0 & E0 & U & _); rewrite Eg in E0; injection E0 as <-.
  destruct (round_trip _ g [1; 2; 3] [] HC U) as (C2 & T2 & u5 & u6 & F1 & F2 & _); [repeat split; (assumption || (vm_compute; reflexivity))|].
  rewrite EN in F1; injection F1 as <- <- _ _.
  pose proof (Decrypt_ok _ g [] [] [] HC U B0 B0 eq_refl eq_refl) as D0; cbv zeta in D0.
  exists key, rks, iv, g, [1; 2; 3], [], C, T, g3, u3. split; [exact SC|]; split; [exact Eg|]; split; [exact EN|]; split; [discriminate|]; split; [eauto|].
  cbn [run_calls] in R2; rewrite D0 in R2; cbn [bind] in R2; injection R2 as <- <-. do 6 eexists; split; [|exact D2].
  rewrite D0. do 4 f_equal. apply not_true_is_false; intros Q; apply list_eqb_eq in Q.
  apply (f_equal (@length Z)) in Q; unfold GCTR in Q; rewrite gctr_length in Q; [rewrite be_bytes_length in Q; discriminate Q | exact HC | apply (mblock_block _ g U)].
Qed.
Print Assumptions C99_recovery_refuted.
(** The toy cipher of C88 meets the hypotheses (AES does by [aes_cipher]). *)
Example C98_C99_case : blockfun toy /\ one_to_one toy /\ iv_ok (repeat 7 12) /\ Forall call_ok [Dec [1; 2] [3] [4]] /\ exists g T, gcm_init toy (repeat 7 12) = Ok g /\ accepts toy g [1; 2] [3] T.
Proof.
  split; [|split; [|split; [|split]]].
  - intros b L B; split; [unfold toy; rewrite xorl_length, L; reflexivity | apply bytes_xorl; [exact B | apply bytesb_iff; reflexivity]].
  - intros a b La Ba Lb Bb Q; unfold toy in Q; rewrite (xorl_comm a), (xorl_comm b) in Q; apply xorl_inj in Q; [exact Q | rewrite La; reflexivity | rewrite Lb; reflexivity].
  - split; [apply bytesb_iff; reflexivity | right; cbn; lia].
  - repeat constructor; cbn; lia || (unfold byte; lia).
  - eexists; exists [13; 118; 199; 127; 167; 11; 192; 80; 75; 237; 74; 15; 56; 28; 14; 169]; split; [vm_compute; reflexivity|]; do 3 eexists; vm_compute; reflexivity.
Qed.
