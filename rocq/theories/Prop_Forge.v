(** Property C88: forged GCM messages pass for few hash subkeys only. *)
From Verif Require Import Base BaseP M_GCM S_GCM P_GF2 P_GField P_GHM P_GCM P_Forge Prop_GCM.
Open Scope Z_scope.

(** The object reports a message as valid. *)
Definition accepts (E : list Z -> list Z) (g : gcm) (C A T : list Z) : Prop := exists P g' u, Decrypt E g C A T = Ok (P, true, g', u).
(** Number of 16-byte blocks of a string, the last one possibly short. *)
Definition nblocks16 (x : list Z) : Z := (zlen x + 15) / 16.

Lemma accepted_tag E iv cs C A T g g' us : blockfun E -> iv_ok iv -> Forall call_ok cs -> bytes C -> bytes A -> zlen C < 2 ^ 61 -> zlen A < 2 ^ 61 ->
  gcm_init E iv = Ok g -> run_calls E g cs = Ok (g', us) -> accepts E g' C A T ->
  block T /\ block (E (mblock g')) /\ be_val T = Z.lxor (GHASH (be_val (E (repeat 0 16))) (ghash_input A C)) (be_val (E (mblock g'))).
Proof.
  intros HB HI F BC BA LC LA Eg Rn (P & g2 & u & D); apply blockfun_cipher in HB; destruct (init_ok E iv HB HI) as (g0 & E0 & U & _).
  rewrite Eg in E0; injection E0 as <-; pose proof (run_ok E HB cs g U F) as R2; rewrite Rn in R2; injection R2 as -> _.
  destruct (nexts_ok E (length cs) g U) as (U2 & _); set (gn := nexts (length cs) g) in *.
  pose proof (Decrypt_ok E gn C A T HB U2 BC BA LC LA) as D2; cbv zeta in D2; rewrite D in D2.
  assert (ET : T = GCTR E (mblock gn) (be_bytes 16 (GHASH (be_val (E (repeat 0 16))) (ghash_input A C)))).
  { injection D2 as _ V _ _; symmetry in V; apply list_eqb_eq in V; symmetry; exact V. }
  pose proof (mblock_block E gn U2) as Bc; pose proof (HB _ Bc) as BE.
  assert (Z0 : block (repeat 0 16)) by (split; [reflexivity | apply bytes_repeat; unfold byte; lia]).
  destruct (ghash_ok _ _ C A (mirror_block _ (HB _ Z0)) BC BA LC LA) as [_ Rg].
  set (Hv := GHASH _ _) in *; pose proof (store_bytes Hv Rg) as BS.
  assert (EX : T = xorl (be_bytes 16 Hv) (E (mblock gn))).
  { rewrite ET; unfold GCTR; rewrite <- (app_nil_r (be_bytes 16 Hv)) at 1; rewrite gctr_app by apply BS; cbn; rewrite app_nil_r; reflexivity. }
  split; [|split; [exact BE|]].
  - rewrite EX; destruct BS as [LS BSb], BE as [LE BEb]; split; [rewrite xorl_length, LS, LE; reflexivity | apply bytes_xorl; assumption].
  - rewrite EX, be_val_xorl by assumption; f_equal; apply be_val_bytes; exact Rg.
Qed.
Lemma nblk_count A C : Z.of_nat (nblk A C) = nblocks16 A + nblocks16 C + 1.
Proof.
  assert (Q : forall x, exists k, length (x ++ pad16 x) = (k * 16)%nat /\ Z.of_nat k = nblocks16 x).
  { intros x; destruct (pad16_length x) as [k L]; exists k; split; [exact L|]; rewrite app_length in L; unfold pad16 in L; rewrite repeat_length in L.
    unfold nblocks16; pose proof (Z.mod_pos_bound (- zlen x) 16 ltac:(lia)); apply Z.div_unique_pos with (r := 15 - (- zlen x) mod 16); unfold zlen in *; lia. }
  destruct (Q A) as (k & LA & EA), (Q C) as (m & LC & EC), (input_shape A C) as (X & n & E & L & EX).
  unfold nblk, coeffs; rewrite map_length.
  destruct (chunks_lengths 16 (n + 1) (ghash_input A C) ltac:(lia)) as [_ N]; [rewrite E, app_length, L, lengths_length; lia|].
  rewrite N, <- EA, <- EC; rewrite EX, app_length, LA, LC in L; lia.
Qed.

(** Whatever was processed before, and whatever the block ciphers do elsewhere: at most as many
    hash subkeys (the values the ciphers give to the zero block) as the longer message has blocks,
    plus one, let the same object accept two different messages with given tags under one nonce. *)
Theorem C88_forgery_bound : forall iv cs C A T C' A' T' (subkeys : list (list Z)), iv_ok iv -> Forall call_ok cs ->
  bytes C -> bytes A -> bytes C' -> bytes A' -> zlen C < 2 ^ 61 -> zlen A < 2 ^ 61 -> zlen C' < 2 ^ 61 -> zlen A' < 2 ^ 61 ->
  (C, A) <> (C', A') -> NoDup subkeys ->
  (forall h, In h subkeys -> exists E g g' us, blockfun E /\ E (repeat 0 16) = h /\ gcm_init E iv = Ok g /\ run_calls E g cs = Ok (g', us) /\
     accepts E g' C A T /\ accepts E g' C' A' T') ->
  zlen subkeys <= Z.max (nblocks16 A + nblocks16 C) (nblocks16 A' + nblocks16 C') + 1.
Proof.
  intros iv cs C A T C' A' T' hs HI F BC BA BC' BA' LC LA LC' LA' D ND HH.
  assert (Z0 : block (repeat 0 16)) by (split; [reflexivity | apply bytes_repeat; unfold byte; lia]).
  assert (Q : forall h, In h hs -> block h /\ block T /\ block T' /\
            Z.lxor (GHASH (be_val h) (ghash_input A C)) (GHASH (be_val h) (ghash_input A' C')) = Z.lxor (be_val T) (be_val T')).
  { intros h I; destruct (HH h I) as (E & g & g' & us & HB & Eh & Eg & Rn & A1 & A2).
    destruct (accepted_tag E iv cs C A T g g' us HB HI F BC BA LC LA Eg Rn A1) as (B1 & B2 & V1).
    destruct (accepted_tag E iv cs C' A' T' g g' us HB HI F BC' BA' LC' LA' Eg Rn A2) as (B3 & _ & V2).
    split; [rewrite <- Eh; apply (blockfun_cipher E HB); exact Z0|]; split; [exact B1|]; split; [exact B3|].
    rewrite V1, V2, Eh, lxor_swap, Z.lxor_nilpotent, Z.lxor_0_r; reflexivity. }
  destruct hs as [|h0 hs0] eqn:Ehs; [unfold zlen, nblocks16; cbn [length]; pose proof (Z.div_pos (zlen A + 15) 16 ltac:(pose proof (zlen_nonneg A); lia) ltac:(lia)); pose proof (Z.div_pos (zlen C + 15) 16 ltac:(pose proof (zlen_nonneg C); lia) ltac:(lia)); lia|].
  rewrite <- Ehs in *; destruct (Q h0 ltac:(rewrite Ehs; left; reflexivity)) as (_ & BT & BT' & _).
  assert (L : (length (map be_val hs) <= Nat.max (nblk A C) (nblk A' C'))%nat).
  { apply (ghash_collisions A C A' C' (Z.lxor (be_val T) (be_val T'))); try assumption.
    - intros E; apply D; injection E as -> ->; reflexivity.
    - apply rng_lxor; [exact w128 | apply (block_range _ BT) | apply (block_range _ BT')].
    - apply NoDup_map_in; [|exact ND]; intros a b Ia Ib E; destruct (Q a Ia) as ([La Ba] & _), (Q b Ib) as ([Lb Bb] & _).
      rewrite <- (be_bytes_val a Ba), <- (be_bytes_val b Bb), La, Lb, E; reflexivity.
    - intros H I; apply in_map_iff in I; destruct I as (h & <- & I); destruct (Q h I) as (Bh & _ & _ & E); split; [apply (block_range _ Bh) | exact E]. }
  rewrite map_length in L; pose proof (nblk_count A C); pose proof (nblk_count A' C'); unfold zlen; lia.
Qed.
Print Assumptions C88_forgery_bound.
(** A cipher under which two different messages are accepted at the same message number. *)
Definition toy : list Z -> list Z := fun b => xorl b (map Z.of_nat (seq 1 16)).
Example C88_case : exists T T', blockfun toy /\ iv_ok (repeat 7 12) /\ exists g, gcm_init toy (repeat 7 12) = Ok g /\ accepts toy g [1; 2] [3] T /\ accepts toy g [1; 5] [3] T'.
Proof.
  exists [13; 118; 199; 127; 167; 11; 192; 80; 75; 237; 74; 15; 56; 28; 14; 169], [112; 72; 178; 56; 154; 97; 37; 51; 150; 48; 207; 219; 133; 229; 107; 89]; split; [|split].
  - intros b L B; split; [unfold toy; rewrite xorl_length, L; reflexivity | apply bytes_xorl; [exact B | apply bytesb_iff; reflexivity]].
  - split; [apply bytesb_iff; reflexivity | right; cbn; lia].
  - eexists; split; [vm_compute; reflexivity|]; split; do 3 eexists; vm_compute; reflexivity.
Qed.
