(** C123: whoever sees the messages one GCM object sends cannot tell that two of their blocks, or two
    whole messages, were equal before they were sealed. *)
From Verif Require Import Base BaseP M_AES Prop_AES M_HKDF M_GCM S_GCM P_Ghash P_GHM P_GCM Prop_GCM Prop_GCM2.
Open Scope Z_scope.

(** Bytes 16 k to 16 k + 15. *)
Definition blk (k : nat) (l : list Z) : list Z := firstn 16 (skipn (16 * k) l).
(** What SP 800-38D allows to seal in one call. *)
Definition sealable (m : message) : Prop :=
  bytes (fst m) /\ bytes (snd m) /\ zlen (fst m) <= 16 * (2 ^ 32 - 2) /\ zlen (snd m) < 2 ^ 61.

Lemma gctr_blk E C X a : cipher E -> block C -> (16 * S a <= length X)%nat ->
  blk a (GCTR E C X) = xorl (blk a X) (E (incs a C)).
Proof.
  intros HE HC L. destruct (split_at (16 * a) X ltac:(lia)) as (ps & X' & -> & Lp). rewrite app_length in L.
  destruct (split_at 16 X' ltac:(lia)) as (p & r & -> & L16).
  assert (LE : length (E (incs a C)) = 16%nat) by (apply HE, incs_block, HC).
  unfold blk, GCTR. rewrite gctr_blocks_app by (exists a; exact Lp). rewrite (nblocks_full ps a Lp), gctr_app by exact L16.
  rewrite !skipn_app_exact by (rewrite ?gctr_length by assumption; lia).
  rewrite !firstn_app_exact by (rewrite ?xorl_length; lia). reflexivity.
Qed.
Lemma sent_nth E ms : cipher E -> Forall message_ok ms -> forall g wire, usable E g -> send_all E g ms = Ok wire ->
  forall i m c, nth_error ms i = Some m -> nth_error wire i = Some c -> fst c = GCTR E (inc32 (mblock (nexts i g))) (fst m).
Proof.
  intros HE F. induction F as [|[P A] t (B1 & B2 & L1 & L2) F IH]; intros g wire U S i m c Em Ec; [destruct i; discriminate Em|].
  cbn [send_all] in S. rewrite Encrypt_ok in S by assumption. cbn [bind] in S.
  destruct (send_all E (next g) t) as [w| | |] eqn:Ew; cbn [bind] in S; try discriminate S. injection S as <-.
  destruct i as [|i]; cbn [nth_error] in Em, Ec.
  - injection Em as <-. injection Ec as <-. reflexivity.
  - cbn [nexts]. exact (IH (next g) w (next_usable E g U) Ew i m c Em Ec).
Qed.
Lemma incs_inc32 n C : incs n (inc32 C) = incs (S n) C.
Proof. reflexivity. Qed.
(** The counter blocks of two different places are different. *)
Lemma places_differ E g i j a b : usable E g -> g_count g = 0 -> Z.of_nat i < 2 ^ 64 -> Z.of_nat j < 2 ^ 64 ->
  Z.of_nat a < 2 ^ 32 - 2 -> Z.of_nat b < 2 ^ 32 - 2 ->
  incs (S a) (mblock (nexts i g)) = incs (S b) (mblock (nexts j g)) -> (i, a) = (j, b).
Proof.
  intros U C0 Hi Hj Ha Hb E0.
  assert (Bk : forall k, block (mblock (nexts k g))) by (intros k; apply (mblock_block E), nexts_ok, U).
  assert (EI : i = j).
  { pose proof (f_equal (firstn 12) E0) as E1. rewrite !incs_form in E1 by apply Bk.
    rewrite !firstn_app_exact in E1 by (destruct (Bk i), (Bk j); rewrite firstn_length; lia). unfold mblock in E1.
    destruct (nexts_ok E i g U) as (_ & Ix & Cx), (nexts_ok E j g U) as (_ & Iy & Cy). rewrite Ix, Iy, Cx, Cy, C0, !Z.add_0_l in E1. rewrite !w64_small in E1 by lia.
    apply with_counter_inj in E1; [lia | | lia | lia]. destruct U as (_ & Hl & B & _); apply J_block; assumption. }
  subst j. f_equal. rewrite !incs_form in E0 by apply Bk. apply app_inv_head in E0. apply (f_equal be_val) in E0. rewrite !be_val_bytes in E0 by (apply Z.mod_pos_bound; lia).
  set (v := be_val (skipn 12 (mblock (nexts i g)))) in E0.
  assert (D : (Z.of_nat (S a) - Z.of_nat (S b)) mod 2 ^ 32 = 0).
  { replace (Z.of_nat (S a) - Z.of_nat (S b)) with ((v + Z.of_nat (S a)) - (v + Z.of_nat (S b))) by lia. rewrite Zminus_mod, E0, Z.sub_diag. reflexivity. }
  apply Z.mod_divide in D; [|lia]. destruct D as [q D]. assert (q = 0) by lia. lia.
Qed.

(** ** C123 *)
Section Fresh.
Variables (E : list Z -> list Z) (iv : list Z) (ms : list message) (g : gcm) (wire : list (list Z * list Z)).
Hypothesis permutation : permutation_of_blocks E.
Hypothesis usable_iv : iv_ok iv.
Hypothesis all_sealable : Forall sealable ms.
Hypothesis countable : Z.of_nat (length ms) <= 2 ^ 64.
Hypothesis made : gcm_init E iv = Ok g.
Hypothesis sent : send_all E g ms = Ok wire.
Variables (i j a b : nat) (m n : message) (c d : list Z * list Z).
Hypotheses (Hm : nth_error ms i = Some m) (Hn : nth_error ms j = Some n) (Hc : nth_error wire i = Some c) (Hd : nth_error wire j = Some d).
Hypotheses (La : (16 * S a <= length (fst m))%nat) (Lb : (16 * S b <= length (fst n))%nat).
Hypothesis elsewhere : (i, a) <> (j, b).

Lemma ciph : cipher E.
Proof. intros x [L B]. destruct permutation as [P _]. split; apply P; assumption. Qed.
Lemma oks : Forall message_ok ms.
Proof. eapply Forall_impl; [|exact all_sealable]. intros x (B1 & B2 & L1 & L2). repeat split; try assumption; lia. Qed.
Lemma start : usable E g /\ g_count g = 0.
Proof. destruct (init_ok E iv ciph usable_iv) as (g0 & Eg & U & C0 & _). rewrite made in Eg. injection Eg as <-. split; assumption. Qed.
Lemma place i' a' m' c' : nth_error ms i' = Some m' -> nth_error wire i' = Some c' -> (16 * S a' <= length (fst m'))%nat ->
  blk a' (fst c') = xorl (blk a' (fst m')) (E (incs (S a') (mblock (nexts i' g)))) /\ Z.of_nat i' < 2 ^ 64 /\ Z.of_nat a' < 2 ^ 32 - 2.
Proof.
  intros E1 E2 L. destruct start as [U C0]. rewrite (sent_nth E ms ciph oks g wire U sent i' m' c' E1 E2). split; [|split].
  - rewrite gctr_blk; [rewrite incs_inc32; reflexivity | exact ciph | apply inc32_block, (mblock_block E), nexts_ok, U | exact L].
  - assert (i' < length ms)%nat by (apply nth_error_Some; rewrite E1; discriminate). lia.
  - pose proof (nth_error_In _ _ E1) as I. pose proof all_sealable as A. rewrite Forall_forall in A. destruct (A _ I) as (_ & _ & Z & _). unfold zlen in Z. lia.
Qed.
Lemma place_lengths a' (l : list Z) : (16 * S a' <= length l)%nat -> length (blk a' l) = 16%nat.
Proof. intros L. unfold blk. rewrite firstn_length, skipn_length. lia. Qed.

(** What is added to the plaintext differs from block to block, within a message and between messages. *)
Lemma keystreams_differ : xorl (blk a (fst m)) (blk a (fst c)) <> xorl (blk b (fst n)) (blk b (fst d)).
Proof.
  destruct (place i a m c Hm Hc La) as (Ec & Hi & Ha), (place j b n d Hn Hd Lb) as (Ed & Hj & Hb). destruct start as [U C0]. rewrite Ec, Ed.
  assert (Bk : forall k x, block (incs x (mblock (nexts k g)))) by (intros k x; apply incs_block, (mblock_block E), nexts_ok, U).
  assert (X : forall p q, length p = 16%nat -> block q -> xorl p (xorl p (E q)) = E q).
  { intros p q Lp Bq. destruct (ciph q Bq) as [Lq _]. revert Lp Lq. generalize (E q). clear. intros s Lp Ls. assert (L : length p = length s) by congruence. clear Lp Ls. revert s L.
    induction p as [|x p IH]; intros [|y s] L; try discriminate L; [reflexivity|]. cbn. rewrite <- Z.lxor_assoc, Z.lxor_nilpotent, Z.lxor_0_l. f_equal. apply IH. injection L as L. exact L. }
  rewrite !X by (apply Bk || (apply place_lengths; assumption)). intros Q. apply elsewhere. apply (places_differ E g i j a b U C0 Hi Hj Ha Hb).
  destruct permutation as (_ & Inj & _). apply Inj; try apply Bk. exact Q.
Qed.
Lemma blocks_differ : blk a (fst m) = blk b (fst n) -> blk a (fst c) <> blk b (fst d).
Proof. intros Q R. apply keystreams_differ. rewrite Q, R. reflexivity. Qed.
End Fresh.

Theorem C123_keystream : forall E iv ms g wire, permutation_of_blocks E -> iv_ok iv -> Forall sealable ms -> Z.of_nat (length ms) <= 2 ^ 64 ->
  gcm_init E iv = Ok g -> send_all E g ms = Ok wire ->
  forall i j a b m n c d, nth_error ms i = Some m -> nth_error ms j = Some n -> nth_error wire i = Some c -> nth_error wire j = Some d ->
  (16 * S a <= length (fst m))%nat -> (16 * S b <= length (fst n))%nat -> (i, a) <> (j, b) ->
  xorl (blk a (fst m)) (blk a (fst c)) <> xorl (blk b (fst n)) (blk b (fst d)).
Proof. exact keystreams_differ. Qed.
Print Assumptions C123_keystream.
(** So equal blocks of plaintext never show. *)
Theorem C123_blocks : forall E iv ms g wire, permutation_of_blocks E -> iv_ok iv -> Forall sealable ms -> Z.of_nat (length ms) <= 2 ^ 64 ->
  gcm_init E iv = Ok g -> send_all E g ms = Ok wire ->
  forall i j a b m n c d, nth_error ms i = Some m -> nth_error ms j = Some n -> nth_error wire i = Some c -> nth_error wire j = Some d ->
  (16 * S a <= length (fst m))%nat -> (16 * S b <= length (fst n))%nat -> (i, a) <> (j, b) ->
  blk a (fst m) = blk b (fst n) -> blk a (fst c) <> blk b (fst d).
Proof. exact blocks_differ. Qed.
Print Assumptions C123_blocks.
(** The same message of at least one block sent again gives another ciphertext. *)
Theorem C123_messages : forall E iv ms g wire, permutation_of_blocks E -> iv_ok iv -> Forall sealable ms -> Z.of_nat (length ms) <= 2 ^ 64 ->
  gcm_init E iv = Ok g -> send_all E g ms = Ok wire ->
  forall i j m n c d, nth_error ms i = Some m -> nth_error ms j = Some n -> nth_error wire i = Some c -> nth_error wire j = Some d ->
  i <> j -> fst m = fst n -> 16 <= zlen (fst m) -> fst c <> fst d.
Proof.
  intros E iv ms g wire P I S K G W i j m n c d Hm Hn Hc Hd D Q L R. unfold zlen in L.
  apply (C123_blocks E iv ms g wire P I S K G W i j 0%nat 0%nat m n c d Hm Hn Hc Hd); [lia | rewrite <- Q; lia | congruence | rewrite Q; reflexivity | rewrite R; reflexivity].
Qed.
Print Assumptions C123_messages.
(** AES-128 and AES-256. *)
Theorem C123_aes : forall key rks iv ms, (exists garbage, length key = 16%nat /\ sched128 garbage key = Ok rks) \/ (length key = 32%nat /\ sched256 key = Ok rks) ->
  bytes key -> iv_ok iv -> Forall sealable ms -> Z.of_nat (length ms) <= 2 ^ 64 ->
  exists g wire, gcm_init (AesEncrypt rks) iv = Ok g /\ send_all (AesEncrypt rks) g ms = Ok wire /\ length wire = length ms /\
    forall i j m n c d, nth_error ms i = Some m -> nth_error ms j = Some n -> nth_error wire i = Some c -> nth_error wire j = Some d ->
    (i <> j -> fst m = fst n -> 16 <= zlen (fst m) -> fst c <> fst d) /\
    (forall a b, (16 * S a <= length (fst m))%nat -> (16 * S b <= length (fst n))%nat -> (i, a) <> (j, b) -> blk a (fst m) = blk b (fst n) -> blk a (fst c) <> blk b (fst d)).
Proof.
  intros key rks iv ms S BK I F N.
  assert (P : permutation_of_blocks (AesEncrypt rks)).
  { destruct S as [(garbage & L & S)|(L & S)].
    - destruct (C25_permutation128 garbage key L BK) as (r & E1 & P). rewrite S in E1. injection E1 as <-. exact P.
    - destruct (C25_permutation256 key L BK) as (r & E1 & P). rewrite S in E1. injection E1 as <-. exact P. }
  assert (M : Forall message_ok ms) by (eapply Forall_impl; [|exact F]; intros x (B1 & B2 & L1 & L2); repeat split; try assumption; lia).
  destruct (C29_lockstep (AesEncrypt rks) iv ms (proj1 P) I M) as (g & wire & Eg & Ew & F2 & _). exists g, wire. split; [exact Eg|]. split; [exact Ew|]. split; [clear -F2; induction F2; cbn [length]; [reflexivity | f_equal; assumption]|].
  intros i j m n c d Hm Hn Hc Hd. split.
  - exact (C123_messages _ iv ms g wire P I F N Eg Ew i j m n c d Hm Hn Hc Hd).
  - intros a b. exact (C123_blocks _ iv ms g wire P I F N Eg Ew i j a b m n c d Hm Hn Hc Hd).
Qed.
Print Assumptions C123_aes.
(** Two equal messages of two equal blocks under the key 0, 1, ..., 15. *)
Example C123_case : exists rks g w1 w2, sched128 [] (map Z.of_nat (seq 0 16)) = Ok rks /\ gcm_init (AesEncrypt rks) (repeat 7 12) = Ok g /\
  send_all (AesEncrypt rks) g [(repeat 5 32, []); (repeat 5 32, [])] = Ok [w1; w2] /\
  nodup (list_eq_dec Z.eq_dec) [blk 0 (fst w1); blk 1 (fst w1); blk 0 (fst w2); blk 1 (fst w2)] = [blk 0 (fst w1); blk 1 (fst w1); blk 0 (fst w2); blk 1 (fst w2)] /\
  Forall sealable [(repeat 5 32, []); (repeat 5 32, [])] /\ iv_ok (repeat 7 12).
Proof.
  do 4 eexists. split; [vm_compute; reflexivity|]. split; [vm_compute; reflexivity|]. split; [vm_compute; reflexivity|]. split; [vm_compute; reflexivity|]. split.
  - repeat constructor; try (apply bytesb_iff; reflexivity); cbn; lia.
  - split; [apply bytesb_iff; reflexivity|]. right. cbn. lia.
Qed.
