(** Property C104: a checksum can be steered. *)
From Coq Require Import FinFun.
From Verif Require Import Base BaseP M_CRC S_CRC P_CRC P_GF2 P_CRC2 Prop_CRC Prop_CRC2.
Open Scope Z_scope.

(** An injective map of [0, N) into itself reaches everything. *)
Lemma finite_onto (N : Z) (f : Z -> Z) : (forall x, 0 <= x < N -> 0 <= f x < N) -> (forall x y, 0 <= x < N -> 0 <= y < N -> f x = f y -> x = y) ->
  forall z, 0 <= z < N -> exists x, 0 <= x < N /\ f x = z.
Proof.
  intros R I z Hz. set (l := map Z.of_nat (seq 0 (Z.to_nat N))). assert (IN : forall x, In x l <-> 0 <= x < N).
  { intros x. unfold l. rewrite in_map_iff. split; [intros (k & <- & K); apply in_seq in K; lia | intros H; exists (Z.to_nat x); split; [lia | apply in_seq; lia]]. }
  assert (ND : NoDup l) by (apply Injective_map_NoDup; [intros a b; apply Nat2Z.inj | apply seq_NoDup]).
  assert (ND' : NoDup (map f l)).
  { clear - ND I IN. assert (K : forall x, In x l -> 0 <= x < N) by (intros x; apply IN). clear IN. induction ND as [|x l N1 ND IH]; [constructor|]. cbn [map]. constructor; [|apply IH; intros y Y; apply K; right; exact Y].
    rewrite in_map_iff. intros (y & E & Y). apply I in E; [|apply K; right; exact Y | apply K; left; reflexivity]. subst y. contradiction. }
  assert (INC : incl l (map f l)).
  { apply NoDup_length_incl; [exact ND' | rewrite map_length; lia|]. intros y Y. apply in_map_iff in Y. destruct Y as (x & <- & X). apply IN, R, IN, X. }
  apply IN, INC, in_map_iff in Hz. destruct Hz as (x & E & X). exists x. split; [apply IN, X | exact E].
Qed.
Lemma byte_bits_length b : length (byte_bits b) = 8%nat. Proof. reflexivity. Qed.
Lemma msg_bits_inj a b : bytes a -> bytes b -> length a = length b -> msg_bits a = msg_bits b -> a = b.
Proof.
  intros A B L E. apply (f_equal bval) in E. rewrite !msg_bits_val in E by assumption. revert b B L E. induction a as [|x a IH]; intros [|y b] B L E; cbn [length] in L; try discriminate; [reflexivity|].
  apply bytes_cons in A, B. destruct A as [X A], B as [Y B]. cbn [le_val] in E. unfold byte in X, Y. assert (x = y) by lia. subst y. f_equal. apply (IH A b B); lia.
Qed.

(** Whatever comes before and after, exactly one setting of four adjacent bytes gives a wanted checksum. *)
Theorem C104_any_checksum : forall pre post want, bytes pre -> bytes post -> bytes want -> length want = 4%nat ->
  exists t, bytes t /\ length t = 4%nat /\ digest (pre ++ t ++ post) = want /\ forall t', bytes t' -> length t' = 4%nat -> digest (pre ++ t' ++ post) = want -> t' = t.
Proof.
  intros pre post want Bpre Bpost Bw Lw. assert (BB : forall t, bytes t -> bytes (pre ++ t ++ post)) by (intros t Bt; repeat (apply bytes_app; split; try assumption)).
  assert (INJ : forall t t', bytes t -> bytes t' -> length t = 4%nat -> length t' = 4%nat -> digest (pre ++ t ++ post) = digest (pre ++ t' ++ post) -> t = t').
  { intros t t' Bt Bt' Lt Lt' E. destruct (list_eq_dec Z.eq_dec t t') as [Q|Q]; [exact Q|exfalso].
    apply (C06_crc32_detects_bursts (pre ++ t ++ post) (pre ++ t' ++ post) (msg_bits pre) (msg_bits t) (msg_bits t') (msg_bits post)); try apply BB; try assumption; try (rewrite !msg_bits_app; reflexivity); rewrite ?msg_bits_length; try lia.
    intros M. apply Q, msg_bits_inj; try assumption. congruence. }
  set (f := fun x => crc32 (pre ++ be_bytes 4 x ++ post)).
  assert (W : 0 <= be_val want < 2 ^ 32) by (pose proof (be_val_range want Bw) as R; unfold zlen in R; rewrite Lw in R; exact R).
  assert (BE : forall x, bytes (be_bytes 4 x)) by (intros x; apply be_bytes_bytes).
  destruct (finite_onto (2 ^ 32) f) with (z := be_val want) as (x & Hx & E); [intros; apply crc32_range | | exact W | ].
  - intros x y Hx Hy E. assert (Q : be_bytes 4 x = be_bytes 4 y).
    { apply INJ; try apply BE; try (rewrite be_bytes_length; reflexivity). rewrite !digest_be by (apply BB, BE). f_equal. exact E. }
    apply (f_equal be_val) in Q. rewrite !be_val_bytes in Q by (change (256 ^ Z.of_nat 4) with (2 ^ 32); lia). exact Q.
  - assert (D : digest (pre ++ be_bytes 4 x ++ post) = want).
    { rewrite digest_be by (apply BB, BE). unfold f in E. rewrite E. rewrite <- Lw. apply be_bytes_val, Bw. }
    exists (be_bytes 4 x). split; [apply BE|]. split; [apply be_bytes_length|]. split; [exact D|]. intros t' Bt' Lt' E'. apply INJ; try assumption; [apply BE | apply be_bytes_length | congruence].
Qed.
Print Assumptions C104_any_checksum.
(** Checksums of equally long messages are related by exclusive or, so that the effect of a change on
    the checksum does not depend on the message. *)
Theorem C104_affine : forall a b c, bytes a -> bytes b -> bytes c -> length a = length b -> length b = length c -> digest (xorl a (xorl b c)) = xorl (digest a) (xorl (digest b) (digest c)).
Proof.
  intros a b c A B C L1 L2. assert (XB : bytes (xorl b c)) by (apply bytes_xorl; assumption). assert (LX : length (xorl b c) = length b) by (rewrite xorl_length; lia).
  rewrite !digest_be by (try assumption; apply bytes_xorl; assumption). rewrite !xorl_be4 by (first [apply crc32_range | apply (lxor_range 32); [lia | apply crc32_range..]]). f_equal. unfold crc32.
  rewrite <- !msg_bits_xor by lia. set (I := 0xFFFFFFFF). replace I with (Z.lxor I (Z.lxor I I)) at 1 by reflexivity.
  rewrite fold_clock_xor by (rewrite xbits_length, !msg_bits_length by (rewrite !msg_bits_length; lia); lia). rewrite fold_clock_xor by (rewrite !msg_bits_length; lia).
  generalize (fold_left clock (msg_bits a) I), (fold_left clock (msg_bits b) I), (fold_left clock (msg_bits c) I). intros x y z. clear.
  apply Z.bits_inj'. intros i _. rewrite !Z.lxor_spec. destruct (Z.testbit x i), (Z.testbit y i), (Z.testbit z i), (Z.testbit I i); reflexivity.
Qed.
Print Assumptions C104_affine.
Example C104_case : digest ([1; 2; 3] ++ [114; 48; 58; 137] ++ [4; 5]) = [0; 0; 0; 0] /\ digest (xorl [1; 2] (xorl [7; 8] [9; 10])) = xorl (digest [1; 2]) (xorl (digest [7; 8]) (digest [9; 10])).
Proof. split; vm_compute; reflexivity. Qed.
