(** Property theorems for ChaCha20 (C36 - C38). *)
From Coq Require Import String.
From Verif Require Import Base BaseP S_Word P_Word S_ChaCha M_ChaCha P_ChaCha S_HKDF.
Open Scope Z_scope.

(** A fresh object used for one call. *)
Definition encrypt_once (key nonce data : list Z) : res (list Z) :=
  do c <- ChaCha20 key nonce; do r <- Encrypt c data; Ok (snd r).
(** A fresh object used for a sequence of calls. *)
Definition encrypt_in_pieces (key nonce : list Z) (pieces : list (list Z)) : res (list (list Z)) :=
  do c <- ChaCha20 key nonce; do r <- Encrypts c pieces; Ok (snd r).
Definition decrypt_in_pieces (key nonce : list Z) (pieces : list (list Z)) : res (list (list Z)) :=
  do c <- ChaCha20 key nonce; do r <- Decrypts c pieces; Ok (snd r).

(** ** C36 *)
Theorem C36_chacha20_is_rfc8439 : forall key nonce data,
  bytes key -> bytes nonce -> zlen key = 32 -> zlen nonce = 12 -> zlen data <= 64 * (2 ^ 32 - 1) ->
  encrypt_once key nonce data = Ok (chacha20_encrypt key 1 nonce data).
Proof.
  intros key nonce data HK HN LK LN LD; unfold encrypt_once; rewrite new_ok by assumption; cbn [bind].
  rewrite encrypt_ok by (assumption || lia); cbn [bind snd]; f_equal; apply rfc_ok; (assumption || lia).
Qed.
Print Assumptions C36_chacha20_is_rfc8439.

Theorem C36_wrong_sizes_throw : forall key nonce, zlen key <> 32 \/ zlen nonce <> 12 -> ChaCha20 key nonce = Throw.
Proof.
  intros key nonce H; unfold ChaCha20; destruct (Z.eqb_spec (zlen key) 32); [|reflexivity].
  destruct (Z.eqb_spec (zlen nonce) 12); [lia | reflexivity].
Qed.
Print Assumptions C36_wrong_sizes_throw.

(** RFC 8439 section 2.4.2 (first eight bytes). *)
Example C36_case : encrypt_once (map Z.of_nat (seq 0 32)) [0; 0; 0; 0; 0; 0; 0; 0x4a; 0; 0; 0; 0] (str "Ladies a")
  = Ok [0x6e; 0x2e; 0x35; 0x9a; 0x25; 0x68; 0xf9; 0x80].
Proof. vm_compute; reflexivity. Qed.

(** ** C37 *)
Theorem C37_streaming : forall key nonce pieces,
  bytes key -> bytes nonce -> zlen key = 32 -> zlen nonce = 12 ->
  exists outs, encrypt_in_pieces key nonce pieces = Ok outs
    /\ map (@List.length Z) outs = map (@List.length Z) pieces
    /\ encrypt_once key nonce (concat pieces) = Ok (concat outs).
Proof.
  intros key nonce pieces HK HN LK LN; unfold encrypt_in_pieces, encrypt_once; rewrite new_ok by assumption; cbn [bind].
  destruct (encrypts_ok key nonce HK HN LK LN pieces 0 ltac:(lia)) as (outs & E & C & L).
  rewrite E; cbn [bind snd]; exists outs; split; [reflexivity|]; split; [exact L|].
  rewrite encrypt_ok by (assumption || lia); cbn [bind snd]; rewrite C; reflexivity.
Qed.
Print Assumptions C37_streaming.

Theorem C37_round_trip : forall key nonce pieces received,
  bytes key -> bytes nonce -> zlen key = 32 -> zlen nonce = 12 ->
  (exists sent, encrypt_in_pieces key nonce pieces = Ok sent /\ concat sent = concat received) ->
  exists outs, decrypt_in_pieces key nonce received = Ok outs
    /\ map (@List.length Z) outs = map (@List.length Z) received
    /\ concat outs = concat pieces.
Proof.
  intros key nonce pieces received HK HN LK LN (sent & ES & EC).
  unfold encrypt_in_pieces, decrypt_in_pieces in *; rewrite new_ok in * by assumption; cbn [bind] in *.
  destruct (encrypts_ok key nonce HK HN LK LN pieces 0 ltac:(lia)) as (outs & E & C & L).
  rewrite E in ES; cbn [bind snd] in ES; injection ES as ->.
  destruct (encrypts_ok key nonce HK HN LK LN received 0 ltac:(lia)) as (outs' & E' & C' & L').
  exists outs'; rewrite decrypts_encrypts, E'; split; [reflexivity|]; split; [exact L'|].
  rewrite C', <- EC, C.
  assert (LL : List.length (xorl (concat pieces) (stream key nonce 0 (List.length (concat pieces)))) = List.length (concat pieces))
    by (rewrite xorl_length, stream_length; lia).
  rewrite LL; apply xorl_cancel; rewrite stream_length; lia.
Qed.
Print Assumptions C37_round_trip.

Example C37_case : exists sent, encrypt_in_pieces (repeat 7 32) (repeat 9 12) [[1; 2; 3]; repeat 5 70; []] = Ok sent
  /\ concat sent = concat (map (fun b => [b]) (concat sent)).
Proof.
  destruct (C37_streaming (repeat 7 32) (repeat 9 12) [[1; 2; 3]; repeat 5 70; []]) as (s & E & _);
    try reflexivity; try (apply bytes_repeat; unfold byte; lia).
  exists s; split; [exact E|]. induction (concat s) as [|x l IH]; [reflexivity|]; cbn; f_equal; exact IH.
Qed.

(** ** C38 *)
(** Full statement: the keystream bytes one object applies at two different positions never come
    from the same (key, counter, nonce) block input, or an error is reported. *)
Definition keystream_at (data out : list Z) (i : Z) : Z :=
  Z.lxor (nth (Z.to_nat i) data 0) (nth (Z.to_nat i) out 0).

(** Every object accepts any amount of data and its keystream has period 2^38 bytes. *)
Lemma nth_xorl a b i : (i < List.length a)%nat -> (i < List.length b)%nat -> nth i (xorl a b) 0 = Z.lxor (nth i a 0) (nth i b 0).
Proof.
  revert b i; induction a as [|x a IH]; intros [|y b] i H1 H2; cbn [List.length] in *; try lia.
  destruct i; [reflexivity|]. unfold xorl in *; cbn [map2 nth]; apply IH; lia.
Qed.
Theorem C38_keystream_repeats : forall key nonce data,
  bytes key -> bytes nonce -> zlen key = 32 -> zlen nonce = 12 ->
  exists out, encrypt_once key nonce data = Ok out /\
    forall i, 0 <= i -> i + 2 ^ 38 < zlen data ->
      keystream_at data out (i + 2 ^ 38) = keystream_at data out i.
Proof.
  intros key nonce data HK HN LK LN; unfold encrypt_once; rewrite new_ok by assumption; cbn [bind].
  rewrite encrypt_ok by (assumption || lia); cbn [bind snd]; eexists; split; [reflexivity|].
  assert (G : forall i, 0 <= i < zlen data -> keystream_at data (xorl data (stream key nonce 0 (List.length data))) i = ks key nonce i).
  { intros i Hi; unfold keystream_at, zlen in *; rewrite nth_xorl by (rewrite ?stream_length; lia).
    rewrite stream_nth by lia. rewrite <- Z.lxor_assoc, Z.lxor_nilpotent, Z.lxor_0_l; f_equal; lia. }
  intros i Hi HB; rewrite !G by lia; unfold ks, ctr.
  replace (i + 2 ^ 38) with (i + 2 ^ 32 * 64) by lia.
  rewrite Z.mod_add, Z.div_add by lia.
  replace (1 + (i / 64 + 2 ^ 32)) with (1 + i / 64 + 1 * 2 ^ 32) by lia; rewrite Z.mod_add by lia; reflexivity.
Qed.
Print Assumptions C38_keystream_repeats.

(** Two-time pad: the object encrypts 2^38 + 64 bytes without complaint, and the XOR of the
    first and the last 64 ciphertext bytes is the XOR of the plaintexts. *)
Theorem C38_no_reuse_refuted : exists key nonce data out, encrypt_once key nonce data = Ok out /\
  zlen data = 2 ^ 38 + 64 /\
  forall i, 0 <= i < 64 -> keystream_at data out (i + 2 ^ 38) = keystream_at data out i.
Proof.
  set (data := repeat 0 (Z.to_nat (2 ^ 38 + 64))).
  assert (LD : zlen data = 2 ^ 38 + 64) by (unfold data, zlen; rewrite repeat_length; lia).
  clearbody data.
  destruct (C38_keystream_repeats (repeat 1 32) (repeat 2 12) data) as (out & E & H);
    try reflexivity; try (apply bytes_repeat; unfold byte; lia).
  exists (repeat 1 32), (repeat 2 12), data, out; split; [exact E|]; split; [exact LD|].
  intros i Hi; apply H; lia.
Qed.
Print Assumptions C38_no_reuse_refuted.

(** The keystream byte an object applies at position [i], observed by encrypting zeros. *)
Definition observed (key nonce : list Z) (i : Z) : res Z :=
  do out <- encrypt_once key nonce (repeat 0 (Z.to_nat (i + 1))); getz out i.
Lemma observed_ok key nonce i : bytes key -> bytes nonce -> zlen key = 32 -> zlen nonce = 12 -> 0 <= i ->
  observed key nonce i = Ok (ks key nonce i).
Proof.
  intros HK HN LK LN Hi; unfold observed, encrypt_once; rewrite new_ok by assumption; cbn [bind].
  rewrite encrypt_ok by (assumption || lia); cbn [bind snd]; rewrite repeat_length.
  set (n := Z.to_nat (i + 1)); unfold getz; replace (0 <=? i) with true by lia.
  rewrite (nth_error_nth' _ 0) by (rewrite xorl_length, repeat_length, stream_length; lia).
  rewrite nth_xorl by (rewrite ?stream_length, ?repeat_length; lia).
  rewrite stream_nth by lia. rewrite nth_repeat, Z.lxor_0_l; do 2 f_equal; lia.
Qed.
Lemma ctr_inj i j : 0 <= i < 2 ^ 38 -> 0 <= j < 2 ^ 38 -> ctr i = ctr j -> i / 64 = j / 64.
Proof.
  intros Hi Hj; unfold ctr.
  pose proof (Z.div_le_lower_bound i 64 0 ltac:(lia) ltac:(lia)); pose proof (Z.div_le_lower_bound j 64 0 ltac:(lia) ltac:(lia)).
  pose proof (Z.div_lt_upper_bound i 64 (2 ^ 32) ltac:(lia) ltac:(lia)); pose proof (Z.div_lt_upper_bound j 64 (2 ^ 32) ltac:(lia) ltac:(lia)).
  generalize dependent (i / 64); generalize dependent (j / 64); intros y Hy1 Hy2 x Hx1 Hx2 E.
  pose proof (Z.div_mod (1 + x) (2 ^ 32) ltac:(lia)) as Dx; pose proof (Z.div_mod (1 + y) (2 ^ 32) ltac:(lia)) as Dy.
  pose proof (Z.mod_pos_bound (1 + x) (2 ^ 32) ltac:(lia)); pose proof (Z.mod_pos_bound (1 + y) (2 ^ 32) ltac:(lia)).
  nia.
Qed.

(** Partial: below 2^32 blocks the bytes of different blocks come from different block inputs
    (the RFC's initial states). *)
Theorem C38_distinct_inputs_partial : forall key nonce i j,
  bytes key -> bytes nonce -> zlen key = 32 -> zlen nonce = 12 ->
  0 <= i < 2 ^ 38 -> 0 <= j < 2 ^ 38 -> i / 64 <> j / 64 ->
  exists ci cj,
    observed key nonce i = Ok (nth (Z.to_nat (i mod 64)) (chacha20_block key ci nonce) 0) /\
    observed key nonce j = Ok (nth (Z.to_nat (j mod 64)) (chacha20_block key cj nonce) 0) /\
    initial_state key ci nonce <> initial_state key cj nonce.
Proof.
  intros key nonce i j HK HN LK LN Hi Hj D; exists (ctr i), (ctr j).
  rewrite !observed_ok by (assumption || lia).
  split; [unfold ks; reflexivity|]; split; [unfold ks; reflexivity|]. intros E.
  destruct (upd12 key (ctr i) nonce 0 LK LN) as [_ E1]; destruct (upd12 key (ctr j) nonce 0 LK LN) as [_ E2].
  rewrite E in E1; rewrite E1 in E2. apply D, ctr_inj; assumption.
Qed.
Print Assumptions C38_distinct_inputs_partial.
