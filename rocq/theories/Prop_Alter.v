(** C124: what ChaCha20 sends can be altered, cut short and compared by anyone, without the key. *)
From Coq Require Import String.
From Verif Require Import Base BaseP S_Word P_Word S_ChaCha M_ChaCha P_ChaCha S_HKDF Prop_ChaCha.
Open Scope Z_scope.

(** Full statement: a receiver notices (by an exception) that what they got is not what was sent. *)
Definition detects : Prop := forall key nonce m sent got out,
  bytes key -> bytes nonce -> bytes m -> bytes got -> zlen key = 32 -> zlen nonce = 12 ->
  encrypt_once key nonce m = Ok sent -> decrypt_in_pieces key nonce [got] = Ok [out] -> got = sent.

Definition flip (mask l : list Z) : list Z := xorl l mask.
Lemma dec_one key nonce got : bytes key -> bytes nonce -> zlen key = 32 -> zlen nonce = 12 ->
  decrypt_in_pieces key nonce [got] = Ok [xorl got (stream key nonce 0 (List.length got))].
Proof.
  intros HK HN LK LN. unfold decrypt_in_pieces. rewrite new_ok by assumption. cbn [bind]. rewrite decrypts_encrypts. cbn [Encrypts].
  rewrite encrypt_ok by (assumption || lia). reflexivity.
Qed.
Lemma enc_one key nonce m : bytes key -> bytes nonce -> zlen key = 32 -> zlen nonce = 12 ->
  encrypt_once key nonce m = Ok (xorl m (stream key nonce 0 (List.length m))).
Proof. intros HK HN LK LN. unfold encrypt_once. rewrite new_ok by assumption. cbn [bind]. rewrite encrypt_ok by (assumption || lia). reflexivity. Qed.
Lemma xorl_swap a : forall s m, List.length s = List.length a -> List.length m = List.length a -> xorl (xorl (xorl a s) m) s = xorl a m.
Proof.
  induction a as [|x a IH]; intros [|y s] [|z m] L1 L2; try discriminate L1; try discriminate L2; [reflexivity|]. unfold xorl in *. cbn [map2]. f_equal; [|apply IH; [injection L1 as L1; exact L1 | injection L2 as L2; exact L2]].
  rewrite (Z.lxor_assoc (Z.lxor x y) z y), (Z.lxor_comm z y), <- (Z.lxor_assoc (Z.lxor x y) y z), (Z.lxor_assoc x y y), Z.lxor_nilpotent, Z.lxor_0_r. reflexivity.
Qed.
Lemma xorl_two a : forall b s, List.length b = List.length a -> List.length s = List.length a -> xorl (xorl a s) (xorl b s) = xorl a b.
Proof.
  induction a as [|x a IH]; intros [|y b] [|z s] L1 L2; try discriminate L1; try discriminate L2; [reflexivity|]. unfold xorl in *. cbn [map2]. f_equal; [|apply IH; [injection L1 as L1; exact L1 | injection L2 as L2; exact L2]].
  rewrite (Z.lxor_comm y z), (Z.lxor_assoc x z), <- (Z.lxor_assoc z z y), Z.lxor_nilpotent, Z.lxor_0_l. reflexivity.
Qed.

(** Whatever bits are flipped on the way, the receiver gets the message with the same bits flipped. *)
Theorem C124_alter : forall key nonce m mask, bytes key -> bytes nonce -> zlen key = 32 -> zlen nonce = 12 -> List.length mask = List.length m ->
  exists sent, encrypt_once key nonce m = Ok sent /\ decrypt_in_pieces key nonce [flip mask sent] = Ok [flip mask m].
Proof.
  intros key nonce m mask HK HN LK LN L. exists (xorl m (stream key nonce 0 (List.length m))). split; [apply enc_one; assumption|].
  rewrite dec_one by assumption. unfold flip. rewrite !xorl_length, stream_length, L, !Nat.min_id. do 2 f_equal. apply xorl_swap; rewrite ?stream_length; congruence.
Qed.
Print Assumptions C124_alter.
(** So whoever knows (or guesses) the message replaces it by any other of the same length. *)
Theorem C124_replace : forall key nonce m other, bytes key -> bytes nonce -> zlen key = 32 -> zlen nonce = 12 -> List.length other = List.length m ->
  exists sent, encrypt_once key nonce m = Ok sent /\ decrypt_in_pieces key nonce [flip (xorl m other) sent] = Ok [other].
Proof.
  intros key nonce m other HK HN LK LN L. destruct (C124_alter key nonce m (xorl m other) HK HN LK LN) as (sent & E & D); [rewrite xorl_length; lia|].
  exists sent. split; [exact E|]. rewrite D. unfold flip. do 2 f_equal. clear -L. revert other L.
  induction m as [|x m IH]; intros [|y o] L; try discriminate L; [reflexivity|]. unfold xorl in *. cbn [map2]. f_equal; [|apply IH; injection L as L; exact L].
  rewrite <- Z.lxor_assoc, Z.lxor_nilpotent. reflexivity.
Qed.
Print Assumptions C124_replace.
(** Cut off anywhere, the start of the message is received. *)
Theorem C124_truncate : forall key nonce m rest, bytes key -> bytes nonce -> zlen key = 32 -> zlen nonce = 12 -> 
  exists sent, encrypt_once key nonce (m ++ rest) = Ok sent /\ decrypt_in_pieces key nonce [firstn (List.length m) sent] = Ok [m].
Proof.
  intros key nonce m rest HK HN LK LN.
  eexists. split; [apply enc_one; assumption|]. rewrite dec_one by assumption. do 2 f_equal.
  assert (Q : firstn (List.length m) (xorl (m ++ rest) (stream key nonce 0 (List.length (m ++ rest)))) = xorl m (stream key nonce 0 (List.length m))).
  { rewrite app_length, stream_app. generalize (stream_length key nonce (List.length m) 0). generalize (stream key nonce 0 (List.length m)), (stream key nonce (0 + Z.of_nat (List.length m)) (List.length rest)).
    clear. intros s t. revert s. induction m as [|x m IH]; intros [|y s] L; try discriminate L; [reflexivity|]. cbn [List.length app firstn]. unfold xorl in *. cbn [map2 firstn]. f_equal. apply IH. injection L as L. exact L. }
  rewrite Q, xorl_length, stream_length, Nat.min_id. apply xorl_cancel. rewrite stream_length. lia.
Qed.
Print Assumptions C124_truncate.
(** Two messages under one key and nonce show their difference. *)
Theorem C124_reuse : forall key nonce m n, bytes key -> bytes nonce -> zlen key = 32 -> zlen nonce = 12 -> List.length n = List.length m ->
  exists c d, encrypt_once key nonce m = Ok c /\ encrypt_once key nonce n = Ok d /\ xorl c d = xorl m n.
Proof.
  intros key nonce m n HK HN LK LN L. do 2 eexists. split; [apply enc_one; assumption|]. split; [apply enc_one; assumption|]. rewrite L. apply xorl_two; rewrite ?stream_length; congruence.
Qed.
Print Assumptions C124_reuse.

(** ** C124 *)
Theorem C124_refuted : exists key nonce m sent got out,
  bytes key /\ bytes nonce /\ bytes m /\ bytes got /\ zlen key = 32 /\ zlen nonce = 12 /\
  encrypt_once key nonce m = Ok sent /\ decrypt_in_pieces key nonce [got] = Ok [out] /\ got <> sent /\
  m = str "pay Bob 10" /\ out = str "pay Eve 99".
Proof.
  exists (map Z.of_nat (seq 0 32)), (repeat 9 12), (str "pay Bob 10").
  assert (E : exists sent, encrypt_once (map Z.of_nat (seq 0 32)) (repeat 9 12) (str "pay Bob 10") = Ok sent /\ bytesb sent = true /\
    sent <> flip (xorl (str "pay Bob 10") (str "pay Eve 99")) sent) by (eexists; split; [vm_compute; reflexivity | split; [vm_compute; reflexivity | vm_compute; discriminate]]).
  destruct E as (sent & E & B & N). exists sent, (flip (xorl (str "pay Bob 10") (str "pay Eve 99")) sent), (str "pay Eve 99").
  assert (HK : bytes (map Z.of_nat (seq 0 32))) by (apply bytesb_iff; vm_compute; reflexivity).
  assert (HN : bytes (repeat 9 12)) by (apply bytesb_iff; vm_compute; reflexivity).
  assert (HM : bytes (str "pay Bob 10")) by (apply bytesb_iff; vm_compute; reflexivity).
  destruct (C124_replace _ _ (str "pay Bob 10") (str "pay Eve 99") HK HN eq_refl eq_refl eq_refl) as (s & E2 & D). rewrite E in E2. injection E2 as <-.
  split; [exact HK|]. split; [exact HN|]. split; [exact HM|]. split; [|split; [reflexivity|]; split; [reflexivity|]; split; [exact E|]; split; [exact D|]; split; [intros Q; symmetry in Q; exact (N Q)|]; split; reflexivity].
  apply bytesb_iff in B. unfold flip. apply bytes_xorl; [exact B|]. apply bytesb_iff. vm_compute. reflexivity.
Qed.
Print Assumptions C124_refuted.
Corollary C124_undetected : ~ detects.
Proof. intros D. destruct C124_refuted as (k & n & m & s & g & o & H1 & H2 & H3 & H4 & H5 & H6 & H7 & H8 & N & _). exact (N (D k n m s g o H1 H2 H3 H4 H5 H6 H7 H8)). Qed.
Example C124_case : bytes (repeat 7 32) /\ zlen (repeat 7 32) = 32 /\ bytes (repeat 9 12) /\ zlen (repeat 9 12) = 12 /\
  exists c, encrypt_once (repeat 7 32) (repeat 9 12) [1; 2; 3] = Ok c /\ decrypt_in_pieces (repeat 7 32) (repeat 9 12) [flip [0; 128; 0] c] = Ok [[1; 130; 3]].
Proof. repeat match goal with |- _ /\ _ => split end; [apply bytesb_iff; reflexivity | reflexivity | apply bytesb_iff; reflexivity | reflexivity |]. eexists. split; [vm_compute; reflexivity|]. vm_compute. reflexivity. Qed.
