From Verif Require Import Base BaseP S_Word P_Word S_MD M_MD P_MD P_MDS M_MD5 S_MD5.

Definition q4 := (Z * Z * Z * Z)%type.
Definition q4_word (q : q4) : Prop :=
  let '(a, b, c, d) := q in word 32 a /\ word 32 b /\ word 32 c /\ word 32 d.

(** The k-th little endian word as computed by the code. *)
Lemma le_word_code b0 b1 b2 b3 : byte b0 -> byte b1 -> byte b2 -> byte b3 ->
  Z.lor (Z.lor (Z.lor b0 (Z.shiftl b1 8)) (Z.shiftl b2 16)) (Z.shiftl b3 24) = le_val [b0; b1; b2; b3].
Proof.
  unfold byte; intros; cbn [le_val].
  rewrite !Z.shiftl_mul_pow2 by lia.
  rewrite (Z.lor_comm b0), lor_disjoint_add by lia.
  rewrite (Z.lor_comm (b1 * _ + b0)), lor_disjoint_add by lia.
  rewrite (Z.lor_comm (b2 * _ + _)), lor_disjoint_add by lia.
  lia.
Qed.

Lemma nth_kk_lt i : (nth i kk 0 < 16)%nat.
Proof.
  destruct (Nat.lt_ge_cases i 64) as [H|H].
  - assert (E : forallb (fun x => Nat.ltb x 16) kk = true) by reflexivity.
    rewrite forallb_forall in E; apply Nat.ltb_lt, E, nth_In; exact H.
  - rewrite nth_overflow by exact H; lia.
Qed.

Lemma tables i : (i < 64)%nat ->
  nth i md5_K 0 = nth i T 0 /\ nth i md5_s 0 = nth i ss 0 /\ 0 <= nth i ss 0 <= 32 /\
  (if Nat.ltb i 16 then i else if Nat.ltb i 32 then Nat.modulo (5 * i + 1) 16
   else if Nat.ltb i 48 then Nat.modulo (3 * i + 5) 16 else Nat.modulo (7 * i) 16) = nth i kk 0%nat.
Proof.
  intros H.
  assert (E : forallb (fun i => (nth i md5_K 0 =? nth i T 0) && (nth i md5_s 0 =? nth i ss 0)
     && (0 <=? nth i ss 0) && (nth i ss 0 <=? 32)
     && Nat.eqb (if Nat.ltb i 16 then i else if Nat.ltb i 32 then Nat.modulo (5 * i + 1) 16
   else if Nat.ltb i 48 then Nat.modulo (3 * i + 5) 16 else Nat.modulo (7 * i) 16) (nth i kk 0%nat)) (seq 0 64) = true)
    by (vm_compute; reflexivity).
  rewrite forallb_forall in E; specialize (E i ltac:(apply in_seq; lia)).
  rewrite !andb_true_iff, !Z.eqb_eq, !Z.leb_le, Nat.eqb_eq in E; tauto.
Qed.

Lemma md5_rotate_spec v n : word 32 v -> 0 <= n <= 32 -> md5_rotate v n = rotl 32 n v.
Proof. intros; apply rotl_lxor; assumption. Qed.

Lemma fn_word i a b c : word 32 a -> word 32 b -> word 32 c -> word 32 (fn i a b c).
Proof.
  intros Ha Hb Hc; unfold fn, F, G, H, I; repeat destruct (Nat.ltb _ _);
    repeat first [apply lor_word | apply land_word | apply lxor_word | apply compl_word]; try lia; assumption.
Qed.

Lemma op_word X i a b c d : word 32 (op X i a b c d).
Proof. unfold op; apply addw_word; lia. Qed.

Lemma md5_round_spec M a b c d i : length M = 64%nat -> bytes M -> (i < 64)%nat ->
  q4_word (a, b, c, d) ->
  md5_round M (a, b, c, d) i = (d, op (words_le 4 M) i a b c d, b, c).
Proof.
  intros LM HM Hi (Wa & Wb & Wc & Wd); destruct (tables i Hi) as (EK & Es & Rs & Ek).
  assert (Eg : (if Nat.ltb i 16 then (Z.lor (Z.land b c) (Z.land (not32 b) d), i)
    else if Nat.ltb i 32 then (Z.lor (Z.land d b) (Z.land (not32 d) c), Nat.modulo (5 * i + 1) 16)
    else if Nat.ltb i 48 then (Z.lxor (Z.lxor b c) d, Nat.modulo (3 * i + 5) 16)
    else (Z.lxor c (Z.lor b (not32 d)), Nat.modulo (7 * i) 16)) = (fn i b c d, nth i kk 0%nat)).
  { rewrite <- Ek; unfold fn, F, G, H, I; destruct (Nat.ltb i 16); [reflexivity|].
    destruct (Nat.ltb i 32); [f_equal; rewrite (Z.land_comm d b), (Z.land_comm c); reflexivity|].
    destruct (Nat.ltb i 48); reflexivity. }
  unfold md5_round; rewrite Eg; clear Eg Ek.
  pose proof (nth_kk_lt i) as Hk; set (k := nth i kk 0%nat) in *.
  rewrite le_word_code by (apply bytes_nth; assumption).
  assert (EX : nth k (words_le 4 M) 0 = le_val [nth (4 * k + 0) M 0; nth (4 * k + 1) M 0; nth (4 * k + 2) M 0; nth (4 * k + 3) M 0]).
  { rewrite words_le_nth by lia; rewrite (Nat.mul_comm k 4); reflexivity. }
  rewrite <- EX, EK, Es; unfold op; fold k.
  rewrite md5_rotate_spec by (try assumption; unfold word, w32; apply Z.mod_pos_bound; lia).
  assert (ES : w32 (fn i b c d + a + nth i T 0 + nth k (words_le 4 M) 0)
     = addw 32 (addw 32 (addw 32 a (fn i b c d)) (nth k (words_le 4 M) 0)) (nth i T 0)).
  { rewrite addw4; unfold w32; f_equal; lia. }
  rewrite ES; reflexivity.
Qed.

(** The code renames registers instead of rotating the operations. *)
Definition view (i : nat) (r : q4) : q4 :=
  let '(A, B, C, D) := r in
  match (i mod 4)%nat with
  | 0%nat => (A, B, C, D) | 1%nat => (D, A, B, C) | 2%nat => (C, D, A, B) | _ => (B, C, D, A)
  end.

Lemma mod4_cases i : (i mod 4 = 0 /\ S i mod 4 = 1 \/ i mod 4 = 1 /\ S i mod 4 = 2 \/ i mod 4 = 2 /\ S i mod 4 = 3 \/ i mod 4 = 3 /\ S i mod 4 = 0)%nat.
Proof. lia. Qed.

Lemma step_sim M i r : length M = 64%nat -> bytes M -> (i < 64)%nat -> q4_word r ->
  md5_round M (view i r) i = view (S i) (step (words_le 4 M) r i) /\ q4_word (step (words_le 4 M) r i).
Proof.
  intros LM HM Hi; destruct r as [[[A B] C] D]; intros (WA & WB & WC & WD); unfold view, step.
  destruct (mod4_cases i) as [[-> ->]|[[-> ->]|[[-> ->]|[-> ->]]]];
    (split; [rewrite md5_round_spec by (try assumption; unfold q4_word; tauto); reflexivity
            | pose proof op_word; unfold q4_word; auto]).
Qed.

Lemma rounds_sim M n : length M = 64%nat -> bytes M -> forall i r, (i + n <= 64)%nat -> q4_word r ->
  fold_left (md5_round M) (seq i n) (view i r) = view (i + n) (fold_left (step (words_le 4 M)) (seq i n) r)
  /\ q4_word (fold_left (step (words_le 4 M)) (seq i n) r).
Proof.
  intros LM HM; induction n as [|n IH]; intros i r Hi Hr.
  - cbn [seq fold_left]; rewrite Nat.add_0_r; auto.
  - cbn [seq fold_left]; destruct (step_sim M i r LM HM ltac:(lia) Hr) as [E W]; rewrite E.
    rewrite <- Nat.add_succ_comm; apply IH; [lia | assumption].
Qed.

Definition R4 (l : list Z) (q : q4) : Prop :=
  q4_word q /\ let '(a, b, c, d) := q in l = [a; b; c; d].

Lemma md5_pc_sim M l q : length M = 64%nat -> bytes M -> R4 l q ->
  R4 (md5_processChunk M l) (block q M).
Proof.
  intros LM HM; destruct q as [[[A B] C] D]; intros [HW ->].
  unfold md5_processChunk, block.
  destruct (rounds_sim M 64 LM HM 0 (A, B, C, D) ltac:(lia) HW) as [E W].
  change (view 0 (A, B, C, D)) with (A, B, C, D) in E; rewrite E.
  destruct (fold_left (step (words_le 4 M)) (seq 0 64) (A, B, C, D)) as [[[A' B'] C'] D'].
  change (view (0 + 64) (A', B', C', D')) with (A', B', C', D'); cbv iota beta.
  split; [repeat split; apply addw_word; lia | reflexivity].
Qed.

Lemma md5_blocks_sim blocks : Forall (fun M => length M = 64%nat /\ bytes M) blocks ->
  forall l q, R4 l q -> R4 (fold_left (fun w c => md5_processChunk c w) blocks l) (fold_left block blocks q).
Proof.
  intros HF; apply fold_left_sim; intros a b c Hin HR.
  rewrite Forall_forall in HF; destruct (HF c Hin); apply md5_pc_sim; assumption.
Qed.

Lemma md5_B : 0 < 64 /\ (64 | 2 ^ 64). Proof. split; [lia|]; exists (2 ^ 58); reflexivity. Qed.

Definition md5_iv : list Z := [0x67452301; 0xefcdab89; 0x98badcfe; 0x10325476].
Lemma md5_iv_R : R4 md5_iv init.
Proof. unfold R4, md5_iv, init, q4_word, word; vm_compute; repeat split; congruence. Qed.

Lemma md5_comp m : bytes m -> zlen m < 2 ^ 61 ->
  R4 (comp 64 md5_processChunk md5_iv (m ++ cpad 64 8 false m))
     (fold_left block (chunks 64 (pad_le 64 8 m)) init).
Proof.
  intros HB Hm; rewrite pad_le_code by (assumption || lia).
  apply md5_blocks_sim; [|apply md5_iv_R].
  destruct (pad_le_length 64 8 m) as [k Hk]; [lia|].
  apply (blocks_ok 64 _ k); [lia | exact Hk | apply pad_le_bytes; assumption].
Qed.

Definition md5_inv := Inv 64 md5_processChunk md5_iv.

Lemma md5_digest_ok s m : md5_inv s m -> bytes m -> zlen m < 2 ^ 61 -> md5_digest s = Ok (md5 m).
Proof.
  intros HI HB Hm; destruct md5_B as [P D]; unfold md5_digest.
  rewrite (md_final_ok 64 _ P D 8 false ltac:(lia) _ _ _ HI); cbn [bind]; f_equal.
  pose proof (md5_comp m HB Hm) as [_ R]; unfold md5.
  destruct (fold_left block (chunks 64 (pad_le 64 8 m)) init) as [[[A B] C] D0]; rewrite R.
  rewrite out_le4; cbn [flat_map]; rewrite app_nil_r; reflexivity.
Qed.
