(** Proofs about the ChaCha20 model. *)
From Verif Require Import Base BaseP S_Word P_Word S_ChaCha M_ChaCha.
Open Scope Z_scope.

Local Notation wd := (word 32).
Definition words16 (s : list Z) : Prop := length s = 16%nat /\ Forall wd s.

Lemma Forall_upd {A} (P : A -> Prop) l i v : Forall P l -> P v -> Forall P (upd l i v).
Proof.
  intros H Hv; unfold upd; apply Forall_app; split; [apply Forall_firstn, H|].
  pose proof (Forall_skipn P i l H) as K; destruct (skipn i l); [constructor|].
  inversion_clear K; constructor; assumption.
Qed.
Lemma Forall_nth0 s i : Forall wd s -> wd (nth i s 0).
Proof.
  intros H; destruct (Nat.lt_ge_cases i (length s)) as [C|C].
  - apply (proj1 (Forall_nth wd s) H i 0 C).
  - rewrite nth_overflow by exact C; unfold word; lia.
Qed.

(** The same line with the specification's rotation. *)
Definition lineS (s : list Z) (p : nat * nat * nat * Z) : list Z :=
  let '(a, b, d, l) := p in
  let s := upd s a (addw 32 (nth a s 0) (nth b s 0)) in
  let s := upd s d (Z.lxor (nth d s 0) (nth a s 0)) in
  upd s d (rotl 32 l (nth d s 0)).

Lemma lineS_words s p : (let '(_, _, _, l) := p in 0 <= l <= 32) -> words16 s -> words16 (lineS s p).
Proof.
  destruct p as [[[a b] d] l]; intros Hl [HL HW]; unfold lineS; split; [rewrite !upd_length; exact HL|].
  assert (W1 : Forall wd (upd s a (addw 32 (nth a s 0) (nth b s 0)))).
  { apply Forall_upd; [exact HW|]. apply addw_word; lia. }
  assert (W2 : forall x, Forall wd x -> Forall wd (upd x d (Z.lxor (nth d x 0) (nth a x 0)))).
  { intros x Hx; apply Forall_upd; [exact Hx|]; apply lxor_word; try lia; apply Forall_nth0, Hx. }
  apply Forall_upd; [apply W2, W1|]. apply rotl_word; [lia|]. apply Forall_nth0, W2, W1.
Qed.

Lemma line_lineS s a b d l r : 0 <= l <= 32 -> r = 32 - l -> words16 s ->
  line s (a, b, d, l, r) = lineS s (a, b, d, l).
Proof.
  intros Hl -> [HL HW]; unfold line, lineS.
  change (w32 (nth a s 0 + nth b s 0)) with (addw 32 (nth a s 0) (nth b s 0)).
  assert (W1 : Forall wd (upd s a (addw 32 (nth a s 0) (nth b s 0)))).
  { apply Forall_upd; [exact HW|]. apply addw_word; lia. }
  set (s1 := upd s a _) in *.
  assert (W2 : Forall wd (upd s1 d (Z.lxor (nth d s1 0) (nth a s1 0)))).
  { apply Forall_upd; [exact W1|]; apply lxor_word; try lia; apply Forall_nth0, W1. }
  set (s2 := upd s1 d _) in *. f_equal.
  unfold w32; rewrite (rotl_lor 32 l) by (try lia; apply Forall_nth0, W2). reflexivity.
Qed.

Definition unr (p : nat * nat * nat * Z * Z) : nat * nat * nat * Z := let '(a, b, d, l, _) := p in (a, b, d, l).
Definition okline (p : nat * nat * nat * Z * Z) : bool := let '(_, _, _, l, r) := p in (0 <=? l) && (l <=? 32) && (r =? 32 - l).
Lemma fold_lines ls : forall s, forallb okline ls = true -> words16 s ->
  fold_left line ls s = fold_left lineS (map unr ls) s /\ words16 (fold_left line ls s).
Proof.
  induction ls as [|p ls IH]; intros s HO HW; [split; [reflexivity|exact HW]|].
  cbn [forallb] in HO; apply andb_true_iff in HO; destruct HO as [HP HO].
  destruct p as [[[[a b] d] l] r]; cbn [fold_left map unr].
  unfold okline in HP. rewrite line_lineS by (try lia; exact HW).
  apply IH; [exact HO|]. apply lineS_words; [lia | exact HW].
Qed.

Ltac sixteen s H :=
  do 16 (destruct s as [|? s]; [discriminate H|]); destruct s; [|discriminate H].

Lemma four x y z w s : In (x, y, z, w) [(0,4,8,12); (1,5,9,13); (2,6,10,14); (3,7,11,15); (0,5,10,15); (1,6,11,12); (2,7,8,13); (3,4,9,14)]%nat ->
  length s = 16%nat ->
  fold_left lineS [(x, y, w, 16); (z, w, y, 12); (x, y, w, 8); (z, w, y, 7)] s = quarterround x y z w s.
Proof.
  intros HI HL; sixteen s HL; cbn [In] in HI.
  repeat (destruct HI as [HI|HI]; [injection HI as <- <- <- <-; reflexivity|]); destruct HI.
Qed.

Lemma four_step x y z w s r : In (x, y, z, w) [(0,4,8,12); (1,5,9,13); (2,6,10,14); (3,7,11,15); (0,5,10,15); (1,6,11,12); (2,7,8,13); (3,4,9,14)]%nat ->
  length s = 16%nat ->
  fold_left lineS ((x, y, w, 16) :: (z, w, y, 12) :: (x, y, w, 8) :: (z, w, y, 7) :: r) s = fold_left lineS r (quarterround x y z w s).
Proof. intros HI HL; rewrite <- (four x y z w s HI HL); reflexivity. Qed.

Lemma quarterround_length x y z w s : length (quarterround x y z w s) = length s.
Proof.
  unfold quarterround; destruct (quarter _) as [[[a b] c] d]; rewrite !upd_length; reflexivity.
Qed.

Lemma pass_ok s : words16 s -> fold_left line lines s = inner_block s /\ words16 (inner_block s).
Proof.
  intros HW; destruct (fold_lines lines s eq_refl HW) as [E W]; rewrite E in W.
  assert (K : fold_left lineS (map unr lines) s = inner_block s); [|rewrite E, K in *; split; [reflexivity|exact W]].
  destruct HW as [HL _].
  unfold lines, L; cbn [map unr].
  do 8 (rewrite four_step; [|cbn [In]; tauto | rewrite ?quarterround_length; exact HL]).
  cbn [fold_left]; unfold inner_block; cbv zeta; reflexivity.
Qed.

Lemma iter_comm {A} (f : A -> A) n x : Nat.iter (S n) f x = Nat.iter n f (f x).
Proof. induction n as [|n IH]; [reflexivity|]. change (f (Nat.iter (S n) f x) = f (Nat.iter n f (f x))). rewrite IH; reflexivity. Qed.
Lemma loop_ok (f g : list Z -> list Z) (P : list Z -> Prop) : (forall s, P s -> f s = g s /\ P (g s)) ->
  forall n s, P s -> loop f n s = Nat.iter n g s /\ P (loop f n s).
Proof.
  intros H; induction n as [|n IH]; intros s HW; [split; [reflexivity | exact HW]|].
  rewrite iter_comm; cbn [loop]. destruct (H s HW) as [E W]; rewrite E.
  exact (IH _ W).
Qed.
Lemma rounds_ok n : forall s, words16 s -> rounds n s = Nat.iter n inner_block s /\ words16 (rounds n s).
Proof. exact (loop_ok _ inner_block words16 pass_ok n). Qed.

Lemma finish_ok s st : finish s st = concat (map (le_bytes 4) (map2 (addw 32) s st)).
Proof.
  unfold finish; f_equal; revert st; induction s as [|x s IH]; intros [|y st]; try reflexivity.
  cbn [map2 map]; f_equal; [|apply IH].
  change (w32 (x + y)) with (addw 32 x y); set (v := addw 32 x y).
  unfold w8; cbn [le_bytes]; rewrite !Z.shiftr_div_pow2 by lia; rewrite !Z.div_div by lia.
  rewrite Z.pow_0_r, Z.div_1_r; reflexivity.
Qed.

Lemma load_ok l i : bytes l -> load l i = le_val [nth i l 0; nth (i + 1) l 0; nth (i + 2) l 0; nth (i + 3) l 0].
Proof.
  intros H; unfold load, w32.
  pose proof (bytes_nth l i H) as B0; pose proof (bytes_nth l (i + 1) H) as B1;
  pose proof (bytes_nth l (i + 2) H) as B2; pose proof (bytes_nth l (i + 3) H) as B3.
  set (a := nth i l 0) in *; set (b := nth (i + 1) l 0) in *; set (c := nth (i + 2) l 0) in *; set (d := nth (i + 3) l 0) in *.
  unfold byte in *; cbn [le_val]; rewrite !Z.shiftl_mul_pow2 by lia.
  rewrite (Z.lor_comm a), (lor_disjoint_add 8 b a) by lia.
  rewrite (Z.lor_comm _ (c * 2 ^ 16)), (lor_disjoint_add 16) by lia.
  rewrite (Z.lor_comm _ (d * 2 ^ 24)), (lor_disjoint_add 24) by lia.
  rewrite Z.mod_small by lia; lia.
Qed.

(** The constructor's state is the RFC's initial state with counter 1. *)
Lemma initial_ok key nonce : bytes key -> bytes nonce -> zlen key = 32 -> zlen nonce = 12 ->
  [0x61707865; 0x3320646e; 0x79622d32; 0x6b206574;
   load key 0; load key 4; load key 8; load key 12; load key 16; load key 20; load key 24; load key 28;
   1; load nonce 0; load nonce 4; load nonce 8] = initial_state key 1 nonce.
Proof.
  intros HK HN LK LN; rewrite !load_ok by assumption.
  assert (LK' : length key = 32%nat) by (unfold zlen in LK; lia).
  assert (LN' : length nonce = 12%nat) by (unfold zlen in LN; lia).
  clear HK HN LK LN.
  do 32 (destruct key as [|? key]; [discriminate LK'|]); destruct key; [|discriminate LK'].
  do 12 (destruct nonce as [|? nonce]; [discriminate LN'|]); destruct nonce; [|discriminate LN'].
  reflexivity.
Qed.

Lemma le_val4_word l : bytes l -> (length l <= 4)%nat -> wd (le_val l).
Proof.
  intros H HL; pose proof (le_val_range l H) as R; unfold word.
  assert (256 ^ zlen l <= 256 ^ 4) by (apply Z.pow_le_mono_r; unfold zlen; lia). lia.
Qed.
Lemma chunks4_len (l : list Z) : forall c, In c (chunks 4 l) -> (length c <= 4)%nat.
Proof.
  unfold chunks; generalize (length l) as f; intros f; revert l; induction f as [|f IH]; intros l c HI; [destruct HI|].
  cbn [chunks_fuel] in HI; destruct l as [|x l]; [destruct HI|].
  destruct HI as [<-|HI]; [rewrite firstn_length; lia | eapply IH, HI].
Qed.
Lemma words_le_words l : bytes l -> Forall wd (words_le l).
Proof.
  intros H; unfold words_le; apply Forall_map, Forall_forall; intros c HI.
  apply le_val4_word; [|apply (chunks4_len l), HI].
  pose proof (Forall_chunks byte 4 l ltac:(lia) H) as F; rewrite Forall_forall in F; apply F, HI.
Qed.
Lemma chunks_fuel_count {A} n k : (0 < n)%nat -> forall f (l : list A), length l = (k * n)%nat -> (k <= f)%nat ->
  length (chunks_fuel f n l) = k.
Proof.
  intros Hn; induction k as [|k IH]; intros f l HL Hf.
  - destruct l; [destruct f; reflexivity | discriminate HL].
  - destruct f as [|f]; [lia|]. cbn [chunks_fuel]; destruct l as [|x l]; [cbn in HL; nia|].
    cbn [length]; f_equal; apply IH; [rewrite skipn_length; lia | lia].
Qed.
Lemma words_le_length l k : length l = (k * 4)%nat -> length (words_le l) = k.
Proof. intros H; unfold words_le; rewrite map_length; unfold chunks; apply chunks_fuel_count; lia. Qed.

Lemma initial_words key c nonce : bytes key -> bytes nonce -> zlen key = 32 -> zlen nonce = 12 -> wd c ->
  words16 (initial_state key c nonce).
Proof.
  intros HK HN LK LN HC; unfold initial_state, zlen in *; split.
  - rewrite !app_length, (words_le_length key 8), (words_le_length nonce 3) by lia; reflexivity.
  - repeat (apply Forall_app; split); auto using words_le_words.
    repeat constructor; unfold word; lia.
Qed.

Lemma upd12 key c nonce v : zlen key = 32 -> zlen nonce = 12 ->
  upd (initial_state key c nonce) 12 v = initial_state key v nonce /\ nth 12 (initial_state key c nonce) 0 = c.
Proof.
  intros LK LN; unfold initial_state, zlen in *.
  assert (L8 : length (words_le key) = 8%nat) by (apply words_le_length; lia).
  generalize dependent (words_le key); intros wk L8.
  do 8 (destruct wk as [|? wk]; [discriminate L8|]); destruct wk; [|discriminate L8].
  split; reflexivity.
Qed.

(** The object whose next keystream byte is number [k]. *)
Definition ctr (k : Z) : Z := (1 + k / 64) mod 2 ^ 32.
Definition at_pos (key nonce : list Z) (k : Z) : chacha :=
  {| state := initial_state key ((ctr k + 1) mod 2 ^ 32) nonce;
     buffer := chacha20_block key (ctr k) nonce;
     offset := k mod 64 |}.
(** Keystream byte number [k]. *)
Definition ks (key nonce : list Z) (k : Z) : Z := nth (Z.to_nat (k mod 64)) (chacha20_block key (ctr k) nonce) 0.

Section Obj.
  Variables key nonce : list Z.
  Hypothesis HK : bytes key.
  Hypothesis HN : bytes nonce.
  Hypothesis LK : zlen key = 32.
  Hypothesis LN : zlen nonce = 12.

  Lemma generate_ok c : wd c ->
    GenerateBlock (initial_state key c nonce)
    = {| state := initial_state key ((c + 1) mod 2 ^ 32) nonce; buffer := chacha20_block key c nonce; offset := 0 |}.
  Proof.
    intros HC; unfold GenerateBlock.
    destruct (upd12 key c nonce (w32 (nth 12 (initial_state key c nonce) 0 + 1)) LK LN) as [E1 E2].
    rewrite E1, E2, finish_ok.
    destruct (rounds_ok 10 (initial_state key c nonce)) as [E _]; [apply initial_words; assumption|].
    rewrite E; unfold chacha20_block, w32; cbv zeta; reflexivity.
  Qed.

  Lemma block_length c : wd c -> length (chacha20_block key c nonce) = 64%nat.
  Proof.
    intros HC; pose proof (initial_words key c nonce HK HN LK LN HC) as W.
    destruct (rounds_ok 10 _ W) as [E [L1 _]]; rewrite E in L1.
    unfold chacha20_block. destruct W as [L2 _].
    assert (G : forall l, length (concat (map (le_bytes 4) l)) = (4 * length l)%nat).
    { induction l as [|x l IH]; [reflexivity|]; cbn [map concat length]; rewrite app_length, IH, le_bytes_length; lia. }
    rewrite G, map2_length, L1, L2; reflexivity.
  Qed.
  Lemma block_bytes c : bytes (chacha20_block key c nonce).
  Proof.
    unfold chacha20_block; induction (map2 _ _ _) as [|x l IH]; [constructor|].
    cbn [map concat]; apply bytes_app; split; [apply le_bytes_bytes | exact IH].
  Qed.

  Lemma ctr_word k : wd (ctr k). Proof. apply mod_word; lia. Qed.

  Lemma new_ok : ChaCha20 key nonce = Ok (at_pos key nonce 0).
  Proof.
    unfold ChaCha20; rewrite LK, LN; cbn [Z.eqb Pos.eqb negb]; f_equal.
    rewrite initial_ok by assumption; rewrite generate_ok by (unfold word; lia); reflexivity.
  Qed.

  Lemma step_ok k x rest : 0 <= k ->
    Encrypt (at_pos key nonce k) (x :: rest)
    = (do r <- Encrypt (at_pos key nonce (k + 1)) rest; Ok (fst r, Z.lxor x (ks key nonce k) :: snd r)).
  Proof.
    intros Hk; cbn [Encrypt]. cbn [at_pos buffer offset state].
    pose proof (Z.mod_pos_bound k 64 ltac:(lia)) as R.
    assert (G : getz (chacha20_block key (ctr k) nonce) (k mod 64) = Ok (ks key nonce k)).
    { unfold getz, ks; replace (0 <=? k mod 64) with true by lia.
      rewrite (nth_error_nth' _ 0); [reflexivity|]. rewrite block_length by apply ctr_word; lia. }
    rewrite G; cbn [bind]; unfold w8; rewrite (Z.mod_small (k mod 64 + 1)) by lia.
    assert (E : (if k mod 64 + 1 =? 64 then GenerateBlock (initial_state key ((ctr k + 1) mod 2 ^ 32) nonce)
      else {| state := initial_state key ((ctr k + 1) mod 2 ^ 32) nonce;
              buffer := chacha20_block key (ctr k) nonce; offset := k mod 64 + 1 |}) = at_pos key nonce (k + 1));
      [|rewrite E; reflexivity].
    destruct (Z.eqb_spec (k mod 64 + 1) 64) as [C|C].
    - rewrite generate_ok by (apply mod_word; lia); unfold at_pos.
      assert (D : (k + 1) / 64 = k / 64 + 1) by (symmetry; apply Z.div_unique with 0; [lia|]; pose proof (Z.div_mod k 64); lia).
      assert (M : (k + 1) mod 64 = 0) by (symmetry; apply Z.mod_unique with (k / 64 + 1); [lia|]; pose proof (Z.div_mod k 64); lia).
      assert (CT : (ctr k + 1) mod 2 ^ 32 = ctr (k + 1)).
      { unfold ctr; rewrite D, Zplus_mod_idemp_l; f_equal; lia. }
      rewrite CT, M; reflexivity.
    - unfold at_pos.
      assert (D : (k + 1) / 64 = k / 64) by (symmetry; apply Z.div_unique with (k mod 64 + 1); [lia|]; pose proof (Z.div_mod k 64); lia).
      assert (M : (k + 1) mod 64 = k mod 64 + 1) by (symmetry; apply Z.mod_unique with (k / 64); [lia|]; pose proof (Z.div_mod k 64); lia).
      unfold ctr; rewrite D, M; reflexivity.
  Qed.

  Fixpoint stream (k : Z) (n : nat) : list Z :=
    match n with O => [] | S m => ks key nonce k :: stream (k + 1) m end.
  Lemma stream_length n : forall k, length (stream k n) = n.
  Proof. induction n as [|n IH]; intros k; [reflexivity|]; cbn [stream length]; rewrite IH; reflexivity. Qed.
  Lemma stream_app a b : forall k, stream k (a + b) = stream k a ++ stream (k + Z.of_nat a) b.
  Proof.
    induction a as [|a IH]; intros k; [cbn; f_equal; lia|]. cbn [Nat.add stream app]; f_equal; rewrite IH; do 2 f_equal; lia.
  Qed.
  Lemma stream_nth n : forall k i, (i < n)%nat -> nth i (stream k n) 0 = ks key nonce (k + Z.of_nat i).
  Proof.
    induction n as [|n IH]; intros k i Hi; [lia|]; destruct i; cbn [stream nth]; [f_equal; lia|].
    rewrite IH by lia; f_equal; lia.
  Qed.

  Lemma encrypt_ok data : forall k, 0 <= k ->
    Encrypt (at_pos key nonce k) data = Ok (at_pos key nonce (k + zlen data), xorl data (stream k (length data))).
  Proof.
    induction data as [|x data IH]; intros k Hk; [cbn; do 2 f_equal; unfold zlen; f_equal; cbn; lia|].
    rewrite step_ok, IH by lia; cbn [bind fst snd]; rewrite zlen_cons.
    do 2 f_equal. f_equal; lia.
  Qed.
  Lemma decrypt_encrypt data : forall c, Decrypt c data = Encrypt c data.
  Proof.
    induction data as [|x data IH]; intros c; [reflexivity|]; cbn [Decrypt Encrypt].
    destruct (getz _ _); cbn [bind]; [rewrite IH|..]; reflexivity.
  Qed.
  Lemma decrypt_ok data k : 0 <= k ->
    Decrypt (at_pos key nonce k) data = Ok (at_pos key nonce (k + zlen data), xorl data (stream k (length data))).
  Proof. rewrite decrypt_encrypt; apply encrypt_ok. Qed.

  (** Splitting a list by the lengths of pieces. *)
  Lemma encrypts_ok pieces : forall k, 0 <= k -> exists outs,
    Encrypts (at_pos key nonce k) pieces = Ok (at_pos key nonce (k + zlen (concat pieces)), outs)
    /\ concat outs = xorl (concat pieces) (stream k (length (concat pieces)))
    /\ map (@length Z) outs = map (@length Z) pieces.
  Proof.
    induction pieces as [|p pieces IH]; intros k Hk.
    - exists []; cbn; repeat split; do 2 f_equal; unfold zlen; f_equal; cbn; lia.
    - cbn [Encrypts concat]; rewrite encrypt_ok by exact Hk; cbn [bind fst snd].
      destruct (IH (k + zlen p) ltac:(pose proof (zlen_nonneg p); lia)) as (outs & E & C & Lg).
      rewrite E; cbn [bind fst snd]; eexists; split; [|split].
      + rewrite zlen_app, Z.add_assoc; reflexivity.
      + cbn [concat]; rewrite C, app_length, stream_app, xorl_app by (rewrite stream_length; reflexivity). reflexivity.
      + cbn [map]; f_equal; [|exact Lg]. rewrite xorl_length, stream_length; lia.
  Qed.
  Lemma decrypts_encrypts pieces : forall c, Decrypts c pieces = Encrypts c pieces.
  Proof.
    induction pieces as [|p pieces IH]; intros c; [reflexivity|]; cbn [Decrypts Encrypts]; rewrite decrypt_encrypt.
    destruct (Encrypt c p); cbn [bind]; [rewrite IH|..]; reflexivity.
  Qed.

  (** The stream by blocks. *)
  Lemma stream_block c : forall m, (m <= 64)%nat -> 0 <= c ->
    stream (64 * c) m = firstn m (chacha20_block key (ctr (64 * c)) nonce).
  Proof.
    intros m Hm Hc; apply nth_ext with 0 0.
    - rewrite stream_length, firstn_length, block_length by apply ctr_word; lia.
    - rewrite stream_length; intros i Hi; rewrite stream_nth by exact Hi.
      assert (M : (64 * c + Z.of_nat i) mod 64 = Z.of_nat i) by (symmetry; apply Z.mod_unique with c; lia).
      assert (D : (64 * c + Z.of_nat i) / 64 = c) by (symmetry; apply Z.div_unique with (Z.of_nat i); lia).
      unfold ks, ctr; rewrite M, D, Nat2Z.id; rewrite (Z.mul_comm 64 c), Z.div_mul by lia.
      rewrite <- (firstn_skipn m (chacha20_block _ _ _)) at 1. rewrite app_nth1; [reflexivity|].
      rewrite firstn_length, block_length by (apply mod_word; lia); lia.
  Qed.
  Lemma xorl_firstn a b : xorl a (firstn (length a) b) = xorl a b.
  Proof.
    revert b; induction a as [|x a IH]; intros [|y b]; try reflexivity.
    cbn [length firstn]; unfold xorl in *; cbn [map2]; f_equal; apply IH.
  Qed.

  Lemma blocks_ok : forall f data c, (length data <= f)%nat -> 0 <= c -> zlen data <= 64 * (2 ^ 32 - 1 - c) ->
    xorl data (stream (64 * c) (length data)) = encrypt_blocks key (1 + c) nonce (chunks_fuel f 64 data).
  Proof.
    induction f as [|f IH]; intros data c Hf Hc Hb.
    - destruct data; [reflexivity | cbn in Hf; lia].
    - destruct data as [|x data']; [reflexivity|]; set (data := x :: data') in *.
      change (chunks_fuel (S f) 64 data) with (firstn 64 data :: chunks_fuel f 64 (skipn 64 data)); cbn [encrypt_blocks].
      assert (CT : ctr (64 * c) = 1 + c).
      { unfold ctr; rewrite Z.mul_comm, Z.div_mul by lia; apply Z.mod_small.
        assert (0 < zlen data) by (unfold data; rewrite zlen_cons; pose proof (zlen_nonneg data'); lia). lia. }
      destruct (Nat.le_gt_cases (length data) 64) as [C|C].
      + rewrite stream_block by lia; rewrite CT.
        rewrite (firstn_all2 data), (skipn_all2 data) by lia.
        replace (chunks_fuel f 64 []) with (@nil (list Z)) by (destruct f; reflexivity).
        cbn [encrypt_blocks]; rewrite app_nil_r; apply xorl_firstn.
      + rewrite <- (firstn_skipn 64 data) at 1.
        replace (length data) with (64 + length (skipn 64 data))%nat by (rewrite skipn_length; lia).
        rewrite stream_app, xorl_app by (rewrite stream_length, firstn_length; lia).
        f_equal.
        * rewrite stream_block by lia; rewrite CT.
          replace 64%nat with (length (firstn 64 data)) at 2 by (rewrite firstn_length; lia). apply xorl_firstn.
        * replace (64 * c + Z.of_nat 64) with (64 * (c + 1)) by lia.
          replace (1 + c + 1) with (1 + (c + 1)) by lia. apply IH; [rewrite skipn_length; cbn [length] in Hf; lia|lia|].
          assert (E : zlen data = 64 + zlen (skipn 64 data)) by (unfold zlen; rewrite skipn_length; lia). lia.
  Qed.
  Lemma rfc_ok data : zlen data <= (2 ^ 32 - 1) * 64 ->
    xorl data (stream 0 (length data)) = chacha20_encrypt key 1 nonce data.
  Proof.
    intros H; unfold chacha20_encrypt, chunks.
    apply (blocks_ok (length data) data 0); lia.
  Qed.
End Obj.
