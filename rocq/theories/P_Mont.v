(** Proofs about the Montgomery arithmetic. *)
From Coq Require Import Znumtheory.
From Verif Require Import Base BaseP S_Bignum M_Bignum P_Bignum M_Mont.
Open Scope Z_scope.
Local Notation B := (2 ^ 32).

(** ** Inversion modulo powers of two *)
Lemma newton_step a r M : (M | r * a - 1) -> (M * M | r * (2 - r * a) * a - 1).
Proof. intros [k E]; exists (- (k * k)). replace (r * a) with (k * M + 1) by lia. replace (r * (2 - (k * M + 1)) * a) with (r * a * (1 - k * M)) by ring. replace (r * a) with (k * M + 1) by lia. ring. Qed.
Lemma divide_mod M a b : 0 < M -> (M | a - b) -> a mod M = b mod M.
Proof. intros HM [k E]; replace a with (b + k * M) by lia. apply Z.mod_add; lia. Qed.
Lemma mod_divide M a b : 0 < M -> a mod M = b mod M -> (M | a - b).
Proof. intros HM E; exists (a / M - b / M). rewrite (Z.div_mod a M), (Z.div_mod b M) at 1 by lia. rewrite E; ring. Qed.
Lemma divide_mod_l M a b : 0 < M -> (M | a mod M - b) <-> (M | a - b).
Proof.
  intros HM; split; intros [k E]; rewrite (Z.mod_eq a M) in * by lia; [exists (k + a / M) | exists (k - a / M)]; lia.
Qed.
Lemma newton32_ok a r M : (M | r * a - 1) -> (M * M | 2 ^ 32) -> (M * M | newton32 a r * a - 1).
Proof.
  intros H D. assert (E : (2 ^ 32 | newton32 a r - r * (2 - r * a))).
  { unfold newton32, w32. apply divide_mod_l; [lia|].
    assert (E1 : (2 ^ 32 | (2 - (r * a) mod 2 ^ 32) mod 2 ^ 32 - (2 - r * a))).
    { apply divide_mod_l; [lia|]. exists ((r * a) / 2 ^ 32). rewrite Z.mod_eq by lia. lia. }
    destruct E1 as [k E1]. exists (r * k). rewrite <- Z.mul_assoc, <- E1. ring. }
  replace (newton32 a r * a - 1) with ((newton32 a r - r * (2 - r * a)) * a + (r * (2 - r * a) * a - 1)) by ring.
  apply Z.divide_add_r; [apply Z.divide_mul_l; eapply Z.divide_trans; eassumption | apply newton_step, H].
Qed.
Lemma inverse_word_ok a : 0 <= a < B -> a mod 2 = 1 -> 0 <= inverse_word a < B /\ (B | inverse_word a * a - 1).
Proof.
  intros Ha O; split; [apply Z.mod_pos_bound; lia|]. unfold inverse_word.
  assert (D0 : (2 ^ 2 | a mod 4 * a - 1)).
  { pose proof (Z.mod_pos_bound a 4 ltac:(lia)) as M. rewrite (Z.div_mod a 4) at 2 by lia.
    assert (a mod 4 = 1 \/ a mod 4 = 3) as [E|E].
    { rewrite (Z.div_mod a 4) in O by lia. replace (4 * (a / 4) + a mod 4) with (a mod 4 + 2 * (a / 4) * 2) in O by ring.
      rewrite Z.mod_add in O by lia. assert (C : a mod 4 = 0 \/ a mod 4 = 1 \/ a mod 4 = 2 \/ a mod 4 = 3) by lia.
      destruct C as [C|[C|[C|C]]]; rewrite C in O; try discriminate O; auto. }
    - rewrite E; exists (a / 4); change (2 ^ 2) with 4; ring.
    - rewrite E; exists (3 * (a / 4) + 2); change (2 ^ 2) with 4; ring. }
  apply (newton32_ok _ _ (2 ^ 16)); [|exists 1; reflexivity].
  apply (newton32_ok _ _ (2 ^ 8)); [|exists (2 ^ 16); reflexivity].
  apply (newton32_ok _ _ (2 ^ 4)); [|exists (2 ^ 24); reflexivity].
  apply (newton32_ok _ _ (2 ^ 2)); [exact D0 | exists (2 ^ 28); reflexivity].
Qed.

Notation Rn n := (2 ^ (32 * Z.of_nat n)).
Lemma Rn_mod2 n x : (0 < n)%nat -> (x mod Rn n) mod 2 = x mod 2.
Proof.
  intros H. destruct n as [|n]; [lia|]. assert (E : Rn (S n) = 2 * (2 ^ 31 * 2 ^ (32 * Z.of_nat n))) by (rewrite pow_S; ring).
  rewrite E, Z.rem_mul_r by (pose proof (pow_pos n); lia). rewrite (Z.mul_comm 2), Z.mod_add, Z.mod_mod by lia; reflexivity.
Qed.

Lemma inverse_rec_ok : forall fuel n A, (n <= fuel)%nat -> (0 < n)%nat -> bn n A -> val A mod 2 = 1 ->
  exists r, inverse_rec fuel n A = Ok r /\ bn n r /\ (Rn n | val r * val A - 1).
Proof.
  induction fuel as [|fuel IH]; intros n A HF Hn HA HO; [lia|]. cbn [inverse_rec].
  destruct (Nat.leb_spec n 1) as [C|C].
  - assert (n = 1%nat) by lia; subst n. destruct (bn_S _ _ HA) as (a & r & -> & Ha & Hr). apply bn_nil in Hr; subst r.
    cbn [getz nth_error Z.leb Z.compare Z.to_nat bind]. rewrite val_cons in *. cbn [val] in *. rewrite Z.mul_0_r, Z.add_0_r in *.
    destruct (inverse_word_ok a Ha HO) as [R1 R2]. destruct (of_u32_ok 1 (inverse_word a) R1 ltac:(lia)) as [W V].
    eexists; split; [reflexivity|]; split; [exact W|]. rewrite V. exact R2.
  - set (h := Nat.div (n + 1) 2). assert (Hh : (h < n /\ 0 < h /\ n <= h + h)%nat).
    { unfold h. pose proof (Nat.div_mod (n + 1) 2 ltac:(lia)). pose proof (Nat.mod_upper_bound (n + 1) 2 ltac:(lia)). lia. }
    destruct (slice_ok n h 0 A HA ltac:(lia)) as (low & E & HL & VL). change (32 * Z.of_nat 0) with 0 in *. rewrite E; cbn [bind]; clear E.
    rewrite Z.pow_0_r, Z.div_1_r in VL.
    destruct (IH h low ltac:(lia) ltac:(lia) HL) as (r0 & E & H0 & V0); [rewrite VL, Rn_mod2 by lia; exact HO|]. rewrite E; cbn [bind]; clear E.
    destruct (convert_up h (bits_of n) n r0 H0 (nwords_mult _) ltac:(lia)) as [Hr Vr].
    set (r := convert (bits_of h) (bits_of n) r0) in *.
    destruct (mul_ok n r A Hr HA) as (ra & E & Hra & Vra). rewrite E; cbn [bind]; clear E.
    destruct (slice_ok (n + n) n 0 ra Hra ltac:(lia)) as (ra0 & E & Hra0 & Vra0). change (32 * Z.of_nat 0) with 0 in *. rewrite E; cbn [bind]; clear E.
    rewrite Z.pow_0_r, Z.div_1_r in Vra0.
    destruct (of_u32_ok n 2 ltac:(lia) ltac:(lia)) as [H2 V2].
    destruct (sub_val n _ ra0 H2 Hra0) as (Hs & Vs & _). set (s := snd (sub (of_u32 (bits_of n) 2) ra0)) in *.
    destruct (mul_ok n r s Hr Hs) as (p & E & Hp & Vp). rewrite E; cbn [bind]; clear E.
    destruct (convert_ok (n + n) n p Hp) as [Hc Vc]. replace (bits_of (n + n)) with (2 * bits_of n) in * by lia.
    eexists; split; [reflexivity|]; split; [exact Hc|]. rewrite Vc, Vp, Vr, Vs, V2.
    pose proof (pow_pos n) as P. 
    (* modulo 2^(32n) the result is r (2 - r A) *)
    assert (Q : (Rn n | val r0 * (2 - val r0 * val A) * val A - 1)).
    { apply Z.divide_trans with (Rn h * Rn h).
      - rewrite <- Z.pow_add_r by lia. exists (2 ^ (32 * Z.of_nat h + 32 * Z.of_nat h - 32 * Z.of_nat n)). rewrite <- Z.pow_add_r by lia; f_equal; lia.
      - apply newton_step. rewrite VL in V0. destruct V0 as [k V0]. exists (k + val r0 * (val A / Rn h)).
        pose proof (Z.div_mod (val A) (Rn h) ltac:(pose proof (pow_pos h); lia)) as DM. rewrite DM at 1. lia. }
    rewrite Vra0, Vra, Vr. destruct Q as [k Q].
    rewrite (Z.mod_eq (val r0 * val A)) by lia. set (k1 := val r0 * val A / Rn n).
    rewrite (Z.mod_eq (2 - _)) by lia. set (k2 := (2 - _) / Rn n).
    rewrite Z.mod_eq by lia. set (k3 := _ / Rn n).
    exists (k + val r0 * (k1 - k2) * val A - k3 * val A).
    transitivity (val r0 * (2 - val r0 * val A) * val A - 1 + (val r0 * (k1 - k2) * val A - k3 * val A) * Rn n); [ring | rewrite Q; ring].
Qed.
Lemma inverse_ok n A : (0 < n)%nat -> bn n A -> val A mod 2 = 1 ->
  exists r, inverse n A = Ok r /\ bn n r /\ (Rn n | val r * val A - 1).
Proof. intros; apply inverse_rec_ok; auto. Qed.

(** ** REDC *)
Lemma odd_coprime n x : x mod 2 = 1 -> rel_prime x (Rn n).
Proof.
  intros H. apply rel_prime_sym. replace (32 * Z.of_nat n) with (Z.of_nat (32 * n)) by lia.
  induction (32 * n)%nat as [|k IH].
  - change (2 ^ Z.of_nat 0) with 1; apply rel_prime_1.
  - replace (Z.of_nat (S k)) with (1 + Z.of_nat k) by lia. rewrite Z.pow_add_r, Z.pow_1_r by lia. apply rel_prime_sym, rel_prime_mult; apply rel_prime_sym; [|exact IH].
    apply bezout_rel_prime; apply (Bezout_intro _ _ _ (- (x / 2)) 1). pose proof (Z.div_mod x 2 ltac:(lia)); lia.
Qed.
Lemma cancel_R n N a b : N mod 2 = 1 -> (N | a * Rn n - b * Rn n) -> (N | a - b).
Proof.
  intros H D; rewrite <- Z.mul_sub_distr_r, Z.mul_comm in D. apply Gauss with (Rn n); [exact D | apply odd_coprime, H].
Qed.

Lemma quotient_bound R v m N q : 0 < R -> 0 <= v < R * R -> 0 <= m < R -> 0 <= N < R -> v + m * N = q * R -> 0 <= q < R + N.
Proof.
  intros HR Hv Hm HN E. assert (0 <= m * N <= R * N) by nia. split.
  - apply Z.mul_nonneg_cancel_r with R; lia.
  - apply Z.mul_lt_mono_pos_r with R; lia.
Qed.

(** The value REDC computes: q = (v + m N) / R with m below R, brought below R by one
    subtraction of N when it does not fit. *)
Lemma redc_ok n N Ninv v : (0 < n)%nat -> bn n N -> bn n Ninv -> bn (n + n) v -> (Rn n | val N * val Ninv + 1) ->
  exists t m, redc n N Ninv v = Ok t /\ bn n t /\ 0 <= m < Rn n /\
    (let q := (val v + m * val N) / Rn n in
     q * Rn n = val v + m * val N /\ val t = if q <? Rn n then q else q - val N).
Proof.
  intros Hn HN HI Hv HD. pose proof (pow_pos n) as P. unfold redc.
  destruct (slice_ok (n + n) n 0 v Hv ltac:(lia)) as (v0 & E & H0 & V0). change (32 * Z.of_nat 0) with 0 in *. rewrite E; cbn [bind]; clear E.
  rewrite Z.pow_0_r, Z.div_1_r in V0.
  destruct (mul_ok n v0 Ninv H0 HI) as (p & E & Hp & Vp). rewrite E; cbn [bind]; clear E.
  destruct (slice_ok (n + n) n 0 p Hp ltac:(lia)) as (m & E & Hm & Vm). change (32 * Z.of_nat 0) with 0 in *. rewrite E; cbn [bind]; clear E.
  rewrite Z.pow_0_r, Z.div_1_r in Vm.
  destruct (mul_ok n m N Hm HN) as (mn & E & Hmn & Vmn). rewrite E; cbn [bind]; clear E.
  destruct (add_val (n + n) v mn Hv Hmn) as (Hs & Vs & Cs). destruct (add v mn) as [carry s]; cbn [fst snd] in *.
  destruct (slice_ok (n + n) n n s Hs ltac:(lia)) as (t & E & Ht & Vt). rewrite E; cbn [bind]; clear E.
  destruct (sub_val n t N Ht HN) as (Hd & Vd & _).
  exists (if carry then snd (sub t N) else t), (val m).
  split; [reflexivity|]. split; [destruct carry; assumption|]. split; [apply bn_range, Hm|].
  assert (D : (Rn n | val v + val m * val N)).
  { rewrite Vm, Vp, V0. destruct HD as [k HD].
    pose proof (Z.div_mod (val v mod Rn n * val Ninv) (Rn n) ltac:(lia)) as D1. pose proof (Z.div_mod (val v) (Rn n) ltac:(lia)) as D2.
    set (a := val v mod Rn n) in *. exists (val v / Rn n + a * k - (a * val Ninv / Rn n) * val N).
    rewrite D2 at 1. replace ((a * val Ninv) mod Rn n) with (a * val Ninv - Rn n * (a * val Ninv / Rn n)) by lia.
    replace (a * val Ninv * val N) with (a * (k * Rn n - 1)) by (rewrite <- HD; ring). replace ((a * val Ninv - Rn n * (a * val Ninv / Rn n)) * val N) with (a * (val N * val Ninv) - Rn n * (a * val Ninv / Rn n) * val N) by ring.
    replace (val N * val Ninv) with (k * Rn n - 1) by lia. ring. }
  destruct D as [q D]. assert (Q : (val v + val m * val N) / Rn n = q) by (rewrite D; apply Z.div_mul; lia).
  cbv zeta; rewrite Q; split; [symmetry; exact D|].
  assert (R2 : Rn (n + n) = Rn n * Rn n) by (rewrite <- Z.pow_add_r by lia; f_equal; lia).
  rewrite R2 in *. rewrite Vmn in *. pose proof (bn_range _ _ Hv) as Bv. rewrite R2 in Bv. pose proof (bn_range _ _ Hm) as Bm. pose proof (bn_range _ _ HN) as BN.
  assert (Vt' : val t = q mod Rn n).
  { rewrite Vt, Vs, D. rewrite Z.mul_mod_distr_r by lia. rewrite Z.div_mul by lia. apply Z.mod_mod; lia. }
  pose proof (quotient_bound _ _ _ _ _ P Bv Bm BN D) as Hq.
  rewrite Cs, D. destruct (Z.leb_spec (Rn n * Rn n) (q * Rn n)) as [C|C].
  - destruct (Z.ltb_spec q (Rn n)) as [C2|C2]; [apply Z.mul_le_mono_pos_r in C; lia|]. rewrite Vd, Vt'.
    replace (q mod Rn n) with (q - Rn n); [|rewrite (Z.mod_eq q) by lia; replace (q / Rn n) with 1; [lia | apply Z.div_unique with (q - Rn n); lia]].
    replace (q - Rn n - val N) with (q - val N + (-1) * Rn n) by ring. rewrite Z.mod_add by lia. apply Z.mod_small; lia.
  - destruct (Z.ltb_spec q (Rn n)) as [C2|C2]; [|apply Z.mul_lt_mono_pos_r in C; lia]. rewrite Vt'; apply Z.mod_small; lia.
Qed.

(** The same, as a congruence. *)
Lemma redc_cong n N Ninv v : (0 < n)%nat -> bn n N -> bn n Ninv -> bn (n + n) v -> (Rn n | val N * val Ninv + 1) ->
  exists t, redc n N Ninv v = Ok t /\ bn n t /\ (val N | val t * Rn n - val v).
Proof.
  intros Hn HN HI Hv HD. destruct (redc_ok n N Ninv v Hn HN HI Hv HD) as (t & m & E & Ht & Hm & Q & V).
  exists t; split; [exact E|]; split; [exact Ht|]. rewrite V. set (q := (val v + m * val N) / Rn n) in *.
  destruct (q <? Rn n); [exists m | exists (m - Rn n)]; lia.
Qed.

(** ** The state *)
(** What the constructor establishes. *)
Record good (n : nat) (st : mstate) (N : Z) : Prop := {
  g_n : (0 < n)%nat; g_N : bn n (mN st); g_val : val (mN st) = N; g_odd : N mod 2 = 1;
  g_Ninv : bn n (mNinv st); g_inv : (Rn n | N * val (mNinv st) + 1);
  g_R2 : bn n (mR2 st); g_R2v : val (mR2 st) = (Rn n * Rn n) mod N;
  g_R1 : bn n (mR1 st); g_R1v : (N | val (mR1 st) - Rn n);
  g_R3 : bn n (mR3 st); g_R3v : (N | val (mR3 st) - Rn n * Rn n * Rn n) }.

Lemma mont_state_ok n N : (0 < n)%nat -> bn n N -> val N mod 2 = 1 ->
  exists st, mont_state n N = Ok st /\ mN st = N /\ good n st (val N).
Proof.
  intros Hn HN HO. pose proof (pow_pos n) as P. unfold mont_state.
  destruct (inverse_ok n N Hn HN HO) as (inv & E & Hi & Vi). rewrite E; cbn [bind]; clear E.
  destruct (neg_ok n inv Hi) as [Hng Vng]. destruct (of_u32_ok n 1 ltac:(lia) Hn) as [H1 V1].
  destruct (add_val n _ _ Hng H1) as (HI & VI & _). set (Ninv := snd (add (neg inv) (of_u32 (bits_of n) 1))) in *.
  assert (GI : (Rn n | val N * val Ninv + 1)).
  { rewrite VI, V1, Vng. destruct Vi as [k Vi]. rewrite Z.mod_eq by lia.
    set (c := (Rn n - 1 - val inv + 1) / Rn n). exists (val N * (1 - c) - k).
    replace (val N * (Rn n - 1 - val inv + 1 - Rn n * c) + 1) with (val N * (1 - c) * Rn n - (val inv * val N - 1)) by ring. rewrite Vi; ring. }
  assert (NW : nwords (2 * bits_of n + 1) = Z.of_nat (S (n + n))).
  { unfold nwords; symmetry; apply Z.div_unique with 0; lia. }
  unfold zero_words; rewrite NW, Nat2Z.id.
  destruct (set_bit_ok (S (n + n)) (repeat 0 (S (n + n))) (2 * bits_of n) (bn_repeat0 _) ltac:(lia)) as (Rw & E & HR & VR).
  rewrite E; cbn [bind]; clear E. rewrite val_repeat0, Z.lor_0_l in VR.
  pose proof (bn_range _ _ HN) as BN. assert (NP : 0 < val N) by (destruct (Z.eq_dec (val N) 0) as [Z0|]; [rewrite Z0 in HO; discriminate HO | lia]).
  destruct (naive_reduce_ok n (S (n + n)) (2 * bits_of n + 1) Rw N HR HN NW ltac:(lia) ltac:(lia) NP) as (R2 & E & H2 & V2).
  { intros s0 (j & -> & L & _). rewrite VR. replace (2 * bits_of n) with (32 * Z.of_nat (S (n + n) - 1)) by lia. pose proof (pow_pos (S (n + n) - 1)). lia. }
  rewrite E; cbn [bind]; clear E. rewrite VR in V2. replace (2 ^ (2 * bits_of n)) with (Rn n * Rn n) in V2 by (rewrite <- Z.pow_add_r by lia; f_equal; lia).
  destruct (convert_up n (2 * bits_of n) (n + n) R2 H2 ltac:(replace (2 * bits_of n) with (bits_of (n + n)) by lia; apply nwords_mult) ltac:(lia)) as [HC VC].
  destruct (redc_cong n N Ninv _ Hn HN HI HC GI) as (R1 & E & HR1 & VR1). rewrite E; cbn [bind]; clear E.
  destruct (mul_ok n R2 R2 H2 H2) as (RR & E & HRR & VRR). rewrite E; cbn [bind]; clear E.
  destruct (redc_cong n N Ninv _ Hn HN HI HRR GI) as (R3 & E & HR3 & VR3). rewrite E; cbn [bind]; clear E.
  eexists; split; [reflexivity|]; split; [reflexivity|].
  assert (D2 : (val N | val R2 - Rn n * Rn n)) by (rewrite V2; apply divide_mod_l; [exact NP | exists 0; ring]).
  constructor; cbn [mN mNinv mR1 mR2 mR3]; auto.
  - apply (cancel_R n); [exact HO|]. rewrite VC in VR1.
    replace (val R1 * Rn n - Rn n * Rn n) with (val R1 * Rn n - val R2 + (val R2 - Rn n * Rn n)) by ring. apply Z.divide_add_r; assumption.
  - apply (cancel_R n); [exact HO|]. rewrite VRR in VR3.
    replace (val R3 * Rn n - Rn n * Rn n * Rn n * Rn n) with (val R3 * Rn n - val R2 * val R2 + (val R2 - Rn n * Rn n) * (val R2 + Rn n * Rn n)) by ring.
    apply Z.divide_add_r; [exact VR3 | apply Z.divide_mul_l, D2].
Qed.

(** ** Values *)
(** The Montgomery value [x] stands for [a] modulo N. *)
Definition rep (n : nat) (N : Z) (x : list Z) (a : Z) : Prop := bn n x /\ (N | val x - a * Rn n).

Lemma mont_of_ok n st N x : good n st N -> bn n x -> exists t, mont_of n st x = Ok t /\ rep n N t (val x).
Proof.
  intros G Hx; unfold mont_of. destruct (mul_ok n x _ Hx (g_R2 _ _ _ G)) as (p & E & Hp & Vp). rewrite E; cbn [bind]; clear E.
  pose proof (g_inv _ _ _ G) as GI; rewrite <- (g_val _ _ _ G) in GI.
  destruct (redc_cong n _ _ p (g_n _ _ _ G) (g_N _ _ _ G) (g_Ninv _ _ _ G) Hp GI) as (t & E & Ht & Vt).
  exists t; split; [exact E|]; split; [exact Ht|]. rewrite (g_val _ _ _ G) in Vt. apply (cancel_R n); [apply (g_odd _ _ _ G)|].
  rewrite Vp in Vt. assert (NP : 0 < N).
  { pose proof (bn_range _ _ (g_N _ _ _ G)) as BN; rewrite (g_val _ _ _ G) in BN. pose proof (g_odd _ _ _ G) as O. destruct (Z.eq_dec N 0) as [Z0|]; [rewrite Z0 in O; discriminate O | lia]. }
  assert (D2 : (N | val (mR2 st) - Rn n * Rn n)) by (rewrite (g_R2v _ _ _ G); apply divide_mod_l; [exact NP | exists 0; ring]).
  replace (val t * Rn n - val x * Rn n * Rn n) with (val t * Rn n - val x * val (mR2 st) + (val (mR2 st) - Rn n * Rn n) * val x) by ring.
  apply Z.divide_add_r; [exact Vt | apply Z.divide_mul_l, D2].
Qed.
Lemma mont_mul_ok n st N x y a b : good n st N -> rep n N x a -> rep n N y b -> exists t, mont_mul n st x y = Ok t /\ rep n N t (a * b).
Proof.
  intros G [Hx Dx] [Hy Dy]; unfold mont_mul. destruct (mul_ok n y x Hy Hx) as (p & E & Hp & Vp). rewrite E; cbn [bind]; clear E.
  pose proof (g_inv _ _ _ G) as GI; rewrite <- (g_val _ _ _ G) in GI.
  destruct (redc_cong n _ _ p (g_n _ _ _ G) (g_N _ _ _ G) (g_Ninv _ _ _ G) Hp GI) as (t & E & Ht & Vt).
  exists t; split; [exact E|]; split; [exact Ht|]. rewrite (g_val _ _ _ G) in Vt. apply (cancel_R n); [apply (g_odd _ _ _ G)|].
  rewrite Vp in Vt.
  replace (val t * Rn n - a * b * Rn n * Rn n) with (val t * Rn n - val y * val x + ((val x - a * Rn n) * val y + (val y - b * Rn n) * (a * Rn n))) by ring.
  apply Z.divide_add_r; [exact Vt|]. apply Z.divide_add_r; apply Z.divide_mul_l; assumption.
Qed.
Lemma mont_square_ok n st N x a : good n st N -> rep n N x a -> exists t, mont_square n st x = Ok t /\ rep n N t (a * a).
Proof. intros G H; exact (mont_mul_ok n st N x x a a G H H). Qed.
Lemma rep_ext n N x a b : (N | a - b) -> rep n N x a -> rep n N x b.
Proof.
  intros D [H Dx]; split; [exact H|]. replace (val x - b * Rn n) with (val x - a * Rn n + (a - b) * Rn n) by ring.
  apply Z.divide_add_r; [exact Dx | apply Z.divide_mul_l, D].
Qed.
Lemma good_pos n st N : good n st N -> 0 < N < Rn n.
Proof.
  intros G. pose proof (bn_range _ _ (g_N _ _ _ G)) as BN; rewrite (g_val _ _ _ G) in BN. pose proof (g_odd _ _ _ G) as O.
  destruct (Z.eq_dec N 0) as [Z0|]; [rewrite Z0 in O; discriminate O | lia].
Qed.

(** Reading a value back: the remainder, except that N may be returned for 0. *)
Lemma mont_out_ok n st N x a : good n st N -> rep n N x a ->
  exists t, mont_out n st x = Ok t /\ bn n t /\ val t mod N = a mod N /\ 0 <= val t <= N /\
    (val t = N <-> a mod N = 0 /\ val x <> 0).
Proof.
  intros G [Hx Dx]. pose proof (good_pos _ _ _ G) as NP. pose proof (pow_pos n) as P. pose proof (bn_range _ _ Hx) as Bx. unfold mont_out.
  destruct (convert_up n (2 * bits_of n) (n + n) x Hx ltac:(replace (2 * bits_of n) with (bits_of (n + n)) by lia; apply nwords_mult) ltac:(lia)) as [HC VC].
  pose proof (g_inv _ _ _ G) as GI; rewrite <- (g_val _ _ _ G) in GI.
  destruct (redc_ok n _ _ _ (g_n _ _ _ G) (g_N _ _ _ G) (g_Ninv _ _ _ G) HC GI) as (t & m & E & Ht & Hm & Q & V).
  rewrite VC, (g_val _ _ _ G) in *. set (q := (val x + m * N) / Rn n) in *.
  assert (Hq : 0 <= q <= N) by nia. replace (q <? Rn n) with true in V by lia.
  assert (DA : (N | q - a)).
  { apply (cancel_R n); [apply (g_odd _ _ _ G)|]. rewrite Q. replace (val x + m * N - a * Rn n) with (val x - a * Rn n + m * N) by ring.
    apply Z.divide_add_r; [exact Dx | exists m; ring]. }
  exists t; split; [exact E|]; split; [exact Ht|]. rewrite V. split; [apply divide_mod; [lia | exact DA]|]. split; [exact Hq|].
  apply divide_mod in DA; [|lia]. rewrite <- DA. split; intros H.
  - rewrite H, Z.mod_same by lia. split; [reflexivity|]. intros X0. rewrite X0 in *. nia.
  - destruct H as [H X0]. assert (q = 0 \/ q = N) as [Q0|Q0]; [|rewrite Q0 in Q; nia | exact Q0].
    destruct (Z.eq_dec q N); [right; assumption | left; rewrite Z.mod_small in H by lia; exact H].
Qed.

(** ** Exponentiation *)
Lemma pow_split b d : 0 <= d -> b ^ (d mod 2) * (b * b) ^ (d / 2) = b ^ d.
Proof.
  intros Hd. assert (0 <= d / 2) by (apply Z.div_pos; lia). pose proof (Z.mod_pos_bound d 2 ltac:(lia)).
  rewrite (Z.div_mod d 2) at 3 by lia. rewrite Z.pow_add_r, Z.pow_mul_r, Z.pow_2_r by lia. ring.
Qed.
Lemma exp_loop_ok n st N e : good n st N -> bn n e -> forall count i v b one acc base,
  0 <= i -> i + Z.of_nat count = bits_of n -> rep n N v acc -> rep n N b base -> rep n N one 1 ->
  exists t, exp_loop count i n st e v b one = Ok t /\ rep n N t (acc * base ^ (val e / 2 ^ i)).
Proof.
  intros G He; induction count as [|k IH]; intros i v b one acc base Hi Hc Hv Hb Ho; cbn [exp_loop].
  - exists v; split; [reflexivity|]. rewrite Z.div_small, Z.pow_0_r, Z.mul_1_r; [exact Hv|].
    replace i with (bits_of n) by lia. apply bn_range, He.
  - rewrite (bit_ok n e i He) by lia; cbn [bind].
    destruct (mont_mul_ok n st N v (if Z.b2z (Z.testbit (val e) i) =? 0 then one else b) acc (base ^ ((val e / 2 ^ i) mod 2)) G Hv) as (v' & E & Hv').
    { rewrite Z.testbit_spec' by lia. destruct (Z.mod_pos_bound (val e / 2 ^ i) 2 ltac:(lia)) as [M1 M2].
      destruct (Z.eqb_spec ((val e / 2 ^ i) mod 2) 0) as [C|C]; [rewrite C; exact Ho|].
      replace ((val e / 2 ^ i) mod 2) with 1 by lia. rewrite Z.pow_1_r; exact Hb. }
    rewrite E; cbn [bind]; clear E. destruct (mont_square_ok n st N b base G Hb) as (b' & E & Hb'). rewrite E; cbn [bind]; clear E.
    destruct (IH (i + 1) v' b' one _ _ ltac:(lia) ltac:(lia) Hv' Hb' Ho) as (t & E & Ht). exists t; split; [exact E|].
    replace (acc * base ^ (val e / 2 ^ i)) with (acc * base ^ ((val e / 2 ^ i) mod 2) * (base * base) ^ (val e / 2 ^ (i + 1))); [exact Ht|].
    rewrite <- Z.mul_assoc; f_equal. rewrite (Z.pow_add_r 2), Z.pow_1_r, <- Z.div_div by (try lia; apply Z.pow_pos_nonneg; lia).
    apply pow_split, Z.div_pos; [apply bn_range in He; lia | apply Z.pow_pos_nonneg; lia].
Qed.
Lemma mont_exp_ok n st N x a e : good n st N -> rep n N x a -> bn n e ->
  exists t, mont_exp n st x e = Ok t /\ rep n N t (a ^ val e).
Proof.
  intros G Hx He; unfold mont_exp. destruct (of_u32_ok n 1 ltac:(lia) (g_n _ _ _ G)) as [H1 V1].
  destruct (mont_of_ok n st N _ G H1) as (one & E & Ho). rewrite E; cbn [bind]; clear E. rewrite V1 in Ho.
  destruct (exp_loop_ok n st N e G He (Z.to_nat (bits_of n)) 0 one x one 1 a ltac:(lia) ltac:(lia) Ho Hx Ho) as (t & E & Ht).
  exists t; split; [exact E|]. rewrite Z.pow_0_r, Z.div_1_r, Z.mul_1_l in Ht. exact Ht.
Qed.
Lemma squarings_ok n st N : good n st N -> forall count x a, rep n N x a ->
  exists t, squarings count n st x = Ok t /\ rep n N t (a ^ (2 ^ Z.of_nat count)).
Proof.
  intros G; induction count as [|k IH]; intros x a Hx; cbn [squarings].
  - exists x; split; [reflexivity|]. change (2 ^ Z.of_nat 0) with 1; rewrite Z.pow_1_r; exact Hx.
  - destruct (mont_square_ok n st N x a G Hx) as (b & E & Hb). rewrite E; cbn [bind]; clear E.
    destruct (IH b _ Hb) as (t & E & Ht). exists t; split; [exact E|].
    replace (Z.of_nat (S k)) with (1 + Z.of_nat k) by lia. rewrite Z.pow_add_r, Z.pow_1_r, Z.pow_mul_r, Z.pow_2_r by lia. exact Ht.
Qed.
Lemma mont_exp32_ok n st N x a e : good n st N -> rep n N x a ->
  exists t, mont_exp32 n st x e = Ok t /\ rep n N t (a ^ 65537).
Proof.
  intros G Hx; unfold mont_exp32. destruct (of_u32_ok n 1 ltac:(lia) (g_n _ _ _ G)) as [H1 V1].
  destruct (mont_of_ok n st N _ G H1) as (one & E & Ho). rewrite E; cbn [bind]; clear E.
  destruct (squarings_ok n st N G 16 x a Hx) as (b & E & Hb). rewrite E; cbn [bind]; clear E.
  destruct (mont_mul_ok n st N b x _ _ G Hb Hx) as (t & E & Ht). exists t; split; [exact E|].
  replace (a ^ 65537) with (a ^ (2 ^ Z.of_nat 16) * a); [exact Ht|].
  change (2 ^ Z.of_nat 16) with 65536; change 65537 with (65536 + 1). rewrite (Z.pow_add_r a 65536 1) by lia. rewrite Z.pow_1_r; reflexivity.
Qed.
