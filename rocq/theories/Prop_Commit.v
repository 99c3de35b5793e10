(** Properties C116 and C117: GCM messages that two keys accept, and forgeries after two messages
    under one key and IV. *)
From Verif Require Import Base BaseP M_GCM S_GCM M_AES S_AES P_AES P_GF2 P_GField P_GHM P_GCM P_HKDF P_Forge Prop_GCM Prop_Forge.
Open Scope Z_scope.

(** ** The field of GHASH: inverses and square roots *)
Notation gm := (gmul 128 R).
Notation elem := (rng 128).
Definition square (a : Z) : Z := gm a a.
Definition root (a : Z) : Z := Nat.iter 127 square a.
(** a^2 a^4 a^8 ... a^(2^127). *)
Fixpoint squares (n : nat) (a : Z) : Z := match n with O => one 128 | S k => gm (square a) (squares k (square a)) end.
Definition inverse (a : Z) : Z := squares 127 a.
Notation full := (2 ^ Z.of_nat 128 - 1).
Lemma square_gx k : 0 <= k -> square (gx 128 R k) = gx 128 R (2 * k).
Proof. intros H. unfold square. rewrite <- gx_add by (exact w128 || exact R_top || lia). f_equal. lia. Qed.
Lemma iter_gx n : forall k, 0 <= k -> Nat.iter n square (gx 128 R k) = gx 128 R (2 ^ Z.of_nat n * k).
Proof. induction n as [|n IH]; intros k H; [change (2 ^ Z.of_nat 0) with 1; rewrite Z.mul_1_l; reflexivity|]. cbn [Nat.iter nat_rect]. change (square (Nat.iter n square (gx 128 R k)) = gx 128 R (2 ^ Z.of_nat (S n) * k)). rewrite IH, square_gx by (try apply Z.mul_nonneg_nonneg; try apply Z.pow_nonneg; lia). f_equal. rewrite Nat2Z.inj_succ, Z.pow_succ_r by lia. ring. Qed.
Lemma squares_gx n : forall k, 0 <= k -> squares n (gx 128 R k) = gx 128 R ((2 ^ Z.of_nat (S n) - 2) * k).
Proof.
  induction n as [|n IH]; intros k H; [replace ((2 ^ Z.of_nat 1 - 2) * k) with 0 by (change (2 ^ Z.of_nat 1) with 2; lia); reflexivity|].
  assert (2 <= 2 ^ Z.of_nat (S n)) by (rewrite Nat2Z.inj_succ, Z.pow_succ_r by lia; pose proof (Z.pow_pos_nonneg 2 (Z.of_nat n)); lia).
  cbn [squares]. rewrite square_gx, IH, <- gx_add by (exact w128 || exact R_top || nia). f_equal. rewrite (Nat2Z.inj_succ (S n)), Z.pow_succ_r by lia. ring.
Qed.
Lemma gx_full k : 0 <= k -> gx 128 R (k * full) = one 128.
Proof. intros H. apply (gx_mult 128 R w128 R_top); [exact H | reflexivity || lia | exact x_full]. Qed.
Lemma nonzero_power a : elem a -> a <> 0 -> exists k, 0 <= k /\ a = gx 128 R k.
Proof. intros Ha D. destruct (all_powers 128 R w128 R_top x_order a Ha D) as (k & Hk & ->). exists k. split; [lia | reflexivity]. Qed.
Lemma inverse_ok a : elem a -> a <> 0 -> elem (inverse a) /\ gm a (inverse a) = one 128.
Proof.
  intros Ha D. destruct (nonzero_power a Ha D) as (k & Hk & ->). unfold inverse. rewrite squares_gx by exact Hk. split; [apply gx_rng; exact w128 || exact R_top|].
  rewrite <- gx_add; [|exact w128 | exact R_top | exact Hk | apply Z.mul_nonneg_nonneg; [discriminate | exact Hk]]. rewrite <- (gx_full k Hk). f_equal. change (Z.of_nat 128) with (Z.of_nat (S 127)). ring.
Qed.
Lemma root_ok a : elem a -> root (square a) = a.
Proof.
  intros Ha. destruct (Z.eq_dec a 0) as [->|D]; [vm_compute; reflexivity|]. destruct (nonzero_power a Ha D) as (k & Hk & ->). unfold root. rewrite square_gx, iter_gx by lia.
  replace (2 ^ Z.of_nat 127 * (2 * k)) with (k + k * full) by (change (2 ^ Z.of_nat 128) with (2 ^ Z.of_nat 127 * 2); ring). rewrite gx_add by (exact w128 || exact R_top || exact Hk || (apply Z.mul_nonneg_nonneg; [exact Hk | discriminate])).
  rewrite gx_full by exact Hk. apply gmul_one_r; [exact w128 | exact Ha].
Qed.
Lemma elem_block b : block b -> elem (be_val b). Proof. intros B. apply (block_range _ B). Qed.
Lemma lxor_zero a b : Z.lxor a b = 0 -> a = b. Proof. apply Z.lxor_eq. Qed.

Lemma balance a b r1 m1 r2 m2 : Z.lxor a b = Z.lxor (Z.lxor r1 m1) (Z.lxor r2 m2) -> Z.lxor (Z.lxor a r1) m1 = Z.lxor (Z.lxor b r2) m2.
Proof.
  intros E. apply Z.bits_inj'. intros n _. apply (f_equal (fun z => Z.testbit z n)) in E. rewrite !Z.lxor_spec in *.
  destruct (Z.testbit a n), (Z.testbit b n), (Z.testbit r1 n), (Z.testbit m1 n), (Z.testbit r2 n), (Z.testbit m2 n); cbn in *; congruence.
Qed.

(** ** The last block of a message in its GHASH *)
Definition filled (b : list Z) : list Z := b ++ pad16 b.
Lemma filled_length b : 0 < zlen b <= 16 -> length (filled b) = 16%nat.
Proof. intros L. unfold filled, pad16. rewrite app_length, repeat_length. destruct (Z.eq_dec (zlen b) 16) as [E|E]; [rewrite E; change (- (16) mod 16) with 0; unfold zlen in E; lia|]. replace (- zlen b mod 16) with (16 - zlen b) by (apply Z.mod_unique_pos with (q := -1); lia). unfold zlen in *. lia. Qed.
Lemma pad16_whole a b k : length a = (k * 16)%nat -> pad16 (a ++ b) = pad16 b.
Proof. intros L. unfold pad16. rewrite zlen_app. replace (- (zlen a + zlen b)) with (- zlen b + (- Z.of_nat k) * 16) by (unfold zlen; lia). rewrite Z_mod_plus_full. reflexivity. Qed.
Lemma input_last A C0 b k : length C0 = (k * 16)%nat -> 0 < zlen b <= 16 -> exists X m, X = A ++ pad16 A ++ C0 /\ length X = (m * 16)%nat /\ coeffs (ghash_input A (C0 ++ b)) = coeffs X ++ [be_val (filled b); be_val (lengths A (C0 ++ b))].
Proof.
  intros L Lb. destruct (pad16_length A) as [k1 L1]. exists (A ++ pad16 A ++ C0), (k1 + k)%nat. split; [reflexivity|]. split; [rewrite app_assoc, app_length, L1, L; lia|].
  unfold ghash_input, coeffs. rewrite (pad16_whole C0 b k L). replace (A ++ pad16 A ++ (C0 ++ b) ++ pad16 b ++ lengths A (C0 ++ b)) with ((A ++ pad16 A ++ C0) ++ filled b ++ lengths A (C0 ++ b)) by (unfold filled; rewrite <- !app_assoc; reflexivity).
  rewrite (chunks_app_mult 16 (k1 + k)) by (try lia; rewrite app_assoc, app_length, L1, L; lia). rewrite map_app. f_equal. rewrite chunks_app_full by (try lia; apply filled_length; exact Lb).
  rewrite <- (app_nil_r (lengths A (C0 ++ b))) at 1. rewrite chunks_app_full by (try lia; apply lengths_length). reflexivity.
Qed.
(** What the blocks before the last one, and the lengths, contribute. *)
Definition rest (H : Z) (A C0 b : list Z) : Z := Z.lxor (gm (gh 128 R H 0 (coeffs (A ++ pad16 A ++ C0))) (square H)) (gm (be_val (lengths A (C0 ++ b))) H).
Lemma lengths_elem A C : elem (be_val (lengths A C)).
Proof. apply elem_block. split; [apply lengths_length | unfold lengths; apply bytes_app; split; apply be_bytes_bytes]. Qed.
Lemma gh_rng H l : elem H -> Forall elem l -> elem (gh 128 R H 0 l).
Proof.
  intros HH F. assert (Q : forall y, elem y -> elem (gh 128 R H y l)); [|apply Q, rng_0, w128]. clear - HH F. induction F as [|b l Hb F IH]; intros y Hy; [exact Hy|]. rewrite gh_cons. apply IH, gmul_rng; [exact w128 | exact R_top | exact HH].
Qed.
Lemma ghash_last H A C0 b k : elem H -> bytes A -> bytes C0 -> bytes b -> length C0 = (k * 16)%nat -> 0 < zlen b <= 16 ->
  elem (rest H A C0 b) /\ GHASH H (ghash_input A (C0 ++ b)) = Z.lxor (gm (be_val (filled b)) (square H)) (rest H A C0 b).
Proof.
  intros HH BA BC Bb L Lb. destruct (input_last A C0 b k L Lb) as (X & m & EX & LX & E). assert (FX : Forall elem (coeffs X)) by (apply (coeffs_rng X m); [rewrite EX; apply bytes_app; split; [exact BA|]; apply bytes_app; split; [apply pad16_bytes | exact BC] | exact LX]).
  pose proof (gh_rng H (coeffs X) HH FX) as HY. assert (HB : elem (be_val (filled b))) by (apply elem_block; split; [apply filled_length, Lb | unfold filled; apply bytes_app; split; [exact Bb | apply pad16_bytes]]).
  pose proof (lengths_elem A (C0 ++ b)) as HL. assert (HS : elem (square H)) by (apply gmul_rng; [exact w128 | exact R_top | exact HH]).
  split. { unfold rest. rewrite <- EX. apply rng_lxor; [exact w128 | apply gmul_rng; [exact w128 | exact R_top | exact HS] | apply gmul_rng; [exact w128 | exact R_top | exact HH]]. }
  rewrite GHASH_gh, E. unfold rest. rewrite <- EX. unfold gh at 1. rewrite fold_left_app. cbn [fold_left]. fold (gh 128 R H 0 (coeffs X)). set (Y := gh 128 R H 0 (coeffs X)) in *. set (B := be_val (filled b)) in *. set (l := be_val (lengths A (C0 ++ b))) in *.
  rewrite !gmul_lxor_l. unfold square. rewrite !gmul_assoc by (exact w128 || exact R_top || assumption). rewrite (Z.lxor_comm (gm (gm Y H) H)), Z.lxor_assoc. reflexivity.
Qed.

(** ** Accepting, in numbers *)
Lemma accepts_iff E g C A T : cipher E -> usable E g -> bytes C -> bytes A -> zlen C < 2 ^ 61 -> zlen A < 2 ^ 61 -> block T ->
  be_val T = Z.lxor (GHASH (be_val (E (repeat 0 16))) (ghash_input A C)) (be_val (E (mblock g))) -> accepts E g C A T.
Proof.
  intros HE U BC BA LC LA [LT BT] EV. pose proof (Decrypt_ok E g C A T HE U BC BA LC LA) as D. cbv zeta in D. unfold accepts. rewrite D. do 3 eexists. do 4 f_equal.
  pose proof (mblock_block E g U) as Bc. pose proof (HE _ Bc) as [LE BE]. assert (Z0 : block (repeat 0 16)) by (split; [reflexivity | apply bytes_repeat; unfold byte; lia]).
  destruct (ghash_ok _ _ C A (mirror_block _ (HE _ Z0)) BC BA LC LA) as [_ Rg]. set (Hv := GHASH _ _) in *. pose proof (store_bytes Hv Rg) as [LS BS].
  apply list_eqb_eq. assert (EG : GCTR E (mblock g) (be_bytes 16 Hv) = xorl (be_bytes 16 Hv) (E (mblock g))) by (unfold GCTR; rewrite <- (app_nil_r (be_bytes 16 Hv)) at 1; rewrite gctr_app by apply LS; cbn; rewrite app_nil_r; reflexivity).
  rewrite EG. clear EG.
  assert (EX : be_val (xorl (be_bytes 16 Hv) (E (mblock g))) = be_val T) by (rewrite be_val_xorl, EV by (split; assumption); f_equal; apply be_val_bytes; exact Rg).
  rewrite <- (be_bytes_val T BT), <- (be_bytes_val (xorl (be_bytes 16 Hv) (E (mblock g)))) by (apply bytes_xorl; assumption). rewrite EX, LT, xorl_length, LS, LE. reflexivity.
Qed.
Lemma tag_elem E g C A : cipher E -> usable E g -> bytes C -> bytes A -> zlen C < 2 ^ 61 -> zlen A < 2 ^ 61 -> elem (Z.lxor (GHASH (be_val (E (repeat 0 16))) (ghash_input A C)) (be_val (E (mblock g)))).
Proof.
  intros HE U BC BA LC LA. assert (Z0 : block (repeat 0 16)) by (split; [reflexivity | apply bytes_repeat; unfold byte; lia]). destruct (ghash_ok _ _ C A (mirror_block _ (HE _ Z0)) BC BA LC LA) as [_ Rg].
  apply rng_lxor; [exact w128 | exact Rg | apply elem_block, HE, (mblock_block E g U)].
Qed.
Lemma block_of v : elem v -> block (be_bytes 16 v) /\ be_val (be_bytes 16 v) = v.
Proof. intros R. split; [apply store_bytes; exact R | apply be_val_bytes; exact R]. Qed.

(** ** C116: a message that two keys accept *)
(** Under two keys with different hash subkeys, whatever the IVs, the histories of the objects, the
    associated data and the chosen beginning of the ciphertext (whole blocks): there is a last
    block and a tag that both objects accept. *)
Theorem C116_commitment_refuted : forall E1 E2 iv1 iv2 cs1 cs2 g1 g2 g1' g2' us1 us2 A C0 k, blockfun E1 -> blockfun E2 -> E1 (repeat 0 16) <> E2 (repeat 0 16) ->
  iv_ok iv1 -> iv_ok iv2 -> Forall call_ok cs1 -> Forall call_ok cs2 -> gcm_init E1 iv1 = Ok g1 -> gcm_init E2 iv2 = Ok g2 -> run_calls E1 g1 cs1 = Ok (g1', us1) -> run_calls E2 g2 cs2 = Ok (g2', us2) ->
  bytes A -> bytes C0 -> length C0 = (k * 16)%nat -> zlen C0 < 2 ^ 61 - 16 -> zlen A < 2 ^ 61 ->
  exists B T, block B /\ block T /\ accepts E1 g1' (C0 ++ B) A T /\ accepts E2 g2' (C0 ++ B) A T.
Proof.
  intros E1 E2 iv1 iv2 cs1 cs2 g1 g2 g1' g2' us1 us2 A C0 k HB1 HB2 ND HI1 HI2 F1 F2 Eg1 Eg2 R1 R2 BA BC LC ZC ZA. apply blockfun_cipher in HB1, HB2.
  assert (U : forall E iv cs g g' us, cipher E -> iv_ok iv -> Forall call_ok cs -> gcm_init E iv = Ok g -> run_calls E g cs = Ok (g', us) -> usable E g').
  { clear. intros E iv cs g g' us HE HI F Eg Rn. destruct (init_ok E iv HE HI) as (g0 & E0 & U & _). rewrite Eg in E0. injection E0 as <-. pose proof (run_ok E HE cs g U F) as R2. rewrite Rn in R2. injection R2 as -> _. apply (nexts_ok E (length cs) g U). }
  pose proof (U E1 iv1 cs1 g1 g1' us1 HB1 HI1 F1 Eg1 R1) as U1. pose proof (U E2 iv2 cs2 g2 g2' us2 HB2 HI2 F2 Eg2 R2) as U2. clear U.
  assert (Z0 : block (repeat 0 16)) by (split; [reflexivity | apply bytes_repeat; unfold byte; lia]). pose proof (elem_block _ (HB1 _ Z0)) as H1. pose proof (elem_block _ (HB2 _ Z0)) as H2.
  set (h1 := be_val (E1 (repeat 0 16))) in *. set (h2 := be_val (E2 (repeat 0 16))) in *.
  assert (NH : h1 <> h2). { intros E. apply ND. pose proof (HB1 _ Z0) as [L1 B1]. pose proof (HB2 _ Z0) as [L2 B2]. rewrite <- (be_bytes_val _ B1), <- (be_bytes_val _ B2), L1, L2. unfold h1, h2 in E. rewrite E. reflexivity. }
  assert (HS : forall h, elem h -> elem (square h)) by (intros h Hh; apply gmul_rng; [exact w128 | exact R_top | exact Hh]).
  set (D := Z.lxor (square h1) (square h2)). assert (HD : elem D) by (apply rng_lxor; [exact w128 | apply HS, H1 | apply HS, H2]).
  assert (D0 : D <> 0).
  { intros E. apply lxor_zero in E. apply (f_equal root) in E. rewrite !root_ok in E by assumption. exact (NH E). }
  destruct (inverse_ok D HD D0) as [HV EV].
  pose proof (fun b (Bb : block b) => ghash_last h1 A C0 b k H1 BA BC (proj2 Bb) LC ltac:(unfold zlen; rewrite (proj1 Bb); split; [reflexivity | discriminate])) as G1.
  pose proof (fun b (Bb : block b) => ghash_last h2 A C0 b k H2 BA BC (proj2 Bb) LC ltac:(unfold zlen; rewrite (proj1 Bb); split; [reflexivity | discriminate])) as G2.
  assert (RS : forall h b, block b -> rest h A C0 b = rest h A C0 (repeat 0 16)). { intros h b [Lb _]. unfold rest, lengths. rewrite !zlen_app. unfold zlen. rewrite Lb, repeat_length. reflexivity. }
  pose proof (elem_block _ (HB1 _ (mblock_block E1 g1' U1))) as M1. pose proof (elem_block _ (HB2 _ (mblock_block E2 g2' U2))) as M2. set (m1 := be_val (E1 (mblock g1'))) in *. set (m2 := be_val (E2 (mblock g2'))) in *.
  set (r1 := rest h1 A C0 (repeat 0 16)) in *. set (r2 := rest h2 A C0 (repeat 0 16)) in *. destruct (G1 _ Z0) as [Hr1 _]. destruct (G2 _ Z0) as [Hr2 _]. fold r1 in Hr1. fold r2 in Hr2.
  set (W := Z.lxor (Z.lxor r1 m1) (Z.lxor r2 m2)). assert (HW : elem W) by exact (rng_lxor 128 w128 _ _ (rng_lxor 128 w128 _ _ Hr1 M1) (rng_lxor 128 w128 _ _ Hr2 M2)).
  set (x := gm W (inverse D)). assert (Hx : elem x) by (apply gmul_rng; [exact w128 | exact R_top | exact HV]). destruct (block_of x Hx) as [Bx Ex]. set (B := be_bytes 16 x) in *.
  assert (XD : gm x D = W). { unfold x. rewrite <- gmul_assoc by (exact w128 || exact R_top || assumption). rewrite (gmul_comm 128 R w128 (inverse D) D HV HD), EV. apply gmul_one_r; [exact w128 | exact HW]. }
  assert (FB : be_val (filled B) = x). { unfold filled, pad16. destruct Bx as [Lx _]. unfold zlen. rewrite Lx. change (Z.to_nat (- Z.of_nat 16 mod 16)) with O. cbn [repeat]. rewrite app_nil_r. exact Ex. }
  assert (BCB : bytes (C0 ++ B)) by (apply bytes_app; split; [exact BC | apply Bx]). assert (LCB : zlen (C0 ++ B) < 2 ^ 61) by (rewrite zlen_app; unfold zlen in *; rewrite (proj1 Bx); lia).
  destruct (block_of _ (tag_elem E1 g1' (C0 ++ B) A HB1 U1 BCB BA LCB ZA)) as [BT ET]. set (T := be_bytes 16 _) in BT, ET. exists B, T. split; [exact Bx|]. split; [exact BT|].
  split; [apply accepts_iff; assumption|]. apply accepts_iff; try assumption. rewrite ET. fold h1 h2 m1 m2. rewrite (proj2 (G1 B Bx)), (proj2 (G2 B Bx)), (RS h1 B Bx), (RS h2 B Bx), FB. fold r1 r2.
  apply balance. rewrite <- gmul_lxor_r by exact w128. exact XD.
Qed.
Print Assumptions C116_commitment_refuted.
(** For AES. *)
Corollary C116_aes_refuted : forall key1 rks1 key2 rks2 iv A C0 k g1 g2, aes_schedule key1 rks1 -> aes_schedule key2 rks2 -> AES key1 (repeat 0 16) <> AES key2 (repeat 0 16) -> iv_ok iv ->
  gcm_init (AesEncrypt rks1) iv = Ok g1 -> gcm_init (AesEncrypt rks2) iv = Ok g2 -> bytes A -> bytes C0 -> length C0 = (k * 16)%nat -> zlen C0 < 2 ^ 61 - 16 -> zlen A < 2 ^ 61 ->
  exists B T, block B /\ block T /\ accepts (AesEncrypt rks1) g1 (C0 ++ B) A T /\ accepts (AesEncrypt rks2) g2 (C0 ++ B) A T.
Proof.
  intros key1 rks1 key2 rks2 iv A C0 k g1 g2 S1 S2 ND HI Eg1 Eg2 BA BC LC ZC ZA. assert (Z0 : block (repeat 0 16)) by (split; [reflexivity | apply bytes_repeat; unfold byte; lia]).
  apply (C116_commitment_refuted (AesEncrypt rks1) (AesEncrypt rks2) iv iv [] [] g1 g2 g1 g2 [] [] A C0 k); try assumption; try apply (aes_blockfun _ _ S1); try apply (aes_blockfun _ _ S2); try constructor.
  rewrite (proj1 (aes_ok _ _ S1 _ Z0)), (proj1 (aes_ok _ _ S2 _ Z0)). exact ND.
Qed.

(** ** C117: two messages under one key and IV *)
(** The hash subkey, from two messages of one (possibly short) block and their tags. *)
Definition recover (C1 T1 C2 T2 : list Z) : Z := root (gm (Z.lxor (be_val T1) (be_val T2)) (inverse (Z.lxor (be_val (filled C1)) (be_val (filled C2))))).
(** A tag for other text, from the subkey and one message with its tag. *)
Definition forge (H : Z) (A1 C1 T1 A C : list Z) : list Z := be_bytes 16 (Z.lxor (be_val T1) (Z.lxor (GHASH H (ghash_input A1 C1)) (GHASH H (ghash_input A C)))).
Lemma encrypt_value E g P A C T g' u : cipher E -> usable E g -> bytes P -> bytes A -> 0 < zlen P <= 16 -> zlen A < 2 ^ 61 -> Encrypt E g P A = Ok (C, T, g', u) ->
  bytes C /\ zlen C = zlen P /\ C = xorl P (E (inc32 (mblock g))) /\ block T /\ be_val T = Z.lxor (GHASH (be_val (E (repeat 0 16))) (ghash_input A C)) (be_val (E (mblock g))).
Proof.
  intros HE U BP BA LP LA En. assert (LP' : zlen P < 2 ^ 61) by lia. pose proof (Encrypt_ok E g P A HE U BP BA LP' LA) as E1. cbv zeta in E1. rewrite En in E1. pose proof (mblock_block E g U) as Bc.
  assert (EC : C = GCTR E (inc32 (mblock g)) P) by (injection E1 as -> _ _ _; reflexivity). assert (ET : T = GCTR E (mblock g) (be_bytes 16 (GHASH (be_val (E (repeat 0 16))) (ghash_input A C)))) by (rewrite EC; injection E1 as _ -> _ _; reflexivity). clear E1 En.
  assert (BC : bytes C) by (rewrite EC; apply gctr_bytes; [exact HE | apply inc32_block; exact Bc | exact BP]). assert (LC : zlen C = zlen P) by (rewrite EC; unfold zlen, GCTR; rewrite gctr_length; [reflexivity | exact HE | apply inc32_block; exact Bc]).
  split; [exact BC|]. split; [exact LC|]. split.
  { rewrite EC. unfold GCTR. rewrite chunks_step by (try lia; intros ->; cbn in LP; lia). rewrite firstn_all2, skipn_all2 by (unfold zlen in LP; lia). cbn. rewrite app_nil_r. reflexivity. }
  assert (Z0 : block (repeat 0 16)) by (split; [reflexivity | apply bytes_repeat; unfold byte; lia]). destruct (ghash_ok _ _ C A (mirror_block _ (HE _ Z0)) BC BA ltac:(lia) LA) as [_ Rg]. set (Hv := GHASH _ _) in *. pose proof (store_bytes Hv Rg) as BS.
  assert (EX : T = xorl (be_bytes 16 Hv) (E (mblock g))) by (rewrite ET; unfold GCTR; rewrite <- (app_nil_r (be_bytes 16 Hv)) at 1; rewrite gctr_app by apply BS; cbn; rewrite app_nil_r; reflexivity).
  rewrite EX. pose proof (HE _ Bc) as BE. split; [destruct BS as [LS BSb], BE as [LE BEb]; split; [rewrite xorl_length, LS, LE; reflexivity | apply bytes_xorl; assumption]|].
  rewrite be_val_xorl by assumption. f_equal. apply be_val_bytes. exact Rg.
Qed.
Lemma filled_inj a b : bytes a -> bytes b -> length a = length b -> 0 < zlen a <= 16 -> be_val (filled a) = be_val (filled b) -> a = b.
Proof.
  intros Ba Bb L La E. assert (Lb : 0 < zlen b <= 16) by (unfold zlen in *; lia). assert (Q : filled a = filled b).
  { rewrite <- (be_bytes_val (filled a)), <- (be_bytes_val (filled b)) by (unfold filled; apply bytes_app; split; [assumption | apply pad16_bytes]). rewrite E, !filled_length by assumption. reflexivity. }
  unfold filled in Q. apply app_inj_len in Q; [apply Q | exact L].
Qed.
(** Two objects in the same state (made with the same key and IV, and used alike) seal two
    different texts of the same length, at most 16 bytes, with the same associated data.  Then
    whoever sees the two messages can make the tag of any text: no key is needed. *)
Theorem C117_reuse_refuted : exists forger : list Z -> list Z * list Z -> list Z * list Z -> list Z -> list Z -> list Z,
  forall E iv cs g0 g us P1 P2 A C1 T1 C2 T2 g1 g2 u1 u2, blockfun E -> iv_ok iv -> Forall call_ok cs -> gcm_init E iv = Ok g0 -> run_calls E g0 cs = Ok (g, us) ->
  bytes P1 -> bytes P2 -> bytes A -> zlen A < 2 ^ 61 -> 0 < zlen P1 <= 16 -> zlen P2 = zlen P1 -> P1 <> P2 ->
  Encrypt E g P1 A = Ok (C1, T1, g1, u1) -> Encrypt E g P2 A = Ok (C2, T2, g2, u2) ->
  forall C' A', bytes C' -> bytes A' -> zlen C' < 2 ^ 61 -> zlen A' < 2 ^ 61 -> accepts E g C' A' (forger A (C1, T1) (C2, T2) A' C').
Proof.
  exists (fun A m1 m2 A' C' => forge (recover (fst m1) (snd m1) (fst m2) (snd m2)) A (fst m1) (snd m1) A' C').
  intros E iv cs g0 g us P1 P2 A C1 T1 C2 T2 g1 g2 u1 u2 HB HI F Eg Rn BP1 BP2 BA LA L1 L2 ND E1 E2 C' A' BC' BA' LC' LA'. apply blockfun_cipher in HB. cbn [fst snd].
  assert (U : usable E g). { destruct (init_ok E iv HB HI) as (g0' & E0 & U & _). rewrite Eg in E0. injection E0 as <-. pose proof (run_ok E HB cs g0 U F) as R2. rewrite Rn in R2. injection R2 as -> _. apply (nexts_ok E (length cs) g0 U). }
  destruct (encrypt_value E g P1 A C1 T1 g1 u1 HB U BP1 BA L1 LA E1) as (B1 & LC1 & X1 & BT1 & V1). destruct (encrypt_value E g P2 A C2 T2 g2 u2 HB U BP2 BA ltac:(lia) LA E2) as (B2 & LC2 & X2 & BT2 & V2).
  assert (Z0 : block (repeat 0 16)) by (split; [reflexivity | apply bytes_repeat; unfold byte; lia]). pose proof (elem_block _ (HB _ Z0)) as HH. set (h := be_val (E (repeat 0 16))) in *.
  assert (NC : C1 <> C2). { intros EC. apply ND. pose proof (HB _ (inc32_block _ (mblock_block E g U))) as [LE _]. rewrite <- (xorl_cancel P1 (E (inc32 (mblock g)))), <- (xorl_cancel P2 (E (inc32 (mblock g)))) by (unfold zlen in *; lia). rewrite <- X1, <- X2, EC. reflexivity. }
  set (D := Z.lxor (be_val (filled C1)) (be_val (filled C2))).
  assert (EB : forall c, bytes c -> 0 < zlen c <= 16 -> elem (be_val (filled c))) by (intros c Bc Lc; apply elem_block; split; [apply filled_length, Lc | unfold filled; apply bytes_app; split; [exact Bc | apply pad16_bytes]]).
  assert (HD : elem D) by (apply rng_lxor; [exact w128 | apply EB; [exact B1 | lia] | apply EB; [exact B2 | lia]]).
  assert (D0 : D <> 0) by (intros E0; apply lxor_zero, filled_inj in E0; [exact (NC E0) | exact B1 | exact B2 | unfold zlen in *; lia | lia]). destruct (inverse_ok D HD D0) as [HV EV].
  assert (HS : elem (square h)) by (apply gmul_rng; [exact w128 | exact R_top | exact HH]).
  assert (Q : Z.lxor (be_val T1) (be_val T2) = gm D (square h)).
  { rewrite V1, V2. destruct (ghash_last h A [] C1 0 HH BA bytes_nil B1 eq_refl ltac:(lia)) as [_ G1]. destruct (ghash_last h A [] C2 0 HH BA bytes_nil B2 eq_refl ltac:(lia)) as [_ G2]. cbn [app] in G1, G2. rewrite G1, G2.
    assert (RR : rest h A [] C1 = rest h A [] C2) by (unfold rest, lengths; cbn [app]; rewrite LC1, LC2, L2; reflexivity). rewrite RR. unfold D. rewrite gmul_lxor_l. set (r := rest h A [] C2). set (m := be_val (E (mblock g))). clear.
    apply Z.bits_inj'. intros n _. rewrite !Z.lxor_spec. destruct (Z.testbit (gm _ _) n), (Z.testbit (gm _ _) n), (Z.testbit r n), (Z.testbit m n); reflexivity. }
  assert (RC : recover C1 T1 C2 T2 = h).
  { unfold recover. rewrite Q. fold D. rewrite (gmul_comm 128 R w128 D (square h) HD HS), <- gmul_assoc by (exact w128 || exact R_top || assumption). rewrite EV, gmul_one_r by (exact w128 || exact HS). apply root_ok, HH. }
  rewrite RC. unfold forge. pose proof (tag_elem E g C' A' HB U BC' BA' LC' LA') as ET. fold h in ET.
  assert (X : Z.lxor (be_val T1) (Z.lxor (GHASH h (ghash_input A C1)) (GHASH h (ghash_input A' C'))) = Z.lxor (GHASH h (ghash_input A' C')) (be_val (E (mblock g)))).
  { rewrite V1. apply Z.bits_inj'. intros n _. rewrite !Z.lxor_spec. destruct (Z.testbit (GHASH h (ghash_input A C1)) n), (Z.testbit (GHASH h (ghash_input A' C')) n), (Z.testbit (be_val (E (mblock g))) n); reflexivity. }
  rewrite X. destruct (block_of _ ET) as [BB EB2]. apply accepts_iff; assumption.
Qed.
Print Assumptions C117_reuse_refuted.

(** ** Cases: AES-128, the keys 0707...07 and 0909...09, a 12 byte IV *)
Definition key_of (x : Z) : list (list Z) := match sched128 [] (repeat x 16) with Ok r => r | _ => [] end.
Definition object_of (x : Z) : gcm := match gcm_init (AesEncrypt (key_of x)) (repeat 1 12) with Ok g => g | _ => Gcm 0 [] 0 end.
Definition valid (r : res (list Z * bool * gcm * list (list Z))) : bool := match r with Ok (_, b, _, _) => b | _ => false end.
Lemma case_schedules : sched128 [] (repeat 7 16) = Ok (key_of 7) /\ sched128 [] (repeat 9 16) = Ok (key_of 9). Proof. split; vm_compute; reflexivity. Qed.
Lemma key_of_ok x : byte x -> sched128 [] (repeat x 16) = Ok (key_of x) -> aes_schedule (repeat x 16) (key_of x).
Proof. intros B H. apply (aes128 []); [reflexivity | apply bytes_repeat, B | exact H]. Qed.
Example C116_case : aes_schedule (repeat 7 16) (key_of 7) /\ aes_schedule (repeat 9 16) (key_of 9) /\ AES (repeat 7 16) (repeat 0 16) <> AES (repeat 9 16) (repeat 0 16) /\
  let B := [209; 252; 135; 248; 215; 228; 108; 102; 110; 66; 40; 0; 204; 143; 75; 55] in let T := [169; 0; 59; 41; 174; 73; 183; 20; 180; 180; 246; 142; 36; 93; 117; 47] in
  valid (Decrypt (AesEncrypt (key_of 7)) (object_of 7) B [] T) = true /\ valid (Decrypt (AesEncrypt (key_of 9)) (object_of 9) B [] T) = true.
Proof.
  assert (S7 : aes_schedule (repeat 7 16) (key_of 7)) by (apply key_of_ok; [unfold byte; lia | apply case_schedules]). assert (S9 : aes_schedule (repeat 9 16) (key_of 9)) by (apply key_of_ok; [unfold byte; lia | apply case_schedules]).
  assert (Z0 : block (repeat 0 16)) by (split; [reflexivity | apply bytes_repeat; unfold byte; lia]). split; [exact S7|]. split; [exact S9|]. split; [|split; vm_compute; reflexivity].
  rewrite <- (proj1 (aes_ok _ _ S7 _ Z0)), <- (proj1 (aes_ok _ _ S9 _ Z0)). vm_compute. discriminate.
Qed.
(** The texts [1] and [2] are sealed; the tag of another text was computed by [forge] and [recover]. *)
Example C117_case : exists C1 T1 C2 T2 g1 g2 u1 u2, Encrypt (AesEncrypt (key_of 7)) (object_of 7) [1] [] = Ok (C1, T1, g1, u1) /\ Encrypt (AesEncrypt (key_of 7)) (object_of 7) [2] [] = Ok (C2, T2, g2, u2) /\
  valid (Decrypt (AesEncrypt (key_of 7)) (object_of 7) [9; 9; 9] [5] [219; 185; 91; 80; 5; 183; 236; 98; 48; 85; 107; 114; 171; 51; 119; 181]) = true.
Proof.
  assert (S7 : aes_schedule (repeat 7 16) (key_of 7)) by (apply key_of_ok; [unfold byte; lia | apply case_schedules]). pose proof (blockfun_cipher _ (aes_blockfun _ _ S7)) as HE.
  destruct (init_ok _ (repeat 1 12) HE ltac:(split; [apply bytes_repeat; unfold byte; lia | right; change (zlen (repeat 1 12)) with 12; lia])) as (g & Eg & U & _). assert (EO : object_of 7 = g) by (unfold object_of; rewrite Eg; reflexivity).
  assert (B : forall x, byte x -> bytes [x]) by (intros x Hx; constructor; [exact Hx | constructor]).
  pose proof (Encrypt_ok _ g [1] [] HE U (B 1 ltac:(unfold byte; lia)) bytes_nil ltac:(reflexivity) ltac:(reflexivity)) as E1. pose proof (Encrypt_ok _ g [2] [] HE U (B 2 ltac:(unfold byte; lia)) bytes_nil ltac:(reflexivity) ltac:(reflexivity)) as E2. cbv zeta in E1, E2.
  do 8 eexists. split; [rewrite EO; exact E1|]. split; [rewrite EO; exact E2 | vm_compute; reflexivity].
Qed.
