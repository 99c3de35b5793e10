(** The loop of X25519 refines the loop of RFC 7748. *)
From Coq Require Import Znumtheory Field.
From Verif Require Import Base BaseP S_Bignum M_Bignum P_Bignum S_X25519 M_X25519 P_X25519 P_Prime25519 P_F25519.
Open Scope Z_scope.

Local Notation p := p25519.
Definition fst_ : Type := F * F * (F * F).
Definition fstep (x1 : F) (s : fst_) : fst_ :=
  let '(x2, z2, (x3, z3)) := s in
  let A := (x2 + z2)%F in
  let AA := (A * A)%F in
  let B := (x2 - z2)%F in
  let BB := (B * B)%F in
  let E := (AA - BB)%F in
  let C := (x3 + z3)%F in
  let D := (x3 - z3)%F in
  let DA := (D * A)%F in
  let CB := (C * B)%F in
  ((AA * BB)%F, (E * (AA + inF 121665 * E))%F, (((DA + CB) * (DA + CB))%F, (x1 * ((DA - CB) * (DA - CB)))%F)).
Definition fswap (b : bool) (s : fst_) : fst_ := let '(x2, z2, (x3, z3)) := s in if b then (x3, z3, (x2, z2)) else s.
Fixpoint floop (n : nat) (k : Z) (x1 : F) (sw : bool) (s : fst_) : bool * fst_ :=
  match n with
  | O => (sw, s)
  | S t => let kt := Z.testbit k (Z.of_nat t) in floop t k x1 kt (fstep x1 (fswap (xorb sw kt) s))
  end.
Definition fout (r : bool * fst_) : F := let '(x2, z2, _) := fswap (fst r) (snd r) in (x2 * Finv z2)%F.

(** ** The specification *)
Definition toF (s : Z * Z * (Z * Z)) : fst_ := let '(x2, z2, (x3, z3)) := s in (inF x2, inF z2, (inF x3, inF z3)).
Lemma toF_swap b s : toF (cswap b s) = fswap b (toF s).
Proof. destruct s as [[x2 z2] [x3 z3]], b; reflexivity. Qed.
Lemma inF_fadd x y : inF (fadd x y) = (inF x + inF y)%F. Proof. unfold fadd. rewrite inF_mod. apply inF_add. Qed.
Lemma inF_fsub x y : inF (fsub x y) = (inF x - inF y)%F. Proof. unfold fsub. rewrite inF_mod. apply inF_sub. Qed.
Lemma inF_fmul x y : inF (fmul x y) = (inF x * inF y)%F. Proof. unfold fmul. rewrite inF_mod. apply inF_mul. Qed.
Lemma toF_step x1 s : toF (rfc_step x1 s) = fstep (inF x1) (toF s).
Proof. destruct s as [[x2 z2] [x3 z3]]. unfold rfc_step, toF, fstep. repeat rewrite ?inF_fmul, ?inF_fadd, ?inF_fsub. reflexivity. Qed.
Lemma toF_loop n k x1 : forall sw s, floop n k (inF x1) sw (toF s) = (fst (rfc_loop n k x1 sw s), toF (snd (rfc_loop n k x1 sw s))).
Proof.
  induction n as [|n IH]; intros sw s; [reflexivity|]. cbn [floop rfc_loop]. rewrite <- toF_swap, <- toF_step. apply IH.
Qed.
Lemma inF_inv x : inF (x ^ (p - 2)) = Finv (inF x).
Proof. unfold Finv. apply inF_pow_eq. symmetry; apply inF_fz. Qed.
Lemma rfc_F k u : inF (rfc_x25519 k u) = fout (floop 255 k (inF u) false (1, 0, (inF u, 1))%F).
Proof.
  change (1, 0, (inF u, 1))%F with (toF (1, 0, (u, 1))). rewrite toF_loop. unfold rfc_x25519, fout. destruct (rfc_loop 255 k u false (1, 0, (u, 1))) as [sw s]. cbn [fst snd].
  rewrite <- toF_swap. destruct (cswap sw s) as [[x2 z2] [x3 z3]]. cbn [toF]. rewrite inF_fmul, inF_inv. reflexivity.
Qed.
Lemma rfc_range k u : 0 <= rfc_x25519 k u < p.
Proof.
  unfold rfc_x25519. destruct (rfc_loop 255 k u false (1, 0, (u, 1))) as [sw s]. destruct (cswap sw s) as [[x2 z2] [x3 z3]]. apply Z.mod_pos_bound; reflexivity.
Qed.

(** ** The code *)
Definition repF (a : list Z) (x : F) : Prop := bn 8 a /\ inF (val a) = x.
Lemma repF_rep a x : repF a (inF x) <-> rep a x.
Proof. unfold repF, rep. rewrite inF_eq. reflexivity. Qed.
Lemma repF_add a b x y : repF a x -> repF b y -> exists r, ec_add a b = Ok r /\ repF r (x + y)%F.
Proof.
  rewrite <- (inF_fz x), <- (inF_fz y), !repF_rep. intros Ha Hb. destruct (ec_add_ok a b _ _ Ha Hb) as (r & E & R). exists r; split; [exact E|].
  apply repF_rep in R. rewrite inF_fadd in R. exact R.
Qed.
Lemma repF_sub a b x y : repF a x -> repF b y -> repF (ec_sub a b) (x - y)%F.
Proof.
  rewrite <- (inF_fz x), <- (inF_fz y), !repF_rep. intros Ha Hb. pose proof (ec_sub_ok a b _ _ Ha Hb) as R. 
  apply repF_rep in R. rewrite inF_fsub in R. exact R.
Qed.
Lemma repF_mul a b x y : repF a x -> repF b y -> exists r, ec_mul a b = Ok r /\ repF r (x * y)%F.
Proof.
  rewrite <- (inF_fz x), <- (inF_fz y), !repF_rep. intros Ha Hb. destruct (ec_mul_ok a b _ _ Ha Hb) as (r & E & R). exists r; split; [exact E|].
  apply repF_rep in R. rewrite inF_fmul in R. exact R.
Qed.
Lemma repF_mul32 a b x : repF a x -> 0 <= b < 2 ^ 32 -> exists r, ec_mul32 a b = Ok r /\ repF r (inF b * x)%F.
Proof.
  rewrite <- (inF_fz x), !repF_rep. intros Ha Hb. destruct (ec_mul32_ok a b _ Ha Hb) as (r & E & R). exists r; split; [exact E|].
  apply repF_rep in R. rewrite inF_fmul in R. exact R.
Qed.
Lemma repF_inverse a x : repF a x -> exists r, inverse a = Ok r /\ repF r (Finv x).
Proof.
  rewrite <- (inF_fz x), !repF_rep. intros Ha. destruct (inverse_ok a _ Ha) as (r & E & R). exists r; split; [exact E|].
  apply repF_rep in R. rewrite inF_inv in R. exact R.
Qed.
Lemma repF_bn a x : repF a x -> bn 8 a. Proof. intros [H _]; exact H. Qed.

Definition srel (s : state) (t : bool * fst_) : Prop :=
  let '(x_2, z_2, x_3, z_3, swap) := s in
  let '(sw, (x2, z2, (x3, z3))) := t in
  swap = sw /\ repF x_2 x2 /\ repF z_2 z2 /\ repF x_3 x3 /\ repF z_3 z3.
Lemma swap_pair d a b x y : repF a x -> repF b y -> exists a' b', ctime_swap d a b = (a', b') /\ repF a' (if d then y else x) /\ repF b' (if d then x else y).
Proof. intros Ha Hb. rewrite (ctime_swap_ok 8 d a b) by (apply repF_bn in Ha, Hb; assumption). destruct d; eauto. Qed.
Ltac fop H := let r := fresh "v" in let E := fresh "E" in let R := fresh "R" in destruct H as (r & E & R); rewrite E; cbn [bind]; clear E.
Lemma step_ok k u x1 t s sw f : bn 8 k -> repF u x1 -> 0 <= t < 256 -> srel s (sw, f) ->
  exists s', ladder_step k u t s = Ok s' /\ srel s' (Z.testbit (val k) t, fstep x1 (fswap (xorb sw (Z.testbit (val k) t)) f)).
Proof.
  intros Hk Hu Ht H. destruct s as [[[[x_2 z_2] x_3] z_3] swap]. destruct f as [[x2 z2] [x3 z3]]. destruct H as (-> & H2 & K2 & H3 & K3).
  unfold ladder_step. rewrite (bit_ok 8 k t Hk ltac:(lia)). cbn [bind].
  replace (negb (Z.b2z (Z.testbit (val k) t) =? 0)) with (Z.testbit (val k) t) by (destruct (Z.testbit (val k) t); reflexivity).
  set (kt := Z.testbit (val k) t). clearbody kt. clear Hk Ht k t.
  destruct (swap_pair (xorb sw kt) x_2 x_3 _ _ H2 H3) as (a2 & a3 & -> & A2 & A3). destruct (swap_pair (xorb sw kt) z_2 z_3 _ _ K2 K3) as (b2 & b3 & -> & B2 & B3).
  clear H2 H3 K2 K3 x_2 z_2 x_3 z_3.
  assert (FS : fswap (xorb sw kt) (x2, z2, (x3, z3)) = ((if xorb sw kt then x3 else x2), (if xorb sw kt then z3 else z2), ((if xorb sw kt then x2 else x3), (if xorb sw kt then z2 else z3)))) by (destruct (xorb sw kt); reflexivity).
  rewrite FS. clear FS. set (X2 := if xorb sw kt then x3 else x2) in *. set (Z2 := if xorb sw kt then z3 else z2) in *. set (X3 := if xorb sw kt then x2 else x3) in *. set (Z3 := if xorb sw kt then z2 else z3) in *.
  clearbody X2 Z2 X3 Z3. cbv zeta.
  fop (repF_add _ _ _ _ A2 B2). unfold ec_square at 1. fop (repF_mul _ _ _ _ R R). pose proof (repF_sub _ _ _ _ A2 B2) as RB. unfold ec_square at 1. fop (repF_mul _ _ _ _ RB RB).
  pose proof (repF_sub _ _ _ _ R0 R1) as RE. fop (repF_add _ _ _ _ A3 B3). pose proof (repF_sub _ _ _ _ A3 B3) as RD.
  fop (repF_mul _ _ _ _ RD R). fop (repF_mul _ _ _ _ R2 RB). fop (repF_add _ _ _ _ R3 R4). unfold ec_square at 1. fop (repF_mul _ _ _ _ R5 R5).
  pose proof (repF_sub _ _ _ _ R3 R4) as RS. unfold ec_square at 1. fop (repF_mul _ _ _ _ RS RS). fop (repF_mul _ _ _ _ Hu R7). fop (repF_mul _ _ _ _ R0 R1).
  fop (repF_mul32 _ 121665 _ RE ltac:(lia)). fop (repF_add _ _ _ _ R0 R10). fop (repF_mul _ _ _ _ RE R11).
  eexists; split; [reflexivity|]. unfold srel, fstep. repeat split; first [apply R9 | apply R12 | apply R6 | apply R8].
Qed.
Lemma ladder_ok k u x1 n : bn 8 k -> repF u x1 -> (n <= 256)%nat -> forall s sw f, srel s (sw, f) ->
  exists s', ladder n k u s = Ok s' /\ srel s' (floop n (val k) x1 sw f).
Proof.
  intros Hk Hu; induction n as [|n IH]; intros Hn s sw f H; [exists s; split; [reflexivity | exact H]|]. cbn [ladder floop].
  destruct (step_ok k u x1 (Z.of_nat n) s sw f Hk Hu ltac:(lia) H) as (s1 & -> & H1). cbn [bind]. apply IH; [lia | exact H1].
Qed.

(** ** The scalar *)
Lemma clamp_bit k i : 0 <= k -> 0 <= i < 256 -> Z.testbit (clamp k) i = if i =? 254 then true else if (i <? 3) || (254 <? i) then false else Z.testbit k i.
Proof.
  intros Hk Hi. unfold clamp. set (y := k / 8 mod 2 ^ 251). assert (Hy : 0 <= y < 2 ^ 251) by (apply Z.mod_pos_bound; lia).
  replace (2 ^ 254 + 8 * y) with (1 * 2 ^ 254 + y * 2 ^ 3) by (change (2 ^ 3) with 8; lia).
  rewrite <- (lor_disjoint_add 254) by (change (2 ^ 3) with 8; lia). rewrite Z.lor_spec, Z.mul_1_l, Z.pow2_bits_eqb, Z.mul_pow2_bits by lia.
  destruct (Z.eqb_spec i 254) as [->|N]; [reflexivity|]. destruct (Z.eqb_spec 254 i); [lia|]. cbn [orb].
  destruct (Z.ltb_spec i 3); cbn [orb]; [apply Z.testbit_neg_r; lia|]. destruct (Z.ltb_spec 254 i).
  - apply (testbit_high y 251); lia.
  - unfold y. rewrite Z.mod_pow2_bits_low by lia. change 8 with (2 ^ 3). rewrite Z.div_pow2_bits by lia. f_equal; lia.
Qed.
Lemma clamp_range k : 2 ^ 254 <= clamp k < 2 ^ 255.
Proof. unfold clamp. pose proof (Z.mod_pos_bound (k / 8) (2 ^ 251) ltac:(lia)). lia. Qed.
Lemma normalize_ok k : bn 8 k -> exists r, normalize k = Ok r /\ bn 8 r /\ val r = clamp (val k).
Proof.
  intros Hk; unfold normalize. pose proof (bn8 k Hk) as Rk.
  destruct (clear_bit_ok 8 k 0 Hk ltac:(lia)) as (a & -> & Ha & Ea); cbn [bind].
  destruct (clear_bit_ok 8 a 1 Ha ltac:(lia)) as (b & -> & Hb & Eb); cbn [bind].
  destruct (clear_bit_ok 8 b 2 Hb ltac:(lia)) as (c & -> & Hc & Ec); cbn [bind].
  destruct (set_bit_ok 8 c 254 Hc ltac:(lia)) as (d & -> & Hd & Ed); cbn [bind].
  destruct (clear_bit_ok 8 d 255 Hd ltac:(lia)) as (e & -> & He & Ee). exists e; split; [reflexivity|]; split; [exact He|].
  apply (bits_eq 256); [exact (bn8 e He) | pose proof (clamp_range (val k)); lia |]. intros i Hi. rewrite clamp_bit by lia.
  rewrite Ee, Ed, Ec, Eb, Ea. rewrite Z.ldiff_spec, Z.lor_spec, !Z.ldiff_spec, !Z.pow2_bits_eqb by lia.
  destruct (Z.eqb_spec i 254) as [->|N]; [cbn [Z.eqb Pos.eqb negb]; rewrite orb_true_r; reflexivity|]. destruct (Z.eqb_spec 254 i); [lia|]. rewrite orb_false_r.
  destruct (Z.ltb_spec i 3); cbn [orb].
  - destruct (Z.eq_dec i 0) as [->|]; [cbn [Z.eqb Pos.eqb negb]; rewrite !andb_false_r; reflexivity|]. destruct (Z.eq_dec i 1) as [->|]; [cbn [Z.eqb Pos.eqb negb]; rewrite !andb_false_r; reflexivity|].
    replace i with 2 by lia. cbn [Z.eqb Pos.eqb negb]. rewrite !andb_false_r. reflexivity.
  - destruct (Z.eqb_spec 0 i); [lia|]. destruct (Z.eqb_spec 1 i); [lia|]. destruct (Z.eqb_spec 2 i); [lia|]. cbn [negb]. rewrite !andb_true_r.
    destruct (Z.ltb_spec 254 i); destruct (Z.eqb_spec 255 i); lia.
Qed.

(** ** The whole function *)
Lemma X25519_F k u : bn 8 k -> bn 8 u -> exists r, X25519 k u = Ok r /\ bn 8 r /\ 0 <= val r < p /\
  inF (val r) = fout (floop 256 (clamp (val k)) (inF (val u)) false (1, 0, (inF (val u), 1))%F).
Proof.
  intros Hk Hu; unfold X25519. destruct (normalize_ok k Hk) as (k' & -> & Hk' & Ek). cbn [bind].
  destruct (of_list_ok 8 [1]) as (one & E1 & H1 & V1); [repeat constructor; lia | cbn; lia |]. change (32 * Z.of_nat 8) with 256 in E1. rewrite E1. cbn [bind]. clear E1.
  destruct (of_list_ok 8 [0]) as (nul & E0 & H0 & V0); [repeat constructor; lia | cbn; lia |]. change (32 * Z.of_nat 8) with 256 in E0. rewrite E0. cbn [bind]. clear E0.
  assert (R1 : repF one 1%F) by (split; [exact H1 | rewrite V1; reflexivity]). assert (R0 : repF nul 0%F) by (split; [exact H0 | rewrite V0; reflexivity]).
  assert (Ru : repF u (inF (val u))) by (split; [exact Hu | reflexivity]).
  destruct (ladder_ok k' u (inF (val u)) 256 Hk' Ru ltac:(lia) (one, nul, u, one, false) false (1, 0, (inF (val u), 1))%F) as (s & -> & Hs); [unfold srel; auto|]. cbn [bind].
  rewrite Ek in Hs. destruct (floop 256 (clamp (val k)) (inF (val u)) false (1, 0, (inF (val u), 1))%F) as [sw [[x2 z2] [x3 z3]]].
  destruct s as [[[[x_2 z_2] x_3] z_3] swap]. destruct Hs as (-> & H2 & K2 & H3 & K3).
  destruct (swap_pair sw x_2 x_3 _ _ H2 H3) as (a2 & a3 & -> & A2 & A3). destruct (swap_pair sw z_2 z_3 _ _ K2 K3) as (b2 & b3 & -> & B2 & B3).
  fop (repF_inverse _ _ B2). fop (repF_mul _ _ _ _ A2 R). destruct R2 as [Hv Ev]. eexists; split; [reflexivity|].
  destruct (applyModulus_ok _ Hv) as [Hm Em]. split; [exact Hm|]. split; [rewrite Em; apply Z.mod_pos_bound; reflexivity|].
  rewrite Em, inF_mod, Ev. unfold fout. cbn [fst snd]. destruct sw; reflexivity.
Qed.

(** ** One iteration too many
    The code also runs the body for bit 255, which is 0 in a clamped scalar.  That turns
    (u, 1) into (4 u^2, 4 u): another representative of the same point, unless u = 0. *)
Definition scaled (s t : fst_) : Prop :=
  exists a b, a <> F0 /\ b <> F0 /\
    let '(x2, z2, (x3, z3)) := s in t = ((a * x2)%F, (a * z2)%F, ((b * x3)%F, (b * z3)%F)).
Lemma quad (a b c d a' b' c' d' : F) : a = a' -> b = b' -> c = c' -> d = d' -> (a, b, (c, d)) = (a', b', (c', d')).
Proof. intros -> -> -> ->; reflexivity. Qed.
Lemma scaled_swap d s t : scaled s t -> scaled (fswap d s) (fswap d t).
Proof. destruct s as [[x2 z2] [x3 z3]]. intros (a & b & Ha & Hb & ->). destruct d; [exists b, a | exists a, b]; (split; [assumption | split; [assumption | reflexivity]]). Qed.
Lemma scaled_step x1 s t : scaled s t -> scaled (fstep x1 s) (fstep x1 t).
Proof.
  destruct s as [[x2 z2] [x3 z3]]. intros (a & b & Ha & Hb & ->). exists (a * a * (a * a))%F, (a * b * (a * b))%F.
  split; [repeat apply F_mul_ne; exact Ha|]. split; [repeat apply F_mul_ne; assumption|].
  unfold fstep. apply quad; ring.
Qed.
Lemma scaled_loop n k x1 : forall sw s t, scaled s t -> fst (floop n k x1 sw s) = fst (floop n k x1 sw t) /\ scaled (snd (floop n k x1 sw s)) (snd (floop n k x1 sw t)).
Proof.
  induction n as [|n IH]; intros sw s t H; [split; [reflexivity | exact H]|]. cbn [floop]. apply IH, scaled_step, scaled_swap, H.
Qed.
Lemma Finv_mul x y : Finv (x * y)%F = (Finv x * Finv y)%F.
Proof.
  destruct (F_dec x F0) as [->|Hx]; [replace (F0 * y)%F with F0 by ring; rewrite Finv_0; ring|].
  destruct (F_dec y F0) as [->|Hy]; [replace (x * F0)%F with F0 by ring; rewrite Finv_0; ring|].
  field; split; assumption.
Qed.
Lemma scaled_out sw s t : scaled s t -> fout (sw, s) = fout (sw, t).
Proof.
  intros H. apply (scaled_swap sw) in H. unfold fout; cbn [fst snd]. destruct (fswap sw s) as [[x2 z2] [x3 z3]]. destruct H as (a & b & Ha & _ & ->).
  rewrite Finv_mul. replace (a * x2 * (Finv a * Finv z2))%F with ((Finv a * a) * (x2 * Finv z2))%F by ring. rewrite Finv_l by exact Ha. ring.
Qed.
Definition zzero (s : fst_) : Prop := let '(x2, z2, (x3, z3)) := s in z2 = F0 /\ z3 = F0.
Lemma zzero_swap d s : zzero s -> zzero (fswap d s).
Proof. destruct s as [[x2 z2] [x3 z3]]. intros [H K]. destruct d; split; assumption. Qed.
Lemma zzero_step s : zzero s -> zzero (fstep F0 s).
Proof. destruct s as [[x2 z2] [x3 z3]]. intros [-> ->]. split; ring. Qed.
Lemma zzero_loop n k : forall sw s, zzero s -> zzero (snd (floop n k F0 sw s)).
Proof. induction n as [|n IH]; intros sw s H; [exact H|]. cbn [floop]. apply IH, zzero_step, zzero_swap, H. Qed.
Lemma zzero_out r : zzero (snd r) -> fout r = F0.
Proof. intros H. apply (zzero_swap (fst r)) in H. unfold fout. destruct (fswap (fst r) (snd r)) as [[x2 z2] [x3 z3]]. destruct H as [-> _]. rewrite Finv_0. ring. Qed.
Lemma zero_out n k : fout (floop (S n) k F0 false (1, 0, (0, 1))%F) = F0.
Proof.
  apply zzero_out. cbn [floop]. apply zzero_loop. destruct (Z.testbit k (Z.of_nat n)); split; ring.
Qed.
Lemma four_ne : (1 + 1 + 1 + 1)%F <> F0.
Proof. intros H. apply (f_equal fz) in H. discriminate H. Qed.
Lemma extra_step k u : Z.testbit k 255 = false ->
  fout (floop 256 k u false (1, 0, (u, 1))%F) = fout (floop 255 k u false (1, 0, (u, 1))%F).
Proof.
  intros Hk. destruct (F_dec u F0) as [->|Hu]; [rewrite !zero_out; reflexivity|].
  change (floop 256 k u false (1, 0, (u, 1))%F) with (floop 255 k u (Z.testbit k 255) (fstep u (fswap (xorb false (Z.testbit k 255)) (1, 0, (u, 1))%F))).
  rewrite Hk. cbn [xorb fswap]. 
  assert (SC : scaled (1, 0, (u, 1))%F (fstep u (1, 0, (u, 1))%F)).
  { exists F1, ((1 + 1 + 1 + 1) * u)%F. split; [exact F1_F0|]. split; [apply F_mul_ne; [exact four_ne | exact Hu]|]. unfold fstep. apply quad; ring. }
  destruct (scaled_loop 255 k u false _ _ SC) as [E1 E2]. destruct (floop 255 k u false (1, 0, (u, 1))%F) as [sw s]. destruct (floop 255 k u false (fstep u (1, 0, (u, 1))%F)) as [sw' s'].
  cbn [fst snd] in *. subst sw'. symmetry; apply scaled_out, E2.
Qed.

(** The code computes the function of the RFC on the clamped scalar and the number u modulo p. *)
Theorem X25519_ok k u : bn 8 k -> bn 8 u -> exists r, X25519 k u = Ok r /\ bn 8 r /\ val r = rfc_x25519 (clamp (val k)) (val u).
Proof.
  intros Hk Hu. destruct (X25519_F k u Hk Hu) as (r & E & Hr & Rr & V). exists r; split; [exact E|]; split; [exact Hr|].
  rewrite extra_step, <- rfc_F in V. 2: { pose proof (bn8 k Hk). rewrite clamp_bit by lia. reflexivity. }
  apply inF_eq in V. rewrite (Z.mod_small _ _ Rr), (Z.mod_small _ _ (rfc_range _ _)) in V. exact V.
Qed.
(** It depends on u only modulo p. *)
Lemma rfc_mod k u v : u mod p = v mod p -> rfc_x25519 k u = rfc_x25519 k v.
Proof.
  intros H. apply inF_eq in H. assert (E : inF (rfc_x25519 k u) = inF (rfc_x25519 k v)) by (rewrite !rfc_F, H; reflexivity).
  apply inF_eq in E. rewrite !(Z.mod_small _ _ (rfc_range _ _)) in E. exact E.
Qed.
