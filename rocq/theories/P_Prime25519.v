(** 2^255 - 19 is prime: a chain of Pocklington certificates.  The two large ones use
    modular multiplications that are cheaper to recheck than Z.modulo. *)
From Coq Require Import Znumtheory.
From Verif Require Import Base BaseP P_Fermat P_Prime S_X25519.
Open Scope Z_scope.

Lemma prime_991 : prime 991.
Proof. apply (prime_trial _ 32); vm_compute; reflexivity. Qed.
Lemma prime_103 : prime 103.
Proof. apply (prime_trial _ 11); vm_compute; reflexivity. Qed.
Lemma prime_127 : prime 127.
Proof. apply (prime_trial _ 12); vm_compute; reflexivity. Qed.
Lemma prime_75707 : prime 75707.
Proof. apply (prime_trial _ 276); vm_compute; reflexivity. Qed.
Ltac nodup := repeat (constructor; [cbn; let H := fresh in intros H; repeat destruct H as [H|H]; first [discriminate H | exact H]|]); constructor.
Lemma prime_8574133 : prime 8574133.
Proof.
  apply (pocklington _ [(991, 2); (103, 2)]); [|nodup | vm_compute; reflexivity].
  constructor; [exact prime_991 | constructor; [exact prime_103 | constructor]].
Qed.
Lemma prime_r : prime 1919519569386763.
Proof.
  apply (pocklington _ [(8574133, 2); (127, 2)]); [|nodup | vm_compute; reflexivity].
  constructor; [exact prime_8574133 | constructor; [exact prime_127 | constructor]].
Qed.
(** Pocklington's criterion with the powers left as propositions. *)
Theorem pocklington_prop n l : 1 < n -> Forall prime l -> NoDup l -> n < (prods l + 1) * (prods l + 1) ->
  (forall q, In q l -> exists a R, 0 <= R /\ n - 1 = q * R /\ a ^ (n - 1) mod n = 1 /\ Z.gcd (a ^ R - 1) n = 1) -> prime n.
Proof.
  intros H1 HP HN HB C. destruct (prime_dec n) as [P|NP]; [exact P|exfalso].
  destruct (small_factor n H1 NP) as (p & Pp & Dp & Sp). pose proof (prime_ge_2 p Pp) as P2.
  assert (D : (prods l | p - 1)).
  { apply prods_divide; [exact HP | exact HN|]. intros q Hq. destruct (C q Hq) as (a & R & HR & E & E3 & E4).
    rewrite Forall_forall in HP. refine (pock_step n q a R p _ (HP q Hq) Pp Dp HR E _ E4); [lia|]. rewrite E3, Z.mod_small by lia. reflexivity. }
  apply Z.divide_pos_le in D; [|lia]. assert (0 <= prods l).
  { clear - HP. induction HP as [|q l Pq _ IH]; [cbn; lia|]. unfold prods in *; cbn [fold_right]. apply prime_ge_2 in Pq. nia. }
  clear - D HB Sp P2 H. nia.
Qed.

Lemma mul_mod_eq n a a' b b' : a mod n = a' mod n -> b mod n = b' mod n -> (a * b) mod n = (a' * b') mod n.
Proof. intros Ea Eb. rewrite (Zmult_mod a b), Ea, Eb, <- Zmult_mod. reflexivity. Qed.
(** Powers, for any multiplication that is right modulo n. *)
Section Power.
  Variable n : Z.
  Variable mulm : Z -> Z -> Z.
  Hypothesis Hn : 0 < n.
  Hypothesis Hmul : forall x y, 0 <= x -> 0 <= y -> 0 <= mulm x y /\ mulm x y mod n = x * y mod n.
  Fixpoint power (x : Z) (e : positive) : Z :=
    match e with
    | xH => x
    | xO f => let y := power x f in mulm y y
    | xI f => let y := power x f in mulm (mulm y y) x
    end.
  Lemma power_ok x e : 0 <= x -> 0 <= power x e /\ power x e mod n = x ^ Zpos e mod n.
  Proof.
    intros Hx; induction e as [e [IH0 IH]|e [IH0 IH]|]; cbn [power].
    - destruct (Hmul _ _ IH0 IH0) as [M0 M]. destruct (Hmul _ _ M0 Hx) as [N0 N]. split; [exact N0|].
      rewrite N. replace (x ^ Zpos (xI e)) with (x ^ Zpos e * x ^ Zpos e * x).
      2: { rewrite (Pos2Z.inj_xI e), Z.pow_add_r, Z.pow_1_r by lia. replace (2 * Zpos e) with (Zpos e + Zpos e) by lia. rewrite Z.pow_add_r by lia. reflexivity. }
      apply mul_mod_eq; [|reflexivity]. rewrite M. apply mul_mod_eq; exact IH.
    - destruct (Hmul _ _ IH0 IH0) as [M0 M]. split; [exact M0|]. rewrite M.
      rewrite (Pos2Z.inj_xO e). replace (2 * Zpos e) with (Zpos e + Zpos e) by lia. rewrite Z.pow_add_r by lia. apply mul_mod_eq; exact IH.
    - rewrite Z.pow_1_r; split; [exact Hx | reflexivity].
  Qed.
End Power.

(** Reduction by subtraction, bit by bit. *)
Definition red (n x : Z) : Z := let d := x - n in match d with Zneg _ => x | _ => d end.
Fixpoint mulr (n a : Z) (b : positive) : Z :=
  match b with
  | xH => a
  | xO c => red n (Z.double (mulr n a c))
  | xI c => red n (red n (Z.double (mulr n a c) + a))
  end.
Definition mulred (n x y : Z) : Z := match y with Zpos b => mulr n x b | _ => 0 end.
Lemma red_ok n x : 0 < n -> 0 <= x -> 0 <= red n x /\ red n x mod n = x mod n.
Proof.
  intros Hn Hx. unfold red. destruct (x - n) eqn:E; [| |split; [exact Hx | reflexivity]];
  (split; [lia|]; rewrite <- E; replace (x - n) with (x + (-1) * n) by ring; apply Z_mod_plus_full).
Qed.
Lemma mulr_ok n a b : 0 < n -> 0 <= a -> 0 <= mulr n a b /\ mulr n a b mod n = a * Zpos b mod n.
Proof.
  intros Hn Ha; induction b as [b [I0 I]|b [I0 I]|]; cbn [mulr].
  - rewrite Z.double_spec. destruct (red_ok n (2 * mulr n a b + a) Hn ltac:(lia)) as [R0 R]. destruct (red_ok n _ Hn R0) as [S0 S1]. split; [exact S0|].
    rewrite S1, R, <- Z.add_mod_idemp_l, <- Z.mul_mod_idemp_r, I, Z.mul_mod_idemp_r, Z.add_mod_idemp_l by lia. f_equal. lia.
  - rewrite Z.double_spec. destruct (red_ok n (2 * mulr n a b) Hn ltac:(lia)) as [R0 R]. split; [exact R0|].
    rewrite R, <- Z.mul_mod_idemp_r, I, Z.mul_mod_idemp_r by lia. f_equal. lia.
  - rewrite Z.mul_1_r. split; [exact Ha | reflexivity].
Qed.
Lemma mulred_ok n : 0 < n -> forall x y, 0 <= x -> 0 <= y -> 0 <= mulred n x y /\ mulred n x y mod n = x * y mod n.
Proof. intros Hn x y Hx Hy; unfold mulred. destruct y; [rewrite Z.mul_0_r; split; [lia | reflexivity] | apply mulr_ok; assumption | lia]. Qed.

(** Modulo 2^255 - 19 the bits above 2^255 are folded back. *)
Definition fold255 (x : Z) : Z := 19 * Z.shiftr x 255 + Z.land x (Z.ones 255).
Definition mulp (x y : Z) : Z := fold255 (fold255 (x * y)).
Lemma fold255_ok x : 0 <= x -> 0 <= fold255 x /\ fold255 x mod p25519 = x mod p25519.
Proof.
  intros Hx; unfold fold255. rewrite Z.shiftr_div_pow2, Z.land_ones by lia.
  pose proof (Z.div_mod x (2 ^ 255) ltac:(lia)) as D. pose proof (Z.mod_pos_bound x (2 ^ 255) ltac:(lia)) as M.
  assert (0 <= x / 2 ^ 255) by (apply Z.div_pos; lia). set (q := x / 2 ^ 255) in *. set (m := x mod 2 ^ 255) in *. split; [lia|].
  replace (19 * q + m) with (x + (- q) * p25519); [apply Z_mod_plus_full|]. unfold p25519. lia.
Qed.
Lemma mulp_ok : forall x y, 0 <= x -> 0 <= y -> 0 <= mulp x y /\ mulp x y mod p25519 = x * y mod p25519.
Proof.
  intros x y Hx Hy; unfold mulp. destruct (fold255_ok (x * y) ltac:(nia)) as [F0 F]. destruct (fold255_ok _ F0) as [G0 G]. split; [exact G0 | rewrite G; exact F].
Qed.

Definition q1 : Z := 74058212732561358302231226437062788676166966415465897661863160754340907.
Definition q2 : Z := 75445702479781427272750846543864801.
Lemma gcd_red x n : 0 < n -> Z.gcd (x mod n - 1) n = 1 -> Z.gcd (x - 1) n = 1.
Proof. intros Hn H. rewrite <- gcd_mod_l by lia. exact H. Qed.
Lemma pow_chain n mulm x e f y : 0 < n -> (forall x y, 0 <= x -> 0 <= y -> 0 <= mulm x y /\ mulm x y mod n = x * y mod n) ->
  0 <= y -> 0 <= f -> y mod n = x ^ f mod n -> 0 <= power mulm y e /\ power mulm y e mod n = x ^ (f * Zpos e) mod n.
Proof.
  intros Hn Hm Hy Hf E. destruct (power_ok n mulm Hn Hm y e Hy) as [P0 P]. split; [exact P0|].
  rewrite P, Z.pow_mul_r by lia. apply pow_mod_eq; assumption.
Qed.

(** Base 2 and n - 1 = cof * qa * qb. *)
Definition check2 (n : Z) (m : Z -> Z -> Z) (cof qa qb : positive) : bool :=
  let c := power m 2 cof in
  let b := power m c qa in
  (power m b qb mod n =? 1) && (Z.gcd (b mod n - 1) n =? 1) && (Z.gcd (power m c qb mod n - 1) n =? 1).
Lemma check2_ok n m cof qa qb : 1 < n -> (forall x y, 0 <= x -> 0 <= y -> 0 <= m x y /\ m x y mod n = x * y mod n) ->
  n - 1 = Zpos cof * Zpos qa * Zpos qb -> prime (Zpos qa) -> prime (Zpos qb) -> NoDup [Zpos qa; Zpos qb] ->
  n < (prods [Zpos qa; Zpos qb] + 1) * (prods [Zpos qa; Zpos qb] + 1) -> check2 n m cof qa qb = true -> prime n.
Proof.
  intros Hn1 HM EN Pa Pb ND HB C. assert (Hn : 0 < n) by lia. unfold check2 in C.
  destruct (pow_chain n m 2 cof 1 2 Hn HM ltac:(lia) ltac:(lia) eq_refl) as [C0 CE]. set (c := power m 2 cof) in *. clearbody c.
  destruct (pow_chain n m 2 qa (1 * Zpos cof) c Hn HM C0 ltac:(lia) CE) as [B0 BE]. set (b := power m c qa) in *. clearbody b.
  destruct (pow_chain n m 2 qb (1 * Zpos cof * Zpos qa) b Hn HM B0 ltac:(lia) BE) as [A0 AE]. destruct (pow_chain n m 2 qb (1 * Zpos cof) c Hn HM C0 ltac:(lia) CE) as [D0 DE].
  rewrite !andb_true_iff in C. destruct C as [[K1 K2] K3]. apply Z.eqb_eq in K1, K2, K3. rewrite AE in K1. rewrite BE in K2. rewrite DE in K3.
  apply gcd_red in K2, K3; try exact Hn. rewrite Z.mul_1_l in K1, K2, K3.
  apply (pocklington_prop n [Zpos qa; Zpos qb]); [exact Hn1 | constructor; [exact Pa | constructor; [exact Pb | constructor]] | exact ND | exact HB |].
  assert (K0 : 2 ^ (n - 1) mod n = 1) by (rewrite EN; exact K1).
  intros q [<-|[<-|[]]].
  - exists 2, (Zpos cof * Zpos qb). split; [lia|]. split; [rewrite EN; ring|]. split; [exact K0 | exact K3].
  - exists 2, (Zpos cof * Zpos qa). split; [lia|]. split; [rewrite EN; ring|]. split; [exact K0 | exact K2].
Qed.
(** Base 2 and n - 1 = cof * qa * 6. *)
Definition check6 (n : Z) (m : Z -> Z -> Z) (cof qa : positive) : bool :=
  let c := power m 2 cof in
  let b := power m c qa in
  let b2 := m b b in
  let b3 := m b2 b in
  (m b3 b3 mod n =? 1) && (Z.gcd (b3 mod n - 1) n =? 1) && (Z.gcd (b2 mod n - 1) n =? 1) && (Z.gcd (power m c 6 mod n - 1) n =? 1).
Lemma check6_ok n m cof qa : 1 < n -> (forall x y, 0 <= x -> 0 <= y -> 0 <= m x y /\ m x y mod n = x * y mod n) ->
  n - 1 = Zpos cof * Zpos qa * 6 -> prime (Zpos qa) -> NoDup [2; 3; Zpos qa] ->
  n < (prods [2; 3; Zpos qa] + 1) * (prods [2; 3; Zpos qa] + 1) -> check6 n m cof qa = true -> prime n.
Proof.
  intros Hn1 HM EN Pa ND HB C. assert (Hn : 0 < n) by lia. unfold check6 in C.
  destruct (pow_chain n m 2 cof 1 2 Hn HM ltac:(lia) ltac:(lia) eq_refl) as [C0 CE]. set (c := power m 2 cof) in *. clearbody c.
  destruct (pow_chain n m 2 qa (1 * Zpos cof) c Hn HM C0 ltac:(lia) CE) as [B0 BE]. set (b := power m c qa) in *. clearbody b. rewrite Z.mul_1_l in BE, CE.
  set (f := Zpos cof) in *. assert (Hf : 0 <= f) by (unfold f; lia). assert (Hq : 0 <= Zpos qa) by lia. set (q2 := Zpos qa) in *. clearbody f q2.
  destruct (pow_chain n m 2 2 (f * q2) b Hn HM B0 ltac:(lia) BE) as [B20 B2E]. cbn [power] in B20, B2E.
  destruct (pow_chain n m 2 3 (f * q2) b Hn HM B0 ltac:(lia) BE) as [B30 B3E]. cbn [power] in B30, B3E.
  destruct (pow_chain n m 2 2 (f * q2 * 3) _ Hn HM B30 ltac:(lia) B3E) as [A0 AE]. cbn [power] in A0, AE.
  destruct (pow_chain n m 2 6 f c Hn HM C0 Hf CE) as [D0 DE].
  cbv zeta in C. rewrite !andb_true_iff in C. destruct C as [[[K1 K2] K3] K4]. apply Z.eqb_eq in K1, K2, K3, K4. rewrite AE in K1. rewrite B3E in K2. rewrite B2E in K3. rewrite DE in K4.
  apply gcd_red in K2, K3, K4; try exact Hn.
  apply (pocklington_prop n [2; 3; q2]); [exact Hn1 | constructor; [exact prime_2 | constructor; [exact prime_3 | constructor; [exact Pa | constructor]]] | exact ND | exact HB |].
  assert (K0 : 2 ^ (n - 1) mod n = 1) by (rewrite EN; replace (f * q2 * 6) with (f * q2 * 3 * 2) by ring; exact K1).
  intros q [<-|[<-|[<-|[]]]].
  - exists 2, (f * q2 * 3). split; [lia|]. split; [rewrite EN; ring|]. split; [exact K0 | exact K2].
  - exists 2, (f * q2 * 2). split; [lia|]. split; [rewrite EN; ring|]. split; [exact K0 | exact K3].
  - exists 2, (f * 6). split; [lia|]. split; [rewrite EN; ring|]. split; [exact K0 | exact K4].
Qed.
(** Base 2 and n - 1 = cof * qa. *)
Definition check1 (n : Z) (m : Z -> Z -> Z) (cof qa : positive) : bool :=
  let c := power m 2 cof in (power m c qa mod n =? 1) && (Z.gcd (c mod n - 1) n =? 1).
Lemma check1_ok n m cof qa : 1 < n -> (forall x y, 0 <= x -> 0 <= y -> 0 <= m x y /\ m x y mod n = x * y mod n) ->
  n - 1 = Zpos cof * Zpos qa -> prime (Zpos qa) ->
  n < (prods [Zpos qa] + 1) * (prods [Zpos qa] + 1) -> check1 n m cof qa = true -> prime n.
Proof.
  intros Hn1 HM EN Pa HB C. assert (Hn : 0 < n) by lia. unfold check1 in C.
  destruct (pow_chain n m 2 cof 1 2 Hn HM ltac:(lia) ltac:(lia) eq_refl) as [C0 CE]. set (c := power m 2 cof) in *. clearbody c.
  destruct (pow_chain n m 2 qa (1 * Zpos cof) c Hn HM C0 ltac:(lia) CE) as [B0 BE].
  cbv zeta in C. apply andb_prop in C; destruct C as [K1 K2]. apply Z.eqb_eq in K1, K2. rewrite BE in K1. rewrite CE in K2. apply gcd_red in K2; [|exact Hn]. rewrite Z.mul_1_l in K1, K2.
  apply (pocklington_prop n [Zpos qa]); [exact Hn1 | constructor; [exact Pa | constructor] | constructor; [intros [] | constructor] | exact HB |].
  intros q [<-|[]]. exists 2, (Zpos cof). split; [lia|]. split; [rewrite EN; ring|]. split; [rewrite EN; exact K1 | exact K2].
Qed.

Lemma prime_q2 : prime q2.
Proof.
  refine (check2_ok q2 (mulred q2) 519165620632800 1919519569386763 75707 _ (mulred_ok q2 _) _ prime_r prime_75707 _ _ _); try (vm_compute; reflexivity); nodup.
Qed.
Lemma prime_q1 : prime q1.
Proof.
  refine (check6_ok q1 (mulred q1) 163601571060123448557499976939845351 75445702479781427272750846543864801 _ (mulred_ok q1 _) _ prime_q2 _ _ _);
    try (vm_compute; reflexivity); nodup.
Qed.
Theorem prime_25519 : prime p25519.
Proof.
  refine (check1_ok p25519 mulp 781764 74058212732561358302231226437062788676166966415465897661863160754340907 _ mulp_ok _ prime_q1 _ _); vm_compute; reflexivity.
Qed.
