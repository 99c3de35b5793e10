(** The Miller-Rabin model: exact characterisation, acceptance of primes, rejection of
    multiples of the table's primes. *)
From Coq Require Import Znumtheory.
From Verif Require Import Base BaseP S_Bignum S_Prime M_Bignum P_Bignum M_Mont P_Mont M_Prime P_Fermat P_Prime.
Open Scope Z_scope.

Lemma split_twos_ok n : (0 < n)%nat -> forall fuel r d, bn n d -> val d <> 0 -> val d < 2 ^ Z.of_nat fuel -> 0 <= r -> r + Z.of_nat fuel < 2 ^ 64 ->
  exists k d', split_twos fuel r d = Ok (r + k, d') /\ 0 <= k /\ bn n d' /\ val d = 2 ^ k * val d' /\ Z.odd (val d') = true.
Proof.
  intros Hn. induction fuel as [|f IH]; intros r d Hd D0 L Hr B; pose proof (bn_range _ _ Hd) as R; [change (2 ^ Z.of_nat 0) with 1 in L; lia|].
  cbn [split_twos]. rewrite (bit_ok n d 0 Hd) by lia; cbn [bind]. rewrite Z.bit0_odd.
  destruct (Z.odd (val d)) eqn:O; cbn [Z.b2z].
  - change (1 =? 0) with false; cbv iota. exists 0, d. rewrite Z.add_0_r, Z.pow_0_r, Z.mul_1_l. repeat split; try lia; try apply Hd; exact O.
  - change (0 =? 0) with true; cbv iota. rewrite w64_small by lia. destruct (shr1_ok n d Hd) as [H1 V1].
    assert (E : val d = 2 * (val d / 2)). { apply Z.div_exact; [lia|]. rewrite Zmod_odd, O; reflexivity. }
    destruct (IH (r + 1) (shr1 d) H1) as (k & d' & E' & Hk & Hd' & V & O'); try lia.
    { rewrite V1. rewrite Nat2Z.inj_succ, Z.pow_succ_r in L by lia. lia. }
    exists (k + 1), d'. split; [rewrite E'; f_equal; f_equal; lia|]. split; [lia|]; split; [exact Hd'|]; split; [|exact O'].
    rewrite E, <- V1, V, Z.pow_add_r, Z.pow_1_r by lia. ring.
Qed.

Lemma reads_eq n st N x a c w : good n st N -> rep n N x a -> bn n w -> val w = c -> 0 < c < N -> exists o, mont_out n st x = Ok o /\ eq_ o w = (a mod N =? c).
Proof.
  intros G H Hw Vw Hc. destruct (mont_out_ok n st N x a G H) as (t & E & Ht & M & B1 & B2). exists t; split; [exact E|].
  rewrite (eq_ok n t w Ht Hw), Vw. rewrite <- M. destruct (Z.eq_dec (val t) N) as [C|C]; [|rewrite Z.mod_small by lia; reflexivity].
  rewrite C, Z.mod_same by lia. destruct (Z.eqb_spec N c), (Z.eqb_spec 0 c); reflexivity || lia.
Qed.

Lemma sq_pow a e : 0 <= e -> a ^ e * a ^ e = a ^ (2 * e).
Proof. intros; rewrite <- Z.pow_add_r by lia; f_equal; lia. Qed.

Lemma witness_loop_ok n st N w a : good n st N -> 1 < N -> bn n w -> val w = N - 1 -> forall count x e, 0 <= e -> rep n N x (a ^ e) ->
  exists b, witness_loop count n st x w = Ok b /\ (b = true <-> exists i, 1 <= i <= Z.of_nat count /\ a ^ (2 ^ i * e) mod N = N - 1).
Proof.
  intros G HN Hw Vw. induction count as [|k IH]; intros x e He Hx; cbn [witness_loop].
  - exists false; split; [reflexivity|]. split; [discriminate | intros (i & Hi & _); lia].
  - destruct (mont_mul_ok n st N x x _ _ G Hx Hx) as (x' & E & Hx'). rewrite E; cbn [bind]; clear E. rewrite sq_pow in Hx' by exact He.
    destruct (reads_eq n st N x' _ (N - 1) w G Hx' Hw Vw ltac:(lia)) as (o & E & Q). rewrite E; cbn [bind]; clear E. rewrite Q.
    destruct (Z.eqb_spec (a ^ (2 * e) mod N) (N - 1)) as [C|C].
    + exists true; split; [reflexivity|]. split; [|reflexivity]. intros _. exists 1. split; [lia | exact C].
    + destruct (IH x' (2 * e) ltac:(lia) Hx') as (b & E & HB). exists b; split; [exact E|]. rewrite HB. split; intros (i & Hi & V).
      * exists (i + 1). split; [lia|]. rewrite Z.pow_add_r, Z.pow_1_r by lia. rewrite <- V; f_equal; f_equal; ring.
      * destruct (Z.eq_dec i 1) as [->|Ni]; [contradiction|]. exists (i - 1). split; [lia|]. rewrite <- V; f_equal; f_equal.
        replace i with (1 + (i - 1)) at 2 by ring. rewrite Z.pow_add_r, Z.pow_1_r by lia. ring.
Qed.

Lemma one_loop_ok n st N w d md r a : good n st N -> 2 < N -> bn n w -> val w = N - 1 -> bn n d -> 0 < val d < N -> rep n N md (val d) -> 0 <= a < 2 ^ 32 -> 0 < r ->
  exists b, one_loop n st md r a w = Ok b /\
    (b = true <-> a ^ val d mod N = 1 \/ exists i, 0 <= i < r /\ a ^ (2 ^ i * val d) mod N = N - 1).
Proof.
  intros G HN Hw Vw Hd Bd Hmd Ha Hr. unfold one_loop. pose proof (g_n _ _ _ G) as Hn. rewrite w32_small by exact Ha.
  destruct (of_u32_ok n a Ha Hn) as [Hba Vba]. destruct (mont_of_ok n st N _ G Hba) as (b & E & Hb). rewrite E; cbn [bind]; clear E. rewrite Vba in Hb.
  destruct (mont_out_ok n st N md _ G Hmd) as (e & E & Hee & M & B1 & B2). rewrite E; cbn [bind]; clear E.
  assert (Ve : val e = val d). { rewrite (Z.mod_small (val d)) in M by lia. destruct (Z.eq_dec (val e) N) as [C|C]; [rewrite C, Z.mod_same in M by lia; lia | rewrite Z.mod_small in M by lia; exact M]. }
  destruct (mont_exp_ok n st N b a e G Hb Hee) as (x & E & Hx). rewrite E; cbn [bind]; clear E. rewrite Ve in Hx.
  destruct (of_u32_ok n 1 ltac:(lia) Hn) as [H1 V1].
  destruct (reads_eq n st N x _ 1 _ G Hx H1 V1 ltac:(lia)) as (o & E & Q1). destruct (reads_eq n st N x _ (N - 1) w G Hx Hw Vw ltac:(lia)) as (o' & E' & Q2).
  rewrite E in E'; injection E' as <-. rewrite E; cbn [bind]; clear E. rewrite Q1, Q2.
  destruct (Z.eqb_spec (a ^ val d mod N) 1) as [C|C]; cbn [orb]; [exists true; split; [reflexivity|]; split; [left; exact C | reflexivity]|].
  destruct (Z.eqb_spec (a ^ val d mod N) (N - 1)) as [C2|C2]; cbn [orb].
  - exists true; split; [reflexivity|]. split; [|reflexivity]. intros _; right; exists 0; split; [lia|]. rewrite Z.pow_0_r, Z.mul_1_l; exact C2.
  - destruct (witness_loop_ok n st N w a G ltac:(lia) Hw Vw (Z.to_nat (r - 1)) x (val d) ltac:(lia) Hx) as (b' & E & HB). exists b'; split; [exact E|]. rewrite HB.
    split; [intros (i & Hi & V); right; exists i; split; [clear - Hi Hr; lia | exact V]|]. intros [|(i & Hi & V)]; [contradiction|].
    exists i; split; [|exact V]. destruct (Z.eq_dec i 0) as [->|NI]; [rewrite Z.pow_0_r, Z.mul_1_l in V; contradiction | clear - Hi Hr NI; lia].
Qed.

(** The decomposition N - 1 = 2^r d is unique. *)
Lemma twos_unique : forall r r' d d', 0 <= r -> 0 <= r' -> Z.odd d = true -> Z.odd d' = true -> 2 ^ r * d = 2 ^ r' * d' -> r = r' /\ d = d'.
Proof.
  intros r r' d d' Hr Hr' O O' E.
  assert (K : forall s s' x x', 0 <= s -> s < s' -> Z.odd x = true -> 2 ^ s * x = 2 ^ s' * x' -> False).
  { intros s s' x x' Hs L Ox Ex. replace s' with (s + (1 + (s' - s - 1))) in Ex by ring. rewrite Z.pow_add_r, <- Z.mul_assoc in Ex by lia.
    apply Z.mul_cancel_l in Ex; [|pose proof (Z.pow_pos_nonneg 2 s ltac:(lia) Hs); lia]. rewrite Ex in Ox. rewrite Z.pow_add_r, Z.pow_1_r, <- Z.mul_assoc, Z.odd_mul in Ox by lia. discriminate Ox. }
  destruct (Z.lt_trichotomy r r') as [L|[->|L]]; [exfalso; exact (K r r' d d' Hr L O E) | | exfalso; exact (K r' r d' d Hr' L O' (eq_sym E))].
  split; [reflexivity|]. apply Z.mul_cancel_l in E; [exact E|]. pose proof (Z.pow_pos_nonneg 2 r' ltac:(lia) Hr'); lia.
Qed.

Lemma all_bases_ok n st N w d md r : good n st N -> 2 < N -> bn n w -> val w = N - 1 -> bn n d -> 0 < val d < N -> rep n N md (val d) -> 0 < r ->
  Z.odd (val d) = true -> N - 1 = 2 ^ r * val d -> forall bases, Forall (fun a => 0 <= a < 2 ^ 32) bases ->
  exists b, all_bases bases n st md r w = Ok b /\ (b = true <-> forall a, In a bases -> strong_probable_prime N a).
Proof.
  intros G HN Hw Vw Hd Bd Hmd Hr Od EN. induction 1 as [|a l Ha Hl IH]; cbn [all_bases].
  - exists true; split; [reflexivity|]. split; [intros _ a [] | reflexivity].
  - destruct (one_loop_ok n st N w d md r a G HN Hw Vw Hd Bd Hmd Ha Hr) as (b & E & HB). rewrite E; cbn [bind]; clear E.
    assert (S : b = true <-> strong_probable_prime N a).
    { rewrite HB. split; [intros C; exists r, (val d); auto|]. intros (r' & d' & Hr' & Od' & E' & C). rewrite EN in E'.
      destruct (twos_unique r r' (val d) d' ltac:(lia) ltac:(lia) Od Od' E') as [-> ->]. exact C. }
    destruct b.
    + destruct IH as (b & E & HB'). exists b; split; [exact E|]. rewrite HB'. split; [intros K x [<-|I]; [apply S; reflexivity | apply K, I] | intros K x I; apply K; right; exact I].
    + exists false; split; [reflexivity|]. split; [discriminate|]. intros K. apply S, K; left; reflexivity.
Qed.

Lemma primes_u32 : Forall (fun a => 0 <= a < 2 ^ 32) primes.
Proof.
  assert (H : forallb (fun a => (0 <=? a) && (a <? 2 ^ 32)) primes = true) by (vm_compute; reflexivity).
  rewrite forallb_forall in H. apply Forall_forall; intros x I; apply H in I. lia.
Qed.

Lemma large_ok n num : (0 < n)%nat -> bits_of n < 2 ^ 64 -> bn n num -> 7920 <= val num -> Z.odd (val num) = true ->
  exists b, is_probably_prime n num = Ok b /\ (b = true <-> forall a, In a primes -> strong_probable_prime (val num) a).
Proof.
  intros Hn HB Hnum L O. unfold is_probably_prime. destruct (of_u32_ok n 7920 ltac:(lia) Hn) as [H7 V7]. rewrite (lt_ok n _ _ Hnum H7), V7.
  replace (val num <? 7920) with false by lia. cbv iota. rewrite (bit_ok n num 0 Hnum) by lia; cbn [bind]. rewrite Z.bit0_odd, O; cbn [Z.b2z]. change (1 =? 0) with false; cbv iota.
  destruct (of_u32_ok n 1 ltac:(lia) Hn) as [H1 V1]. destruct (sub_val n num _ Hnum H1) as (Hw & Vw & _).
  pose proof (bn_range _ _ Hnum) as R. rewrite V1, Z.mod_small in Vw by lia. cbv zeta. set (w := snd (sub num (of_u32 (bits_of n) 1))) in *. clearbody w.
  destruct (split_twos_ok n Hn (Z.to_nat (bits_of n)) 0 w Hw ltac:(lia) ltac:(rewrite Z2Nat.id by lia; lia) ltac:(lia) ltac:(rewrite Z2Nat.id by lia; lia)) as (k & d & E & Hk & Hd & V & Od).
  rewrite E; cbn [bind]; clear E. rewrite Z.add_0_l. assert (K0 : 0 < k).
  { destruct (Z.eq_dec k 0) as [->|]; [exfalso|lia]. rewrite Z.pow_0_r, Z.mul_1_l in V. rewrite <- V, Vw, Z.odd_sub, O in Od. discriminate Od. }
  destruct (mont_state_ok n num Hn Hnum) as (st & E & _ & G); [rewrite Zmod_odd, O; reflexivity|]. rewrite E; cbn [bind]; clear E.
  destruct (mont_of_ok n st _ d G Hd) as (md & E & Hmd). rewrite E; cbn [bind]; clear E.
  pose proof (bn_range _ _ Hd) as Rd. assert (P2 : 2 <= 2 ^ k) by (replace k with (1 + (k - 1)) by ring; rewrite Z.pow_add_r, Z.pow_1_r by lia; pose proof (Z.pow_pos_nonneg 2 (k - 1) ltac:(lia) ltac:(lia)); lia).
  assert (D0 : val d <> 0) by (intros Z0; rewrite Z0 in Od; discriminate Od).
  assert (DL : val d < val num) by nia.
  apply (all_bases_ok n st (val num) w d md k G ltac:(lia) Hw Vw Hd ltac:(lia) Hmd K0 Od ltac:(lia) primes primes_u32).
Qed.

Lemma small_ok n num : (0 < n)%nat -> bn n num -> val num < 7920 ->
  is_probably_prime n num = Ok (existsb (Z.eqb (val num)) primes).
Proof.
  intros Hn Hnum L. unfold is_probably_prime. destruct (of_u32_ok n 7920 ltac:(lia) Hn) as [H7 V7]. rewrite (lt_ok n _ _ Hnum H7), V7.
  replace (val num <? 7920) with true by lia. cbv iota. f_equal. pose proof primes_u32 as P. induction P as [|a l Ha Hl IH]; [reflexivity|]. cbn [existsb]. rewrite IH. f_equal.
  rewrite w32_small by exact Ha. destruct (of_u32_ok n a Ha Hn) as [Hx Vx]. rewrite (eq_ok n _ _ Hnum Hx), Vx. reflexivity.
Qed.
Lemma even_ok n num : (0 < n)%nat -> bn n num -> 7920 <= val num -> Z.odd (val num) = false -> is_probably_prime n num = Ok false.
Proof.
  intros Hn Hnum L O. unfold is_probably_prime. destruct (of_u32_ok n 7920 ltac:(lia) Hn) as [H7 V7]. rewrite (lt_ok n _ _ Hnum H7), V7.
  replace (val num <? 7920) with false by lia. cbv iota. rewrite (bit_ok n num 0 Hnum) by lia; cbn [bind]. rewrite Z.bit0_odd, O. reflexivity.
Qed.

(** ** Primes are accepted *)
Lemma square_root_one p x : prime p -> (x * x) mod p = 1 -> x mod p = 1 \/ x mod p = p - 1.
Proof.
  intros P H. pose proof (prime_ge_2 p P) as P2. assert (D : (p | (x - 1) * (x + 1))).
  { apply Z.mod_divide; [lia|]. replace ((x - 1) * (x + 1)) with (x * x - 1) by ring. rewrite Zminus_mod, H, (Z.mod_small 1), Z.sub_diag by lia. reflexivity. }
  apply prime_mult in D; [|exact P]. destruct D as [[k D]|[k D]].
  - left. replace x with (1 + k * p) by lia. rewrite Z.mod_add by lia. apply Z.mod_small; lia.
  - right. replace x with ((p - 1) + (k - 1) * p) by lia. rewrite Z.mod_add by lia. apply Z.mod_small; lia.
Qed.
Lemma prime_strong p a : prime p -> 2 < p -> ~ (p | a) -> strong_probable_prime p a.
Proof.
  intros P L D. assert (O : Z.odd p = true).
  { destruct (Z.odd p) eqn:O; [reflexivity|exfalso]. assert (D2 : (2 | p)) by (apply Z.mod_divide; [lia | rewrite Zmod_odd, O; reflexivity]).
    apply prime_div_prime in D2; [lia | exact prime_2 | exact P]. }
  assert (K : forall f m, 0 < m -> m < 2 ^ Z.of_nat f -> exists k d, 0 <= k /\ Z.odd d = true /\ m = 2 ^ k * d).
  { clear. induction f as [|f IH]; intros m M0 ML; [change (2 ^ Z.of_nat 0) with 1 in ML; lia|]. rewrite Nat2Z.inj_succ, Z.pow_succ_r in ML by lia.
    destruct (Z.odd m) eqn:O; [exists 0, m; rewrite Z.pow_0_r; repeat split; [lia | exact O | lia]|].
    assert (E : m = 2 * (m / 2)) by (apply Z.div_exact; [lia | rewrite Zmod_odd, O; reflexivity]).
    destruct (IH (m / 2) ltac:(lia) ltac:(lia)) as (k & d & Hk & Od & V). exists (k + 1), d. split; [lia|]; split; [exact Od|]. rewrite Z.pow_add_r, Z.pow_1_r by lia. lia. }
  destruct (K (Z.to_nat p) (p - 1) ltac:(lia)) as (r & d & Hr & Od & V); [rewrite Z2Nat.id by lia; pose proof (Z.pow_gt_lin_r 2 p ltac:(lia) ltac:(lia)); lia|].
  assert (R0 : 0 < r). { destruct (Z.eq_dec r 0) as [->|]; [exfalso|lia]. rewrite Z.pow_0_r, Z.mul_1_l in V. rewrite <- V, Z.odd_sub, O in Od. discriminate Od. }
  exists r, d. split; [exact R0|]; split; [exact Od|]; split; [exact V|].
  pose proof (Z.pow_pos_nonneg 2 r ltac:(lia) Hr) as PR. assert (D0 : 0 < d) by nia.
  assert (W : forall j, 0 <= j <= r -> a ^ (2 ^ j * d) mod p = 1 -> a ^ d mod p = 1 \/ exists i, 0 <= i < j /\ a ^ (2 ^ i * d) mod p = p - 1).
  { intros j Hj. assert (J0 : 0 <= j) by lia. revert Hj. pattern j. apply natlike_ind; [|clear j J0; intros j J0 IH Hj E|exact J0].
    - intros _ E. rewrite Z.pow_0_r, Z.mul_1_l in E. left; exact E.
    - pose proof (Z.pow_pos_nonneg 2 j ltac:(lia) J0) as PJ. rewrite (Z.pow_succ_r 2 j J0), <- Z.mul_assoc, <- sq_pow in E by (clear - PJ D0; nia). apply square_root_one in E; [|exact P].
      destruct E as [E|E]; [destruct (IH ltac:(lia) E) as [C|(i & Hi & C)]; [left; exact C | right; exists i; split; [lia | exact C]] | right; exists j; split; [lia | exact E]]. }
  apply (W r ltac:(lia)). rewrite <- V. apply fermat; assumption.
Qed.

(** ** Multiples of a base are rejected *)
Lemma base_divides N a : 1 < a -> 1 < N -> (a | N) -> ~ strong_probable_prime N a.
Proof.
  intros Ha HN D (r & d & Hr & Od & E & C). assert (DA : forall e, 0 < e -> (a | a ^ e)).
  { intros e He. replace e with (1 + (e - 1)) by ring. rewrite Z.pow_add_r, Z.pow_1_r by lia. apply Z.divide_factor_l. }
  assert (K : forall e c, 0 < e -> (c = 1 \/ c = N - 1) -> a ^ e mod N = c -> False).
  { intros e c He Hc EE. assert (DC : (a | c)).
    { rewrite <- EE. rewrite Z.mod_eq by lia. apply Z.divide_sub_r; [apply DA, He | apply Z.divide_mul_l, D]. }
    assert (D1 : (a | 1)). { destruct Hc as [->| ->]; [exact DC|]. replace 1 with (N - (N - 1)) by ring. apply Z.divide_sub_r; assumption. }
    apply Z.divide_1_r in D1. lia. }
  pose proof (Z.pow_pos_nonneg 2 r ltac:(lia) ltac:(lia)) as PR. assert (0 < d) by nia.
  destruct C as [C|(i & Hi & C)]; [exact (K d 1 ltac:(lia) (or_introl eq_refl) C)|].
  apply (K (2 ^ i * d) (N - 1)); [|right; reflexivity | exact C]. pose proof (Z.pow_pos_nonneg 2 i ltac:(lia) ltac:(lia)). nia.
Qed.

(** ** The table *)
Definition trial (p : Z) : bool := forallb (fun k => negb (p mod (Z.of_nat k) =? 0)) (seq 2 88).
Definition composite (n : Z) : bool := existsb (fun k => (k <? n) && (n mod k =? 0)) [2; 3; 5; 7; 11; 13; 17; 19; 23; 29; 31; 37; 41; 43; 47; 53; 59; 61; 67; 71; 73; 79; 83; 89].
Lemma composite_ok n : composite n = true -> ~ prime n.
Proof.
  intros C P. unfold composite in C. apply existsb_exists in C. destruct C as (k & I & C). apply andb_prop in C; destruct C as [L M]. apply Z.ltb_lt in L; apply Z.eqb_eq in M.
  assert (K : 1 < k) by (cbn [In] in I; intuition lia). apply Z.mod_divide in M; [|lia].
  destruct (prime_divisors n P k M) as [|[|[|]]]; lia.
Qed.
Fixpoint walk (fuel : nat) (n : Z) (l : list Z) : bool :=
  match fuel with
  | O => true
  | S f => match l with
           | h :: t => if h =? n then walk f (n + 1) t else composite n && walk f (n + 1) l
           | [] => composite n && walk f (n + 1) []
           end
  end.
Lemma walk_ok : forall fuel n l, walk fuel n l = true -> forall m, n <= m < n + Z.of_nat fuel -> prime m -> In m l.
Proof.
  induction fuel as [|f IH]; intros n l W m Hm P; [lia|]. cbn [walk] in W. destruct l as [|h t].
  - apply andb_prop in W; destruct W as [C W]. destruct (Z.eq_dec m n) as [->|]; [exfalso; exact (composite_ok n C P) | apply (IH (n + 1) [] W m ltac:(lia) P)].
  - destruct (Z.eqb_spec h n) as [->|].
    + destruct (Z.eq_dec m n) as [->|]; [left; reflexivity | right; apply (IH (n + 1) t W m ltac:(lia) P)].
    + apply andb_prop in W; destruct W as [C W]. destruct (Z.eq_dec m n) as [->|]; [exfalso; exact (composite_ok n C P) | apply (IH (n + 1) _ W m ltac:(lia) P)].
Qed.
Definition firsts : list Z := [2; 3; 5; 7; 11; 13; 17; 19; 23; 29; 31; 37; 41; 43; 47; 53; 59; 61; 67; 71; 73; 79; 83; 89].
Lemma table_walk : walk 7925 2 primes = true. Proof. vm_compute; reflexivity. Qed.
Lemma table_trial : forallb (fun p => (90 <? p) && (p <? 8100) && trial p) (skipn 24 primes) = true. Proof. vm_compute; reflexivity. Qed.
Lemma table_small : firstn 24 primes = firsts. Proof. vm_compute; reflexivity. Qed.
Lemma firsts_check : forallb (fun p => (1 <? p) && (p <? 100) && forallb (fun k => negb (p mod (Z.of_nat k) =? 0)) (seq 2 (if p <? 4 then 0 else if p <? 9 then 1 else if p <? 25 then 3 else 8))) firsts = true.
Proof. vm_compute; reflexivity. Qed.
Lemma firsts_prime : Forall prime firsts.
Proof.
  pose proof firsts_check as F. rewrite forallb_forall in F. apply Forall_forall; intros p I. specialize (F p I). rewrite !andb_true_iff in F. destruct F as [[A B1] T].
  apply Z.ltb_lt in A, B1. destruct (Z.ltb_spec p 4); [|destruct (Z.ltb_spec p 9); [|destruct (Z.ltb_spec p 25)]].
  - apply (prime_trial p 2); [lia | lia | exact T].
  - apply (prime_trial p 3); [lia | lia | exact T].
  - apply (prime_trial p 5); [lia | lia | exact T].
  - apply (prime_trial p 10); [lia | lia | exact T].
Qed.
Lemma table_prime p : In p primes -> prime p.
Proof.
  intros I. rewrite <- (firstn_skipn 24 primes), table_small in I. apply in_app_or in I; destruct I as [I|I].
  - pose proof firsts_prime as F. rewrite Forall_forall in F. apply F, I.
  - pose proof table_trial as F. rewrite forallb_forall in F. specialize (F p I). rewrite !andb_true_iff in F. destruct F as [[A B1] T].
    apply Z.ltb_lt in A, B1. apply (prime_trial p 90); [lia | change (Z.of_nat 90) with 90; lia | exact T].
Qed.
Lemma table_exact p : p < 7927 -> (In p primes <-> prime p).
Proof.
  intros L; split; [apply table_prime|]. intros P. pose proof (prime_ge_2 p P). apply (walk_ok 7925 2 primes table_walk); [change (Z.of_nat 7925) with 7925; lia | exact P].
Qed.
Lemma primes_bound p : In p primes -> 2 <= p <= 7919.
Proof.
  assert (H : forallb (fun a => (2 <=? a) && (a <=? 7919)) primes = true) by (vm_compute; reflexivity).
  rewrite forallb_forall in H. intros I; apply H in I. lia.
Qed.
