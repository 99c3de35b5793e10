(** Property C136: how many different keys, primes and salts the generator can give.  The state of the generator
    is one value of 64 bits (random.h), and the keys of one application are functions of it. *)
From Verif Require Import Base BaseP S_Bignum M_Bignum P_Bignum M_Mont M_Random P_Random M_Prime M_X25519 Prop_Random Prop_Predict Prop_Prime.
Open Scope Z_scope.

(** The generators a program can have, whatever the seed. *)
Definition seeded (s : rng) : Prop := tests s = [] /\ 0 <= cval s < 2 ^ 64.

Lemma below_count n l : 0 <= n -> NoDup l -> Forall (fun c => 0 <= c < n) l -> Z.of_nat (length l) <= n.
Proof.
  intros N D F. assert (I : incl l (map Z.of_nat (seq 0 (Z.to_nat n)))) by (intros c C; apply in_range; exact (proj1 (Forall_forall _ _) F c C)).
  pose proof (NoDup_incl_length D I) as L. rewrite map_length, seq_length in L. lia.
Qed.
Lemma sources {X} (F : rng -> X -> Prop) l : (forall s x y, F s x -> F s y -> x = y) -> NoDup l -> Forall (fun x => exists s, seeded s /\ F s x) l ->
  exists cs, length cs = length l /\ NoDup cs /\ Forall (fun c => 0 <= c < 2 ^ 64) cs /\ forall c, In c cs -> exists x, In x l /\ F (Rng [] c) x.
Proof.
  intros Det. induction l as [|x l IH]; intros D A; [exists []; repeat split; [constructor.. | intros c []]|].
  inversion D as [|? ? NI D']. inversion A as [|? ? (s & (T & R) & Fx) A']. subst. destruct (IH D' A') as (cs & L & DC & RC & S). destruct s as [ts c]. cbn [tests cval] in *. subst ts.
  exists (c :: cs). split; [cbn [length]; rewrite L; reflexivity|]. split; [|split; [constructor; assumption|]].
  - constructor; [|exact DC]. intros I. destruct (S c I) as (y & Iy & Fy). apply NI. rewrite (Det _ _ _ Fx Fy). exact Iy.
  - intros d [<-|I]; [exists x; split; [left; reflexivity | exact Fx]|]. destruct (S d I) as (y & Iy & Fy). exists y. split; [right; exact Iy | exact Fy].
Qed.
Lemma few {X} (F : rng -> X -> Prop) l : (forall s x y, F s x -> F s y -> x = y) -> NoDup l -> Forall (fun x => exists s, seeded s /\ F s x) l -> Z.of_nat (length l) <= 2 ^ 64.
Proof. intros Det D A. destruct (sources F l Det D A) as (cs & L & DC & RC & _). rewrite <- L. apply below_count; [lia | exact DC | exact RC]. Qed.

(** The prime found does not depend on how long the search may take. *)
Lemma more_fuel f n strict : forall s r k, random_prime f n strict s = Ok r -> random_prime (f + k) n strict s = Ok r.
Proof.
  induction f as [|f IH]; intros s r k H; [discriminate H|]. cbn [random_prime Nat.add] in *.
  destruct (bignum_random (bits_of n) s) as [[s1 c]| | |]; cbn [bind] in *; try discriminate H.
  repeat match type of H with
  | context [bind ?x _] => destruct x eqn:?; cbn [bind] in *; try discriminate H
  end.
  match goal with H : (if ?b then _ else _) = Ok _ |- _ => destruct b end; [exact H | apply IH, H].
Qed.
Lemma one_prime f f' n strict s r r' : random_prime f n strict s = Ok r -> random_prime f' n strict s = Ok r' -> r = r'.
Proof. intros H H'. apply (more_fuel _ _ _ _ _ f') in H. apply (more_fuel _ _ _ _ _ f) in H'. rewrite Nat.add_comm, H in H'. injection H' as E. exact E. Qed.

(** Whatever their size, no more than 2^64 different primes ... *)
Theorem C136_primes : forall n strict results, NoDup results ->
  Forall (fun p => exists s, seeded s /\ exists fuel s', random_prime fuel n strict s = Ok (s', p)) results -> Z.of_nat (length results) <= 2 ^ 64.
Proof.
  intros n strict l. apply few. intros s p q (f & s1 & H) (f' & s2 & H'). pose proof (one_prime _ _ _ _ _ _ _ H H') as E. injection E as _ E. exact E.
Qed.
(** ... nor RSA moduli made from two primes drawn one after the other, ... *)
Theorem C136_moduli : forall n strict results, NoDup results ->
  Forall (fun N => exists s, seeded s /\ exists fuel fuel' s' s'' p q, random_prime fuel n strict s = Ok (s', p) /\ random_prime fuel' n strict s' = Ok (s'', q) /\ N = val p * val q) results ->
  Z.of_nat (length results) <= 2 ^ 64.
Proof.
  intros n strict l. apply few. intros s x y (f1 & f2 & s1 & s2 & p & q & P & Q & ->) (f1' & f2' & s1' & s2' & p' & q' & P' & Q' & ->).
  pose proof (one_prime _ _ _ _ _ _ _ P P') as E. injection E as <- <-. pose proof (one_prime _ _ _ _ _ _ _ Q Q') as E. injection E as _ <-. reflexivity.
Qed.
(** ... nor private keys for X25519 ... *)
Theorem C136_private_keys : forall results, NoDup results ->
  Forall (fun k => exists s, seeded s /\ exists s' r, bignum_random 256 s = Ok (s', r) /\ random_private_key r = Ok k) results -> Z.of_nat (length results) <= 2 ^ 64.
Proof. intros l. apply few. intros s x y (s1 & r & B & K) (s2 & r' & B' & K'). rewrite B in B'. injection B' as <- <-. rewrite K in K'. injection K' as E. exact E. Qed.
(** ... nor strings of any length. *)
Theorem C136_bytes : forall n results, NoDup results ->
  Forall (fun out => exists s, seeded s /\ exists target s', length target = n /\ generate_random8 s target = Ok (s', out)) results -> Z.of_nat (length results) <= 2 ^ 64.
Proof.
  intros n l. apply few. intros s x y (t & s1 & L & G) (t' & s2 & L' & G'). rewrite (proj1 (C51_independent s t t' (eq_trans L (eq_sym L')))) in G. rewrite G in G'. injection G' as _ E. exact E.
Qed.
Print Assumptions C136_primes.
Print Assumptions C136_moduli.
Print Assumptions C136_private_keys.
Print Assumptions C136_bytes.

Lemma nth_firstn_lt (l : list Z) : forall n i, (i < n)%nat -> nth i (firstn n l) 0 = nth i l 0.
Proof. induction l as [|x l IH]; intros n i I; [rewrite firstn_nil; reflexivity|]. destruct n as [|n]; [lia|]. destruct i as [|i]; [reflexivity|]. apply IH. lia. Qed.
(** The first sixteen bytes of a random string determine the rest of it: *)
Theorem C136_rest : forall s s' target target' t t' out out', seeded s -> seeded s' -> length target = length target' -> (16 <= length target)%nat ->
  generate_random8 s target = Ok (t, out) -> generate_random8 s' target' = Ok (t', out') -> firstn 16 out = firstn 16 out' -> out = out' /\ t = t'.
Proof.
  intros s s' target target' t t' out out' [T R] [T' R'] LL L G G' H.
  destruct (C51_fill s target) as [(o & E & _ & F) _]. destruct (C51_fill s' target') as [(o' & E' & _ & F') _]. rewrite G in E. rewrite G' in E'.
  injection E as Et Eo. injection E' as Et' Eo'. rewrite <- Eo in F. rewrite <- Eo' in F'.
  assert (V : forall k, (k < 2)%nat -> value k s = value k s').
  { intros k K. apply same_bytes; [apply value_range, T | apply value_range, T'|]. intros i I. specialize (F (k * 8 + i)%nat ltac:(lia)). specialize (F' (k * 8 + i)%nat ltac:(lia)).
    replace ((k * 8 + i) / 8)%nat with k in F, F' by (apply Nat.div_unique with i; lia). replace ((k * 8 + i) mod 8)%nat with i in F, F' by (apply Nat.mod_unique with k; lia).
    apply (f_equal (fun l => nth (k * 8 + i) l 0)) in H. rewrite !nth_firstn_lt in H by lia. congruence. }
  assert (S : s = s') by (apply C131_determined; try assumption; [apply V; lia | f_equal; apply V; lia]). subst s'.
  rewrite (proj1 (C51_independent s target target' LL)) in G. rewrite G in G'. injection G' as <- <-. split; reflexivity.
Qed.
Print Assumptions C136_rest.
(** ... so most strings never come out, whatever the seed. *)
Definition drawn : list Z := [179; 134; 104; 130; 172; 111; 87; 108; 205; 85; 3; 98; 153; 225; 250; 165; 230].
Definition never : list Z := firstn 16 drawn ++ [0].
Theorem C136_every_string_refuted : exists out, bytes out /\ length out = 17%nat /\
  forall s target t, seeded s -> length target = 17%nat -> generate_random8 s target <> Ok (t, out).
Proof.
  exists never. split; [repeat constructor; unfold byte; lia|]. split; [reflexivity|]. intros s target t S L G.
  assert (G1 : exists t1, generate_random8 (Rng [] 1) (repeat 0 17) = Ok (t1, drawn)) by (eexists; vm_compute; reflexivity). destruct G1 as [t1 G1].
  destruct (C136_rest (Rng [] 1) s (repeat 0 17) target t1 t drawn never ltac:(split; [reflexivity | cbn [cval]; lia]) S (eq_sym L) ltac:(cbn [length repeat]; lia) G1 G eq_refl) as [E _]. discriminate E.
Qed.
Print Assumptions C136_every_string_refuted.
(** Hypotheses met: strings and primes that do come out. *)
Example C136_case : seeded (Rng [] 1) /\ seeded fresh_rng /\ (exists t, generate_random8 (Rng [] 1) (repeat 0 17) = Ok (t, drawn)) /\
  (exists t, random_prime 5 1 false fresh_rng = Ok (t, [first_prime])) /\ (exists t r k, bignum_random 256 (Rng [] 1) = Ok (t, r) /\ random_private_key r = Ok k).
Proof.
  split; [split; [reflexivity | cbn [cval]; lia]|]. split; [split; [reflexivity | cbn [fresh_rng cval]; lia]|].
  split; [eexists; vm_compute; reflexivity|]. split; [exact C52_prime_refuted|]. do 3 eexists. split; [vm_compute; reflexivity|]. vm_compute; reflexivity.
Qed.
