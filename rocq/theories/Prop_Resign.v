(** Property C141: no two signatures of one program are the same, even of the same message. *)
From Verif Require Import Base BaseP S_Hash M_Hash P_Hash Prop_Hash M_HKDF P_HKDF Prop_HKDF S_Bignum M_Bignum P_Bignum Prop_Bignum M_Mont P_Mont S_RSA M_RSA P_RSA RSA_Keys Prop_RSA Prop_RSA2 M_Random P_Random Prop_Random Prop_Predict Prop_Space Prop_Salt.
Open Scope Z_scope.

(** Random strings of sixteen bytes or more drawn one after the other, with m other values drawn between, differ in their
    first sixteen bytes. *)
Theorem C141_strings : forall s s1 s2 m target target' out out', seeded s -> length target = length target' -> (16 <= length target)%nat ->
  generate_random8 s target = Ok (s1, out) -> generate_random8 (after m s1) target' = Ok (s2, out') ->
  Z.of_nat m + Z.of_nat (calls (length target) 8) < 2 ^ 63 -> firstn 16 out <> firstn 16 out'.
Proof.
  intros s s1 s2 m target target' out out' S LL L G G' HM E. pose proof S as [T R].
  assert (FILL : forall r tg r' o, generate_random8 r tg = Ok (r', o) -> r' = after (calls (length tg) 8) r).
  { intros r tg r' o GG. destruct (C51_fill r tg) as [(o1 & E1 & _) _]. rewrite GG in E1. congruence. }
  pose proof (FILL _ _ _ _ G) as S1. pose proof (FILL _ _ _ _ G') as S2.
  rewrite <- LL in S2. set (C := calls (length target) 8) in *. assert (HC : (1 <= C)%nat) by (unfold C, calls; apply Nat.div_le_lower_bound; lia). clearbody C.
  assert (AS : after m s1 = after (C + m) s) by (rewrite S1; unfold after; rewrite <- iter_add; reflexivity).
  destruct (after_state (C + m) s T) as [TA CA].
  assert (S' : seeded (after m s1)) by (rewrite AS; split; [exact TA | rewrite CA; apply iter_lcg_range, R]).
  destruct (C136_rest s (after m s1) target target' s1 s2 out out' S S' LL L G G' E) as [_ ES].
  rewrite S1, S2, AS in ES. unfold after in ES at 2. unfold after in ES at 2. rewrite <- iter_add in ES. fold (after (C + m + C) s) in ES.
  apply (f_equal cval) in ES. rewrite (proj2 (after_state C s T)), (proj2 (after_state (C + m + C) s T)) in ES. apply (proj1 (C53_period _ R)) in ES.
  assert (M : (2 * Z.of_nat (C + m)) mod 2 ^ 64 = 0).
  { replace (2 * Z.of_nat (C + m)) with (Z.of_nat (2 * (C + m + C)) - Z.of_nat (2 * C)) by lia. rewrite Zminus_mod, ES, Z.sub_diag. reflexivity. }
  rewrite Z.mod_small in M; lia.
Qed.
Print Assumptions C141_strings.

(** Two PSS signatures made with one key and one identifier, of whatever messages. *)
Theorem C141_signatures : forall w N e d L t a g g' s s1 s2 m target target' salt salt' sk data data' sig sig', pss_alg t = Some a -> key_ok w N e d -> Z.log2 (val N) + 1 = 8 * L ->
  salt_size t + spec_size a + 2 <= L <= 2 ^ 32 -> supplies a g -> supply_ok ASHA256 (g 4%nat) -> supplies a g' -> supply_ok ASHA256 (g' 4%nat) ->
  bytes data -> zlen data < 2 ^ 61 -> bytes data' -> zlen data' < 2 ^ 61 -> seeded s -> zlen target = salt_size t -> zlen target' = salt_size t ->
  generate_random8 s target = Ok (s1, salt) -> generate_random8 (after m s1) target' = Ok (s2, salt') -> Z.of_nat m + 8 < 2 ^ 63 ->
  rsa_private_key w N d = Ok sk -> sign w g sk t salt data = Ok sig -> sign w g' sk t salt' data' = Ok sig' -> sig <> sig'.
Proof.
  intros w N e d L t a g g' s s1 s2 m target target' salt salt' sk data data' sig sig' HT K HB HL Hg Hg4 Hg' Hg4' HD LD HD' LD' S TL TL' G G' HM Esk SG SG' E. subst sig'.
  assert (SZ : 32 <= salt_size t <= 64) by (destruct t; try discriminate HT; cbn [salt_size]; lia).
  assert (LL : length target = length target') by (unfold zlen in *; lia). assert (L16 : (16 <= length target <= 64)%nat) by (unfold zlen in *; lia).
  assert (HC : Z.of_nat m + Z.of_nat (calls (length target) 8) < 2 ^ 63).
  { assert ((calls (length target) 8 <= 8)%nat) by (unfold calls; apply Nat.lt_succ_r, Nat.div_lt_upper_bound; lia). lia. }
  apply (C141_strings s s1 s2 m target target' salt salt' S LL (proj1 L16) G G' HC). f_equal.
  pose proof K as (Hw & LW & HN & He & Hd & HO & _). destruct (public_key_ok w N e Hw HN HO He) as (pk & Epk & _).
  assert (LO : forall r tg r' o, generate_random8 r tg = Ok (r', o) -> zlen o = zlen tg) by (intros r tg r' o GG; destruct (C51_fill r tg) as [(o1 & E1 & LO & _) _]; rewrite GG in E1; injection E1 as _ ->; unfold zlen; rewrite LO; reflexivity).
  assert (ONE : forall h x dat r tg r', supplies a h -> supply_ok ASHA256 (h 4%nat) -> bytes dat -> zlen dat < 2 ^ 61 -> zlen tg = salt_size t -> generate_random8 r tg = Ok (r', x) -> sign w h sk t x dat = Ok sig ->
    seen_salt w a (salt_size t) pk sig = Ok x).
  { intros h x dat r tg r' Hh Hh4 Hdat Ldat Ltg GG SS. pose proof (random_bytes _ _ _ _ GG) as BX. pose proof (LO _ _ _ _ GG) as ZX. rewrite Ltg in ZX. rewrite <- ZX.
    assert (HH : h_hash ASHA256 (h 4%nat 0%nat) [dat] = Ok (spec_hash ASHA256 dat)).
    { rewrite h_hash_ok; [cbn [concat]; rewrite app_nil_r; reflexivity | apply Hh4; repeat constructor | constructor; [exact Hdat | constructor] | cbn [concat]; rewrite app_nil_r; exact Ldat]. }
    apply (C138_salt w a h N e d L (spec_hash ASHA256 dat) x pk sk sig K Epk Esk HB Hh (spec_hash_bytes _ _) BX); [rewrite spec_hash_length, ZX; change (spec_size ASHA256) with 32; lia | rewrite ZX; exact HL|].
    destruct t; try discriminate HT; injection HT as <-; cbn [sign] in SS; rewrite HH in SS; exact SS. }
  pose proof (ONE g salt data s target s1 Hg Hg4 HD LD TL G SG) as A1. pose proof (ONE g' salt' data' (after m s1) target' s2 Hg' Hg4' HD' LD' TL' G' SG') as A2. rewrite A1 in A2. injection A2 as A2. exact A2.
Qed.
Print Assumptions C141_signatures.
Example C141_case : pss_alg Pss_pss_256 = Some ASHA256 /\ key_ok 25 (words 25 N784) (words 25 65537) (words 25 D784) /\ Z.log2 (val (words 25 N784)) + 1 = 8 * 98 /\ salt_size Pss_pss_256 + spec_size ASHA256 + 2 <= 98 <= 2 ^ 32 /\ seeded fresh_rng /\
  exists s1 s2 salt salt', generate_random8 fresh_rng (repeat 0 32) = Ok (s1, salt) /\ generate_random8 (after 0 s1) (repeat 0 32) = Ok (s2, salt') /\ salt <> salt'.
Proof.
  split; [reflexivity|]. split; [exact key784|]. split; [vm_compute; reflexivity|]. split; [vm_compute; split; discriminate|]. split; [split; [reflexivity | cbn [fresh_rng cval]; lia]|].
  do 4 eexists. split; [vm_compute; reflexivity|]. split; [vm_compute; reflexivity | discriminate].
Qed.
