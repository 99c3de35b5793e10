(** Property C138: what a PSS signature tells about the signer's random generator. *)
From Verif Require Import Base BaseP S_Hash M_Hash P_Hash Prop_Hash M_HKDF P_HKDF Prop_HKDF S_Bignum M_Bignum P_Bignum Prop_Bignum M_Mont P_Mont S_RSA M_RSA P_RSA RSA_Keys Prop_RSA Prop_RSA2 M_Random P_Random Prop_Random Prop_Predict M_Prime M_X25519 Prop_Space.
Open Scope Z_scope.

(** The schemes that use a salt, and their hash functions. *)
Definition pss_alg (t : scheme) : option alg :=
  match t with
  | Pss_rsae_256 | Pss_pss_256 => Some ASHA256 | Pss_rsae_384 | Pss_pss_384 => Some ASHA384 | Pss_rsae_512 | Pss_pss_512 => Some ASHA512
  | _ => None
  end.

(** The salt as anyone can read it from a signature with the public key (rsa.h:112-118). *)
Definition seen_salt (w : nat) (a : alg) (sLen : Z) (k : pubkey) (sig : list Z) : res (list Z) :=
  do b <- of_bytes (bits_of w) (rev sig);
  do r <- rsaep w k b;
  getSalt a (zsup a) sLen (rev (resize (as_bytes r) (zlen sig))).
Theorem C138_salt : forall w a g N e d L mh salt pk sk sig, key_ok w N e d -> rsa_public_key w N e = Ok pk -> rsa_private_key w N d = Ok sk ->
  Z.log2 (val N) + 1 = 8 * L -> supplies a g -> bytes mh -> bytes salt -> zlen mh + zlen salt < 2 ^ 60 -> zlen salt + spec_size a + 2 <= L <= 2 ^ 32 ->
  signPss w a g sk mh salt = Ok sig -> seen_salt w a (zlen salt) pk sig = Ok salt.
Proof.
  intros w a g N e d L mh salt pk sk sig (Hw & LW & HN & He & Hd & HO & N1 & E0 & D0 & DV) Epk Esk HB Hg HM HS LM HL SG.
  pose proof (spec_size_range a) as SR. pose proof (zlen_nonneg salt) as SN. pose proof (bn_range _ _ HN) as BN.
  destruct (sign_value w a g N d sk mh salt L Hw LW HN HO Hd Esk ltac:(rewrite HB, Z.mul_comm; apply Z.div_mul; lia) Hg HM HS LM HL) as (s & Es & Ps).
  rewrite SG in Es. injection Es as ->.
  destruct (public_key_ok w N e Hw HN HO He) as (pk' & Epk' & Gp & Pe & _). rewrite Epk in Epk'; injection Epk' as <-.
  set (em := emsa_pss (spec_hash a) (spec_size a) mh salt L) in *.
  assert (EV : 0 <= be_val em < 2 ^ (8 * L - 1)) by (apply emsa_pss_val; [lia | exact HS]).
  assert (EL : zlen em = L) by (apply emsa_pss_length; lia). assert (EB : bytes em) by (apply emsa_pss_bytes, HS).
  pose proof (Z.log2_spec (val N) ltac:(lia)) as [LG1 LG2]. replace (Z.succ (Z.log2 (val N))) with (8 * L) in LG2 by lia. replace (Z.log2 (val N)) with (8 * L - 1) in LG1 by lia.
  assert (P256 : 2 ^ (8 * L) = 256 ^ Z.of_nat (Z.to_nat L)) by (rewrite Z2Nat.id by lia; rewrite Z.pow_mul_r by lia; reflexivity).
  assert (Vs : 0 <= val s <= val N).
  { destruct Ps as (_ & [->|[-> _]] & _); [pose proof (Z.mod_pos_bound (be_val em ^ val d) (val N) ltac:(lia)); lia | lia]. }
  unfold seen_salt. destruct (of_bytes_be w (be_bytes (Z.to_nat L) (val s)) (be_bytes_bytes _ _)) as (b & E & Hb & Vb). rewrite E; cbn [bind].
  destruct (rsaep_ok w pk (val N) b Gp ltac:(rewrite Pe; exact He) Hb) as (r & E2 & Pr). rewrite E2; cbn [bind].
  rewrite Vb, be_val_bytes in Pr by lia. rewrite Z.mod_small in Pr by (pose proof (bn_range _ _ (proj1 Ps)); lia). rewrite Pe in Pr.
  assert (Vr : val r = be_val em) by (refine (powers_cancel w (val N) (be_val em) _ _ s r _ _ D0 E0 _ Ps Pr); [lia | lia | rewrite Z.mul_comm; apply DV]).
  unfold zlen at 2. rewrite be_bytes_length, (to_string w r (Z.to_nat L) (proj1 Pr)), Vr. replace (Z.to_nat L) with (length em) by (unfold zlen in EL; lia). rewrite be_bytes_val by exact EB.
  unfold em. apply getSalt_emsa; [apply zsup_ok | exact HS | exact HL].
Qed.
Print Assumptions C138_salt.

(** The state after a random string of sixteen bytes or more, from that string alone. *)
Definition every_state : list Z := map Z.of_nat (seq 0 (Z.to_nat (2 ^ 64))).
Definition gives (out : list Z) (c : Z) : bool := (0 <=? c) && (c <? 2 ^ 64) && match generate_random8 (Rng [] c) (repeat 0 (length out)) with Ok (_, o) => list_eqb o out | _ => false end.
Definition state_after (out : list Z) : rng :=
  match find (gives out) every_state with
  | Some c => match generate_random8 (Rng [] c) (repeat 0 (length out)) with Ok (t, _) => t | _ => fresh_rng end
  | None => fresh_rng
  end.
Lemma state_after_ok s target t out : seeded s -> (16 <= length target)%nat -> generate_random8 s target = Ok (t, out) -> length out = length target /\ state_after out = t.
Proof.
  intros S L G. assert (LO : length out = length target) by (destruct (C51_fill s target) as [(o & E & LO & _) _]; rewrite G in E; injection E as _ ->; exact LO). split; [exact LO|].
  pose proof S as [T R]. destruct s as [ts c]. cbn [tests cval] in *. subst ts.
  assert (G0 : generate_random8 (Rng [] c) (repeat 0 (length out)) = Ok (t, out)) by (rewrite <- G; apply (proj1 (C51_independent (Rng [] c) (repeat 0 (length out)) target (eq_trans (repeat_length 0 _) LO)))).
  assert (HIT : gives out c = true) by (unfold gives; rewrite G0, (proj2 (list_eqb_eq out out) eq_refl), (proj2 (Z.leb_le 0 c) (proj1 R)), (proj2 (Z.ltb_lt c (2 ^ 64)) (proj2 R)); reflexivity).
  unfold state_after. destruct (found (gives out) every_state c (in_range _ c R) HIT) as (y & -> & HY). unfold gives in HY. apply andb_true_iff in HY as [RY HY]. apply andb_true_iff in RY as [RY1 RY2]. apply Z.leb_le in RY1. apply Z.ltb_lt in RY2.
  destruct (generate_random8 (Rng [] y) (repeat 0 (length out))) as [[t' o]| | |] eqn:GY; try discriminate HY. apply list_eqb_eq in HY. subst o.
  destruct (C136_rest (Rng [] y) (Rng [] c) (repeat 0 (length out)) (repeat 0 (length out)) t' t out out (conj eq_refl (conj RY1 RY2)) S eq_refl ltac:(rewrite repeat_length; lia) GY G0 eq_refl) as [_ E]. exact E.
Qed.
Lemma random_bytes s target t out : generate_random8 s target = Ok (t, out) -> bytes out.
Proof.
  intros G. destruct (C51_fill s target) as [(o & E & LO & F) _]. rewrite G in E. injection E as _ ->. apply Forall_forall. intros x X. apply (In_nth _ _ 0) in X as (j & J & <-).
  rewrite F by (rewrite <- LO; exact J). unfold byte. change 256 with (2 ^ 8). apply Z.mod_pos_bound. reflexivity.
Qed.

(** Whoever sees one PSS signature knows the state of the signer's generator after it: *)
Definition spy (w : nat) (N e : list Z) (t : scheme) (sig : list Z) : rng :=
  match pss_alg t, rsa_public_key w N e with
  | Some a, Ok pk => match seen_salt w a (salt_size t) pk sig with Ok salt => state_after salt | _ => fresh_rng end
  | _, _ => fresh_rng
  end.
Theorem C138_state : forall w N e d L t a g s s' target salt sk data sig, pss_alg t = Some a -> key_ok w N e d -> Z.log2 (val N) + 1 = 8 * L ->
  salt_size t + spec_size a + 2 <= L <= 2 ^ 32 -> supplies a g -> supply_ok ASHA256 (g 4%nat) -> bytes data -> zlen data < 2 ^ 61 ->
  seeded s -> zlen target = salt_size t -> generate_random8 s target = Ok (s', salt) -> rsa_private_key w N d = Ok sk -> sign w g sk t salt data = Ok sig ->
  spy w N e t sig = s'.
Proof.
  intros w N e d L t a g s s' target salt sk data sig HT K HB HL Hg Hg4 HD LD S TL G Esk SG.
  assert (T16 : (16 <= length target)%nat) by (unfold zlen in TL; destruct t; try discriminate HT; cbn [salt_size] in TL; lia).
  destruct (state_after_ok _ _ _ _ S T16 G) as [LO SA]. assert (ZS : zlen salt = salt_size t) by (unfold zlen in *; rewrite LO; exact TL).
  pose proof (random_bytes _ _ _ _ G) as BS. pose proof K as (Hw & LW & HN & He & Hd & HO & _). destruct (public_key_ok w N e Hw HN HO He) as (pk & Epk & _).
  assert (HH : h_hash ASHA256 (g 4%nat 0%nat) [data] = Ok (spec_hash ASHA256 data)).
  { rewrite h_hash_ok; [cbn [concat]; rewrite app_nil_r; reflexivity | apply Hg4; repeat constructor | constructor; [exact HD | constructor] | cbn [concat]; rewrite app_nil_r; exact LD]. }
  assert (SP : signPss w a g sk (spec_hash ASHA256 data) salt = Ok sig) by (destruct t; try discriminate HT; injection HT as <-; cbn [sign] in SG; rewrite HH in SG; exact SG).
  unfold spy. rewrite HT, Epk, <- ZS. rewrite (C138_salt w a g N e d L (spec_hash ASHA256 data) salt pk sk sig K Epk Esk HB Hg (spec_hash_bytes _ _) BS); [exact SA| |rewrite ZS; exact HL|exact SP].
  rewrite spec_hash_length, ZS. destruct t; vm_compute; reflexivity.
Qed.
Print Assumptions C138_state.
(** ... the X25519 private key and the prime the signer makes next. *)
Theorem C138_next_refuted : exists private_key : nat -> list Z -> list Z -> scheme -> list Z -> res (list Z), exists prime : nat -> nat -> bool -> nat -> list Z -> list Z -> scheme -> list Z -> res (rng * list Z),
  forall w N e d L t a g s s' target salt sk data sig, pss_alg t = Some a -> key_ok w N e d -> Z.log2 (val N) + 1 = 8 * L ->
  salt_size t + spec_size a + 2 <= L <= 2 ^ 32 -> supplies a g -> supply_ok ASHA256 (g 4%nat) -> bytes data -> zlen data < 2 ^ 61 ->
  seeded s -> zlen target = salt_size t -> generate_random8 s target = Ok (s', salt) -> rsa_private_key w N d = Ok sk -> sign w g sk t salt data = Ok sig ->
  private_key w N e t sig = (do r <- bignum_random 256 s'; random_private_key (snd r)) /\
  forall fuel n strict, prime fuel n strict w N e t sig = random_prime fuel n strict s'.
Proof.
  exists (fun w N e t sig => do r <- bignum_random 256 (spy w N e t sig); random_private_key (snd r)), (fun fuel n strict w N e t sig => random_prime fuel n strict (spy w N e t sig)).
  intros w N e d L t a g s s' target salt sk data sig H1 H2 H3 H4 H5 H6 H7 H8 H9 H10 H11 H12 H13.
  rewrite (C138_state w N e d L t a g s s' target salt sk data sig H1 H2 H3 H4 H5 H6 H7 H8 H9 H10 H11 H12 H13). split; reflexivity.
Qed.
Print Assumptions C138_next_refuted.
(** ... and with it the secrets the signer agrees on next: who listens computes the shared secret from the public key, the
    signature and the other party's public value u. *)
Theorem C138_secret_refuted : exists listen : nat -> list Z -> list Z -> scheme -> list Z -> list Z -> res (list Z),
  forall w N e d L t a g s s' s'' target salt sk data sig r k u, pss_alg t = Some a -> key_ok w N e d -> Z.log2 (val N) + 1 = 8 * L ->
  salt_size t + spec_size a + 2 <= L <= 2 ^ 32 -> supplies a g -> supply_ok ASHA256 (g 4%nat) -> bytes data -> zlen data < 2 ^ 61 ->
  seeded s -> zlen target = salt_size t -> generate_random8 s target = Ok (s', salt) -> rsa_private_key w N d = Ok sk -> sign w g sk t salt data = Ok sig ->
  bignum_random 256 s' = Ok (s'', r) -> random_private_key r = Ok k -> listen w N e t sig u = X25519 k u.
Proof.
  exists (fun w N e t sig u => do r <- bignum_random 256 (spy w N e t sig); do k <- random_private_key (snd r); X25519 k u).
  intros w N e d L t a g s s' s'' target salt sk data sig r k u H1 H2 H3 H4 H5 H6 H7 H8 H9 H10 H11 H12 H13 R K.
  rewrite (C138_state w N e d L t a g s s' target salt sk data sig H1 H2 H3 H4 H5 H6 H7 H8 H9 H10 H11 H12 H13), R. cbn [bind snd]. rewrite K. reflexivity.
Qed.
Print Assumptions C138_secret_refuted.
Example C138_case : pss_alg Pss_pss_256 = Some ASHA256 /\ key_ok 25 (words 25 N784) (words 25 65537) (words 25 D784) /\ salt_size Pss_pss_256 + spec_size ASHA256 + 2 <= 98 <= 2 ^ 32 /\
  seeded fresh_rng /\ (exists t salt, generate_random8 fresh_rng (repeat 0 32) = Ok (t, salt)) /\ supply_ok ASHA256 (zsup ASHA256).
Proof.
  split; [reflexivity|]. split; [exact key784|]. split; [vm_compute; split; discriminate|]. split; [split; [reflexivity | cbn [fresh_rng cval]; lia]|].
  split; [do 2 eexists; vm_compute; reflexivity | apply zsup_ok].
Qed.
