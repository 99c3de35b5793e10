(** Which part of the certificate parser can fail to end. *)
From Coq Require Import String.
From Verif Require Import Base BaseP M_Base64 M_Hash M_HKDF S_Bignum M_Bignum P_Bignum Prop_Bignum M_Mont P_Mont S_RSA M_RSA P_RSA S_X509 M_X509 P_X509 P_Date P_Name P_Cert S_Verify P_Verify.
Open Scope Z_scope.

Definition ends {A} (r : res A) : Prop := r <> Diverge.
Lemma ends_bind {A B} (a : res A) (f : A -> res B) : ends a -> (forall x, a = Ok x -> ends (f x)) -> ends (do x <- a; f x).
Proof. unfold ends; destruct a; cbn [bind]; intros H F; try discriminate; [apply F; reflexivity | congruence]. Qed.
Lemma ends_ok {A} (x : A) : ends (Ok x). Proof. discriminate. Qed.
Lemma ends_getz {A} (l : list A) i : ends (getz l i).
Proof. unfold getz, ends. destruct (0 <=? i); [destruct (nth_error _ _)|]; discriminate. Qed.
Lemma ends_read v : ends (read v).
Proof. unfold ends. destruct (read_cases v) as [-> |(i & c & v' & ->)]; discriminate. Qed.
#[local] Hint Resolve ends_ok ends_getz ends_read : term.
Ltac nd := repeat first [apply ends_ok | apply ends_getz | apply ends_read | apply ends_bind; [solve [auto with term] | intros ? ?]
  | match goal with |- ends (if ?b then _ else _) => destruct b | |- ends (let '(_, _) := ?p in _) => destruct p | |- ends UB => discriminate | |- ends Throw => discriminate end].
Lemma ends_string v : ends (parse_string v).
Proof. unfold parse_string. nd. Qed.
#[local] Hint Resolve ends_string : term.
Lemma ends_oid v : ends (readOIDAndString v).
Proof. unfold readOIDAndString. nd. Qed.
Lemma ends_two l i : ends (two l i). Proof. unfold two. nd. Qed.
#[local] Hint Resolve ends_oid ends_two : term.
Lemma ends_date v : ends (parse_date v).
Proof.
  unfold parse_date. apply ends_bind; [auto with term|]. intros [[id s] v'] _. apply ends_bind; [auto with term|]. intros z _. destruct (negb (z =? 90)); [nd|].
  apply ends_bind; [nd|]. intros [c|] _; [|nd]. destruct (negb _); [nd|]. do 5 (apply ends_bind; [auto with term|]; intros ? _). destruct (_ || _); [nd|].
  do 2 (apply ends_bind; [auto with term|]; intros ? _). apply ends_bind; [destruct (12 <=? _); auto with term|]. intros ? _. apply ends_bind; [destruct (14 <=? _); auto with term|]. intros ? _. nd.
Qed.
Lemma ends_int v : ends (parse_int v). Proof. unfold parse_int. nd. Qed.
Lemma of_bytes_ends n l : bytes l -> ends (of_bytes (bits_of n) l).
Proof. intros H. destruct (of_bytes_mod n l H) as (r & -> & _). discriminate. Qed.

(** Every element read moves the reader forward. *)
Lemma getz_bound {A} (l : list A) i x : getz l i = Ok x -> 0 <= i < zlen l.
Proof. intros H. destruct (getz_some _ _ _ H) as (p & q & -> & <-). rewrite zlen_app, zlen_cons. nn. lia. Qed.
Lemma read_size_off : forall n d off size s off', read_size n d off size = Ok (s, off') -> off <= off'.
Proof.
  induction n as [|n IH]; intros d off size s off'; cbn [read_size]; [intros [= _ <-]; lia|].
  destruct (getz d off); cbn [bind]; try discriminate. intros H. apply IH in H. lia.
Qed.
Lemma read_step v id c v' : read v = Ok (id, c, v') -> v_span v' = v_span v /\ 0 <= v_off v < zlen (s_data (v_span v)) /\ v_off v + 2 <= v_off v'.
Proof.
  unfold read. intros H. destruct (getz _ (v_off v)) eqn:E0; try discriminate H. cbn [bind] in H. destruct (getz _ (v_off v + 1)) eqn:E1; try discriminate H. cbn [bind] in H.
  match type of H with bind ?x _ = _ => destruct x as [[size off]| | |] eqn:E2; try discriminate H end. cbn [bind] in H.
  destruct (sub_span (v_span v) off size) as [s| | |] eqn:E3; try discriminate H. cbn [bind] in H. injection H as <- <- <-. cbn [v_span v_off].
  apply getz_bound in E0. assert (0 <= size) by (unfold sub_span in E3; destruct (_ && _) eqn:E; [lia | discriminate E3]).
  split; [reflexivity|]. split; [exact E0|]. destruct (_ =? 0); [injection E2 as -> <-; lia|]. apply read_size_off in E2. lia.
Qed.
Lemma oid_step v o s v' : readOIDAndString v = Ok (o, s, v') -> v_span v' = v_span v /\ 0 <= v_off v < zlen (s_data (v_span v)) /\ v_off v + 2 <= v_off v'.
Proof.
  unfold readOIDAndString. intros H. destruct (read v) as [[[id c] w]| | |] eqn:E; try discriminate H. cbn [bind] in H. apply read_step in E.
  assert (w = v'); [|subst; exact E].
  destruct (negb _); [injection H; auto|]. destruct (read (view_of c)) as [[[id2 c2] w2]| | |]; try discriminate H. cbn [bind] in H.
  destruct (negb _); [injection H; auto|]. destruct (read (view_of c2)) as [[[id3 c3] w3]| | |]; try discriminate H. cbn [bind] in H.
  destruct (negb _); [injection H; auto|]. destruct (parse_string w3); try discriminate H. injection H; auto.
Qed.
Lemma ends_name_loop : forall fuel rv v, 0 <= v_off v -> zlen (s_data (v_span v)) < v_off v + Z.of_nat fuel -> (0 < fuel)%nat -> ends (name_loop fuel rv v).
Proof.
  induction fuel as [|fuel IH]; intros rv v H0 HF HP; [lia|]. cbn [name_loop]. destruct (empty v); [apply ends_ok|].
  apply ends_bind; [apply ends_oid|]. intros [[o s] v'] E. destruct (oid_step _ _ _ _ E) as (S1 & S2 & S3). destruct (set_part rv o s); [|apply ends_ok].
  destruct fuel as [|fuel]; [lia|]. apply IH; [lia | rewrite S1; lia | lia].
Qed.
Lemma ends_name s : ends (parse_name (view_of s)).
Proof. unfold parse_name. apply ends_name_loop; cbn [view_of v_off v_span]; unfold zlen; lia. Qed.
Lemma ends_tail : forall fuel v, 0 <= v_off v -> zlen (s_data (v_span v)) < v_off v + Z.of_nat fuel -> (0 < fuel)%nat -> ends (tail_loop fuel v).
Proof.
  induction fuel as [|fuel IH]; intros v H0 HF HP; [lia|]. cbn [tail_loop]. destruct (empty v); [apply ends_ok|].
  apply ends_bind; [apply ends_read|]. intros [[o s] v'] E. destruct (read_step _ _ _ _ E) as (S1 & S2 & S3). destruct (_ || _); [|apply ends_ok].
  destruct fuel as [|fuel]; [lia|]. apply IH; [lia | rewrite S1; lia | lia].
Qed.

(** ** The key *)
Definition all_bytes (s : span) : Prop := bytes (s_data s ++ s_rest s).
Lemma read_bytes v id c v' : all_bytes (v_span v) -> read v = Ok (id, c, v') -> all_bytes c /\ v_span v' = v_span v.
Proof.
  unfold all_bytes. intros HB H. destruct (read_inside _ _ _ _ H) as (pre & E & S1 & _). split; [|exact S1]. rewrite E in HB. apply bytes_app in HB. apply HB.
Qed.
Lemma parse_bignum_inv n v r v' : all_bytes (v_span v) -> parse_bignum (bits_of n) v = Ok (r, v') -> bn n r /\ v_span v' = v_span v.
Proof.
  intros HB. unfold parse_bignum. destruct (read v) as [[[id s] w]| | |] eqn:E; cbn [bind]; try discriminate. destruct (read_bytes _ _ _ _ HB E) as [B1 S1].
  assert (ZW : bn n (zero_words (bits_of n))) by (unfold zero_words; rewrite nwords_mult, Nat2Z.id; apply bn_repeat0). set (zw := zero_words (bits_of n)) in *. clearbody zw.
  destruct (negb _).
  - intros [= <- <-]. auto.
  - apply bytes_app in B1. destruct (strip0_ok _ (proj1 B1)) as [SB _]. destruct (of_bytes_be n _ SB) as (q & -> & Hq & _). cbn [bind]. intros [= <- <-]. auto.
Qed.
Lemma ends_bignum n v : all_bytes (v_span v) -> ends (parse_bignum (bits_of n) v).
Proof.
  intros HB. unfold parse_bignum. apply ends_bind; [auto with term|]. intros [[id s] w] E. destruct (read_bytes _ _ _ _ HB E) as [B1 S1]. destruct (negb _); [nd|].
  apply bytes_app in B1. destruct (strip0_ok _ (proj1 B1)) as [SB _]. apply ends_bind; [apply of_bytes_ends, bytes_rev; exact SB | intros q _; apply ends_ok].
Qed.
Lemma public_key_ends n N e : (0 < n)%nat -> bn n N -> val N <> 0 -> exists k, rsa_public_key n N e = Ok k.
Proof.
  intros Hn HN NZ. unfold rsa_public_key, mont_state, inverse. destruct (inverse_total n n N ltac:(lia) Hn HN) as (inv & EI & Hi). rewrite EI. cbn [bind].
  destruct (neg_ok n inv Hi) as [Hng _]. destruct (of_u32_ok n 1 ltac:(lia) Hn) as [H1 _]. destruct (add_val n _ _ Hng H1) as (HI & _ & _).
  set (Ninv := snd (add (neg inv) (of_u32 (bits_of n) 1))) in *.
  assert (NW : nwords (2 * bits_of n + 1) = Z.of_nat (S (n + n))) by (unfold nwords; symmetry; apply Z.div_unique with 0; lia).
  unfold zero_words; rewrite NW, Nat2Z.id.
  destruct (set_bit_ok (S (n + n)) (repeat 0 (S (n + n))) (2 * bits_of n) (bn_repeat0 _) ltac:(lia)) as (Rw & ER & HR & VR). rewrite ER. cbn [bind].
  rewrite val_repeat0, Z.lor_0_l in VR. pose proof (bn_range _ _ HN) as BN. pose proof (pow_pos n) as P.
  destruct (naive_reduce_ok n (S (n + n)) (2 * bits_of n + 1) Rw N HR HN NW ltac:(lia) ltac:(lia) ltac:(lia)) as (R2 & E & H2 & V2).
  { intros s0 (j & -> & L & _). rewrite VR. replace (2 * bits_of n) with (32 * Z.of_nat (S (n + n) - 1)) by lia. pose proof (pow_pos (S (n + n) - 1)). lia. }
  rewrite E. cbn [bind].
  destruct (convert_up n (2 * bits_of n) (n + n) R2 H2 ltac:(replace (2 * bits_of n) with (bits_of (n + n)) by lia; apply nwords_mult) ltac:(lia)) as [HC _].
  destruct (redc_total n N Ninv _ HN HI HC) as (R1 & E1 & _). rewrite E1. cbn [bind].
  destruct (mul_ok n R2 R2 H2 H2) as (RR & E3 & HRR & _). rewrite E3. cbn [bind].
  destruct (redc_total n N Ninv _ HN HI HRR) as (R3 & E4 & _). rewrite E4. cbn [bind]. eauto.
Qed.
(** A SubjectPublicKeyInfo for RSA whose modulus is zero as a 4096 bit number. *)
Definition zero_key (s : span) : Prop :=
  exists alg v1 oid v2 id3 x bits rest v3 id4 nums v4 N v5,
    read (view_of s) = Ok (48, alg, v1) /\ read (view_of alg) = Ok (6, oid, v2) /\ s_data oid = oid_rsaEncryption /\
    read v1 = Ok (id3, Sp (x :: bits) rest, v3) /\ read (view_of (Sp bits rest)) = Ok (id4, nums, v4) /\
    parse_bignum 4096 (view_of nums) = Ok (N, v5) /\ val N = 0.
Lemma pubkey_diverge s : all_bytes s -> parse_pubkey (view_of s) = Diverge -> zero_key s.
Proof.
  set (v := view_of s). intros HB H. unfold parse_pubkey in H.
  destruct (read v) as [[[i1 s1] v1]| | |] eqn:E1; try discriminate H; [|destruct (ends_read _ E1)]. cbn [bind] in H. destruct (read_bytes v _ _ _ HB E1) as [B1 Q1].
  destruct (Z.eqb_spec i1 id_sequence) as [->|]; [cbn [negb] in H|discriminate H]. destruct (read (view_of s1)) as [[[i2 oid] v2]| | |] eqn:E2; try discriminate H; [|destruct (ends_read _ E2)]. cbn [bind] in H.
  destruct (Z.eqb_spec i2 id_object) as [->|]; [cbn [negb] in H|discriminate H]. destruct (list_eqb (s_data oid) oid_rsaEncryption) eqn:EO; [cbn [negb] in H; apply list_eqb_eq in EO|discriminate H].
  destruct (read v1) as [[[i3 s3] v3]| | |] eqn:E3; try discriminate H; [|destruct (ends_read _ E3)]. cbn [bind] in H. destruct (read_bytes v1 _ _ _ ltac:(rewrite Q1; exact HB) E3) as [B3 Q3].
  destruct s3 as [d3 r3]. destruct d3 as [|x t]; [discriminate H|]. change (drop1 (Sp (x :: t) r3)) with (Ok (Sp t r3)) in H. cbn [bind] in H.
  assert (B4 : all_bytes (Sp t r3)) by (unfold all_bytes in *; cbn [app s_data s_rest] in *; apply bytes_cons in B3; apply B3).
  unfold parse_rsa_pubkey in H. destruct (read (view_of (Sp t r3))) as [[[i5 d2] v5]| | |] eqn:E5; try discriminate H; [|destruct (ends_read _ E5)]. cbn [bind] in H.
  destruct (read_bytes (view_of _) _ _ _ B4 E5) as [B5 Q5].
  destruct (parse_bignum (bits_of W) (view_of d2)) as [[N w']| | |] eqn:E6; try discriminate H; [|destruct (ends_bignum W (view_of d2) B5 E6)]. cbn [bind] in H.
  destruct (parse_bignum_inv W (view_of d2) _ _ B5 E6) as [BN Q6].
  destruct (parse_bignum (bits_of W) w') as [[e w2]| | |] eqn:E7; try discriminate H; [|destruct (ends_bignum W w' ltac:(rewrite Q6; exact B5) E7)]. cbn [bind] in H.
  destruct (lt_ e _); [discriminate H|]. destruct (Z.eq_dec (val N) 0) as [Z0|NZ]; [exists s1, v1, oid, v2, i3, x, t, r3, v3, i5, d2, v5, N, w'; repeat (split; [assumption|]); exact Z0|].
  destruct (public_key_ends W N e ltac:(unfold W; lia) BN NZ) as (k & EK). rewrite EK in H. discriminate H.
Qed.
Theorem parse_der_diverge inp : bytes inp -> parse_der inp = Diverge -> exists before s, inp = before ++ s_data s ++ s_rest s /\ zero_key s.
Proof.
  intros HB H. unfold parse_der in H. assert (B0 : all_bytes (whole inp)) by (unfold all_bytes; cbn [whole s_data s_rest]; rewrite app_nil_r; exact HB).
  destruct (read (view_of (whole inp))) as [[[i0 root] v0]| | |] eqn:E0; try discriminate H; [|destruct (ends_read _ E0)]. cbn [bind] in H. destruct (negb _); [discriminate H|].
  destruct (read_bytes (view_of _) _ _ _ B0 E0) as [B1 _].
  destruct (read (view_of root)) as [[[i1 tb] v1]| | |] eqn:E1; try discriminate H; [|destruct (ends_read _ E1)]. cbn [bind] in H. destruct (negb _); [discriminate H|].
  destruct (read_bytes (view_of _) _ _ _ B1 E1) as [B2 _].
  destruct (peek (view_of tb)) as [pk| | |] eqn:E2; try discriminate H; [|destruct (ends_getz _ _ E2)]. cbn [bind] in H.
  match type of H with bind ?x _ = _ => destruct x as [[ok cd]| | |] eqn:E3 end; try discriminate H; cbn [bind] in H.
  2: { destruct (pk =? id_array0); [|discriminate E3]. destruct (read (view_of tb)) as [[[? ?] ?]| | |] eqn:E4; try discriminate E3; [|destruct (ends_read _ E4)]. cbn [bind] in E3.
       destruct (parse_int _) eqn:E5; try discriminate E3. destruct (ends_int _ E5). }
  assert (S3 : v_span cd = tb /\ 0 <= v_off cd).
  { destruct (pk =? id_array0); [|injection E3 as _ <-; split; [reflexivity | cbn [view_of v_off]; lia]]. destruct (read (view_of tb)) as [[[j d] w]| | |] eqn:E4; try discriminate E3. cbn [bind] in E3. destruct (parse_int _); try discriminate E3.
    injection E3 as _ <-. apply read_step in E4. cbn [view_of v_span v_off] in E4. split; [apply E4 | lia]. }
  destruct S3 as [S3 O3]. assert (B3 : all_bytes (v_span cd)) by (rewrite S3; exact B2).
  destruct (negb ok); [discriminate H|].
  destruct (parse_bignum 128 cd) as [[ser c1]| | |] eqn:E4; try discriminate H; [|destruct (ends_bignum 4 cd B3 E4)]. cbn [bind] in H. destruct (parse_bignum_inv 4 cd _ _ B3 E4) as [_ S4].
  destruct (read c1) as [[[i5 d5] c2]| | |] eqn:E5; try discriminate H; [|destruct (ends_read _ E5)]. cbn [bind] in H. destruct (negb _); [discriminate H|]. destruct (read_step _ _ _ _ E5) as (S5 & O5 & O5').
  destruct (read c2) as [[[i6 d6] c3]| | |] eqn:E6; try discriminate H; [|destruct (ends_read _ E6)]. cbn [bind] in H. destruct (negb _); [discriminate H|]. destruct (read_step _ _ _ _ E6) as (S6 & O6 & O6').
  destruct (parse_name (view_of d6)) as [iname| | |] eqn:E7; try discriminate H; [|destruct (ends_name _ E7)]. cbn [bind] in H.
  destruct (read c3) as [[[i8 d8] c4]| | |] eqn:E8; try discriminate H; [|destruct (ends_read _ E8)]. cbn [bind] in H. destruct (negb _); [discriminate H|]. destruct (read_step _ _ _ _ E8) as (S8 & O8 & O8').
  destruct (parse_date (view_of d8)) as [[st d8v]| | |] eqn:E9; try discriminate H; [|destruct (ends_date _ E9)]. cbn [bind] in H.
  destruct (parse_date d8v) as [[sp w9]| | |] eqn:E10; try discriminate H; [|destruct (ends_date _ E10)]. cbn [bind] in H.
  destruct (read c4) as [[[i11 d11] c5]| | |] eqn:E11; try discriminate H; [|destruct (ends_read _ E11)]. cbn [bind] in H. destruct (negb _); [discriminate H|]. destruct (read_step _ _ _ _ E11) as (S11 & O11 & O11').
  destruct (parse_name (view_of d11)) as [sname| | |] eqn:E12; try discriminate H; [|destruct (ends_name _ E12)]. cbn [bind] in H.
  destruct (read c5) as [[[i13 d13] c6]| | |] eqn:E13; try discriminate H; [|destruct (ends_read _ E13)]. cbn [bind] in H. destruct (negb _); [discriminate H|]. destruct (read_step _ _ _ _ E13) as (S13 & O13 & O13').
  assert (SP : v_span c5 = tb) by congruence.
  destruct (read_inside _ _ _ _ E0) as (p0 & A0 & _). destruct (read_inside _ _ _ _ E1) as (p1 & A1 & _). destruct (read_inside _ _ _ _ E13) as (p2 & A2 & _). rewrite SP in A2. cbn [view_of v_span whole s_data s_rest] in A0, A1. rewrite app_nil_r in A0.
  destruct (read_bytes c5 _ _ _ ltac:(rewrite SP; exact B2) E13) as [B13 _].
  destruct (parse_pubkey (view_of d13)) as [key| | |] eqn:E14; try discriminate H; [|exists (p0 ++ p1 ++ p2), d13; split; [rewrite A0, A1, A2, <- !app_assoc; reflexivity | exact (pubkey_diverge d13 B13 E14)]]. cbn [bind] in H.
  destruct (tail_loop _ c6) as [ok2| | |] eqn:E15; try discriminate H; [cbn [bind] in H; destruct (negb ok2); discriminate H|].
  exfalso. revert E15. apply ends_tail; [lia | rewrite S13, SP; unfold zlen; lia | lia].
Qed.
