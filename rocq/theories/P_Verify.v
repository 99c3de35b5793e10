(** Proofs about certificate verification. *)
From Coq Require Import String.
From Verif Require Import Base BaseP S_Base64 M_Base64 P_Base64 S_Hash M_Hash P_Hash M_HKDF P_HKDF S_Bignum M_Bignum P_Bignum Prop_Bignum M_Mont P_Mont S_RSA M_RSA P_RSA Prop_RSA Prop_RSA2 S_X509 M_X509 P_X509 P_Date P_Name P_Cert S_Verify S_Trust.
Open Scope Z_scope.

(** ** The reader on arbitrary bytes *)
Lemma getz_some {A} (l : list A) i x : getz l i = Ok x -> exists p q, l = p ++ x :: q /\ zlen p = i.
Proof.
  unfold getz. destruct (Z.leb_spec 0 i); [|discriminate]. destruct (nth_error l (Z.to_nat i)) eqn:E; [|discriminate]. intros [= ->].
  apply nth_error_split in E. destruct E as (p & q & -> & L). exists p, q. split; [reflexivity | unfold zlen; lia].
Qed.
Lemma split_len {A} (p q p' q' : list A) : p ++ q = p' ++ q' -> zlen p = zlen p' -> p = p' /\ q = q'.
Proof. intros H L. apply app_eq_app in H. unfold zlen in L. destruct H as (l & [[-> ->]|[-> ->]]); rewrite app_length in L; destruct l; cbn [List.length] in L; try lia; rewrite app_nil_r; auto. Qed.
Lemma read_size_inv : forall n d off size s off', bytes d -> 0 <= size < 2 ^ 64 -> 0 <= off -> read_size n d off size = Ok (s, off') ->
  (exists p ds q, d = p ++ ds ++ q /\ zlen p = off /\ zlen ds = Z.of_nat n /\ off' = off + zlen ds /\ s = (size * 256 ^ zlen ds + be_val ds) mod 2 ^ 64) \/ n = O /\ s = size /\ off' = off.
Proof.
  induction n as [|n IH]; intros d off size s off' HB HS HO H; [right; cbn [read_size] in H; injection H as <- <-; auto|]. left.
  cbn [read_size] in H. destruct (getz d off) as [b| | |] eqn:E; try discriminate H. cbn [bind] in H. destruct (getz_some _ _ _ E) as (p & q & -> & LP).
  assert (BB : byte b) by (apply bytes_app in HB; destruct HB as [_ HB]; apply bytes_cons in HB; apply HB).
  rewrite Z.shiftl_mul_pow2 in H by lia. change (2 ^ 8) with 256 in H. unfold w64 in H. rewrite Z.add_mod_idemp_l in H by lia.
  pose proof (Z.mod_pos_bound (size * 256 + b) (2 ^ 64) ltac:(lia)) as M.
  destruct (IH _ (off + 1) _ _ _ HB M ltac:(lia) H) as [(p' & ds & q' & E2 & LP' & LD & -> & ->)|(-> & -> & ->)].
  - replace (p ++ b :: q) with ((p ++ [b]) ++ q) in E2 by (rewrite <- app_assoc; reflexivity). apply split_len in E2; [|rewrite zlen_app; change (zlen [b]) with 1; lia]. destruct E2 as [<- ->].
    exists p, (b :: ds), q'. split; [reflexivity|]. split; [exact LP|]. rewrite zlen_cons. split; [lia|]. split; [lia|].
    rewrite be_val_cons. pose proof (zlen_nonneg ds). rewrite Z.pow_add_r by lia. change (256 ^ 1) with 256.
    rewrite <- Z.add_mod_idemp_l, Z.mul_mod_idemp_l, Z.add_mod_idemp_l by lia. f_equal. ring.
  - exists p, [b], q. split; [reflexivity|]. split; [exact LP|]. split; [reflexivity|]. split; [reflexivity|]. change (zlen [b]) with 1. change (be_val [b]) with (0 + b). f_equal; lia.
Qed.
Lemma read_inv v id c v' : bytes (s_data (v_span v)) -> read v = Ok (id, c, v') ->
  exists pre lf, s_data (v_span v) ++ s_rest (v_span v) = pre ++ (id :: lf ++ s_data c) ++ s_rest c /\ zlen pre = v_off v /\ says (zlen (s_data c)) lf /\
    v_span v' = v_span v /\ v_off v' = zlen (pre ++ id :: lf ++ s_data c).
Proof.
  intros HB H. unfold read in H. destruct (getz _ (v_off v)) as [id0| | |] eqn:E0; try discriminate H. cbn [bind] in H.
  destruct (getz _ (v_off v + 1)) as [b| | |] eqn:E1; try discriminate H. cbn [bind] in H.
  match type of H with bind ?x _ = _ => destruct x as [[size off]| | |] eqn:E2; try discriminate H end. cbn [bind] in H.
  destruct (sub_span (v_span v) off size) as [s| | |] eqn:E3; try discriminate H. cbn [bind] in H. injection H as <- <- <-.
  destruct (sub_span_inside _ _ _ _ E3) as [L A]. cbn [v_span v_off].
  assert (OL : 0 <= off /\ 0 <= size /\ off + size <= zlen (s_data (v_span v) ++ s_rest (v_span v))).
  { unfold sub_span in E3. destruct (_ && _) eqn:X; [|discriminate E3]. lia. }
  destruct (getz_some _ _ _ E0) as (p & q & D & LP). rewrite D in E1. replace (p ++ id0 :: q) with ((p ++ [id0]) ++ q) in E1 by (rewrite <- app_assoc; reflexivity).
  destruct (getz_some _ _ _ E1) as (p1 & q1 & D1 & LP1). apply split_len in D1; [|rewrite zlen_app; change (zlen [id0]) with 1; lia]. destruct D1 as [<- ->].
  set (rest := s_rest (v_span v)) in *. set (d := s_data (v_span v)) in *.
  assert (BB : byte b) by (rewrite D in HB; apply bytes_app in HB; destruct HB as [_ HB]; apply bytes_cons in HB; destruct HB as [_ HB]; apply bytes_cons in HB; apply HB).
  assert (HF : exists lf, d ++ rest = p ++ (id0 :: lf) ++ skipn (Z.to_nat off) (d ++ rest) /\ zlen (p ++ id0 :: lf) = off /\ says size lf).
  { destruct (Z.land b 128 =? 0) eqn:LB.
    - injection E2 as -> <-. exists [size]. assert (EQ : d ++ rest = (p ++ [id0; size]) ++ (q1 ++ rest)) by (rewrite D, <- !app_assoc; reflexivity).
      assert (LL : zlen (p ++ [id0; size]) = v_off v + 2) by (rewrite zlen_app; change (zlen [id0; size]) with 2; lia).
      split; [|split; [exact LL|]].
      + replace (Z.to_nat (v_off v + 2)) with (List.length (p ++ [id0; size])) by (rewrite <- LL; unfold zlen; lia). rewrite EQ, skipn_app, skipn_all, Nat.sub_diag. cbn [skipn app]. rewrite <- !app_assoc. reflexivity.
      + left. split; [|reflexivity]. unfold byte in BB. split; [lia|]. destruct (Z_lt_dec size 128) as [|G]; [assumption|]. exfalso.
        destruct (land_long (size - 128) ltac:(lia)) as [X _]. replace (128 + (size - 128)) with size in X by lia. congruence.
    - assert (B128 : 128 <= b) by (destruct (Z_lt_dec b 128) as [G|]; [rewrite land_80 in LB by (unfold byte in BB; lia); discriminate LB | lia]).
      unfold byte in BB. destruct (land_long (b - 128) ltac:(lia)) as [_ X]. replace (128 + (b - 128)) with b in X by lia. change (Z.land b 127) with (Z.land b 0x7F) in E2. rewrite X in E2.
      pose proof (zlen_nonneg p). destruct (read_size_inv _ _ (v_off v + 2) 0 _ _ HB ltac:(lia) ltac:(lia) E2) as [(p2 & ds & q2 & D2 & LP2 & LD & -> & SZ)|(N0 & -> & ->)].
      + rewrite D2 in D. replace (p ++ id0 :: b :: q1) with ((p ++ [id0; b]) ++ q1) in D by (rewrite <- app_assoc; reflexivity).
        apply split_len in D; [|rewrite zlen_app; change (zlen [id0; b]) with 2; lia]. destruct D as [-> <-].
        exists (b :: ds). assert (EQ : d ++ rest = ((p ++ [id0; b]) ++ ds) ++ (q2 ++ rest)) by (rewrite D2, <- !app_assoc; reflexivity).
        assert (LL : zlen ((p ++ [id0; b]) ++ ds) = v_off v + 2 + zlen ds) by (rewrite zlen_app, LP2; reflexivity).
        split; [|split].
        * replace (Z.to_nat (v_off v + 2 + zlen ds)) with (List.length ((p ++ [id0; b]) ++ ds)) by (rewrite <- LL; unfold zlen; lia). rewrite EQ, skipn_app, skipn_all, Nat.sub_diag. cbn [skipn app]. rewrite <- !app_assoc. reflexivity.
        * rewrite <- LL, <- app_assoc. reflexivity.
        * right. exists ds. assert (BD : bytes ds) by (rewrite D2 in HB; apply bytes_app in HB; destruct HB as [_ HB]; apply bytes_app in HB; apply HB). split; [exact BD|]. split; [lia|].
          split; [rewrite SZ, Z.mul_0_l, Z.add_0_l; reflexivity|]. f_equal. lia.
      + exists [b]. assert (EQ : d ++ rest = (p ++ [id0; b]) ++ (q1 ++ rest)) by (rewrite D, <- !app_assoc; reflexivity).
        assert (LL : zlen (p ++ [id0; b]) = v_off v + 2) by (rewrite zlen_app; change (zlen [id0; b]) with 2; lia).
        split; [|split; [exact LL|]].
        * replace (Z.to_nat (v_off v + 2)) with (List.length (p ++ [id0; b])) by (rewrite <- LL; unfold zlen; lia). rewrite EQ, skipn_app, skipn_all, Nat.sub_diag. cbn [skipn app]. rewrite <- !app_assoc. reflexivity.
        * right. exists []. split; [constructor|]. split; [reflexivity|]. split; [reflexivity|]. f_equal. change (zlen (@nil Z)) with 0. lia. }
  destruct HF as (lf & F1 & F2 & F3). exists p, lf. split; [|split; [exact LP|split; [rewrite L; exact F3|split; [reflexivity|]]]].
  - assert (X : firstn (Z.to_nat off) (d ++ rest) = p ++ id0 :: lf).
    { rewrite F1, app_assoc. replace (Z.to_nat off) with (List.length (p ++ id0 :: lf)) by (rewrite <- F2; unfold zlen; lia). rewrite firstn_app, firstn_all, Nat.sub_diag. cbn [firstn]. apply app_nil_r. }
    rewrite A, X. rewrite <- !app_assoc. cbn [app]. rewrite <- !app_assoc. reflexivity.
  - change (p ++ id0 :: lf ++ s_data s) with (p ++ (id0 :: lf) ++ s_data s). rewrite app_assoc, zlen_app, F2. lia.
Qed.
Lemma getz_cases {A} (l : list A) i : getz l i = UB \/ exists x, getz l i = Ok x.
Proof. unfold getz. destruct (0 <=? i); [|auto]. destruct (nth_error l (Z.to_nat i)); eauto. Qed.
Lemma read_size_cases : forall n d off size, read_size n d off size = UB \/ exists x, read_size n d off size = Ok x.
Proof.
  induction n as [|n IH]; intros d off size; cbn [read_size]; [eauto|]. destruct (getz_cases d off) as [E|[b E]]; rewrite E; cbn [bind]; [auto | apply IH].
Qed.
Lemma read_cases v : read v = UB \/ exists id c v', read v = Ok (id, c, v').
Proof.
  unfold read. destruct (getz_cases (s_data (v_span v)) (v_off v)) as [E|[id E]]; rewrite E; cbn [bind]; [auto|].
  destruct (getz_cases (s_data (v_span v)) (v_off v + 1)) as [E1|[b E1]]; rewrite E1; cbn [bind]; [auto|].
  assert (X : (if Z.land b 0x80 =? 0 then Ok (b, v_off v + 2) else read_size (Z.to_nat (Z.land b 0x7F)) (s_data (v_span v)) (v_off v + 2) 0) = UB \/
              exists so, (if Z.land b 0x80 =? 0 then Ok (b, v_off v + 2) else read_size (Z.to_nat (Z.land b 0x7F)) (s_data (v_span v)) (v_off v + 2) 0) = Ok so).
  { destruct (Z.land b 0x80 =? 0); [eauto | apply read_size_cases]. }
  destruct X as [X|[[size off] X]]; rewrite X; cbn [bind]; [auto|]. unfold sub_span. destruct (_ && _); cbn [bind]; eauto.
Qed.

(** ** What verify does, on every certificate *)
Definition sig_type (oid : list Z) : scheme :=
  if list_eqb oid (oid_rsa_sig 0x0b) then Pkcs1_256 else if list_eqb oid (oid_rsa_sig 0x0c) then Pkcs1_384 else if list_eqb oid (oid_rsa_sig 0x0d) then Pkcs1_512 else Other_scheme.
Lemma verify_shape g c iss : bytes (derCert c) ->
  verify g c iss = UB \/ verify g c iss = Ok false \/
  exists tbs oid sig k, nested c iss /\ laid_out (derCert c) tbs oid sig /\ c_pubkey iss = Some k /\
    verify g c iss = validateSignature W (g (sig_type oid)) k (sig_type oid) tbs (rev sig).
Proof.
  intros HB. unfold verify. destruct (Z.ltb_spec (validity_start c) (validity_start iss)) as [|V1]; [auto|]. destruct (Z.ltb_spec (validity_end iss) (validity_end c)) as [|V2]; [auto|].
  set (der := derCert c) in *.
  destruct (read_cases (view_of (whole der))) as [E0|(i0 & root & v0 & E0)]; rewrite E0; cbn [bind]; [auto|].
  destruct (read_inv (view_of (whole der)) _ _ _ HB E0) as (p0 & l0 & A0 & P0 & F0 & _ & _). cbn [view_of whole v_span s_data s_rest v_off] in A0, P0.
  destruct (Z.eqb_spec i0 id_sequence) as [->|]; cbn [negb]; [|auto].
  assert (p0 = []) by (destruct p0; [reflexivity | rewrite zlen_cons in P0; nn; lia]). subst p0. cbn [app] in A0. rewrite app_nil_r in A0.
  assert (BR : bytes (s_data root ++ s_rest root)).
  { rewrite A0 in HB. apply bytes_cons in HB. destruct HB as [_ HB]. rewrite <- app_assoc in HB. apply bytes_app in HB. apply HB. }
  assert (BR' : bytes (s_data root)) by (apply bytes_app in BR; apply BR).
  destruct (read_cases (view_of root)) as [E1|(i1 & tbs & v1 & E1)]; rewrite E1; cbn [bind]; [auto|].
  destruct (read_inv (view_of root) _ _ _ BR' E1) as (p1 & l1 & A1 & P1 & F1 & S1 & O1). cbn [view_of v_span v_off] in A1, P1, S1.
  destruct (Z.eqb_spec i1 id_sequence) as [->|]; cbn [negb]; [|auto].
  assert (p1 = []) by (destruct p1; [reflexivity | rewrite zlen_cons in P1; nn; lia]). subst p1. rewrite !app_nil_l in *.
  destruct (read_cases v1) as [E2|(i2 & algo & v2 & E2)]; rewrite E2; cbn [bind]; [auto|].
  destruct (read_inv v1 _ _ _ ltac:(rewrite S1; exact BR') E2) as (p2 & l2 & A2 & P2 & F2 & S2 & O2). rewrite S1 in A2, S2. rewrite O1 in P2.
  rewrite A1 in A2. apply split_len in A2; [|symmetry; exact P2]. destruct A2 as [<- A2].
  destruct (read_cases v2) as [E3|(i3 & sig & v3 & E3)]; rewrite E3; cbn [bind]; [auto|].
  destruct (read_inv v2 _ _ _ ltac:(rewrite S2; exact BR') E3) as (p3 & l3 & A3 & P3 & F3 & S3 & O3). rewrite S2 in A3. rewrite O2 in P3.
  rewrite A1, A2 in A3. rewrite app_assoc in A3. apply split_len in A3; [|symmetry; exact P3]. destruct A3 as [<- A3].
  destruct (Z.eqb_spec i2 id_sequence) as [->|]; cbn [negb]; [|auto]. destruct (Z.eqb_spec i3 id_bit_string) as [->|]; cbn [negb]; [|auto].
  assert (BA : bytes (s_data algo)).
  { rewrite A1 in BR. apply bytes_app in BR. destruct BR as [_ BR]. rewrite A2 in BR. apply bytes_app in BR. destruct BR as [BR _]. apply bytes_cons in BR. destruct BR as [_ BR]. apply bytes_app in BR. apply BR. }
  destruct (read_cases (view_of algo)) as [E4|(i4 & oid & v4 & E4)]; rewrite E4; cbn [bind]; [auto|].
  destruct (read_inv (view_of algo) _ _ _ BA E4) as (p4 & l4 & A4 & P4 & F4 & _ & _). cbn [view_of v_span v_off] in A4, P4.
  assert (p4 = []) by (destruct p4; [reflexivity | rewrite zlen_cons in P4; nn; lia]). subst p4. rewrite !app_nil_l in *.
  destruct (s_data sig) as [|u sg] eqn:ES; cbn [bind]; [auto|]. destruct (c_pubkey iss) as [k|]; [|auto].
  right; right. exists (s_data tbs), (s_data oid), sg, k. split; [unfold nested; lia|]. split; [|split; reflexivity].
  rewrite zlen_cons in F3. exists (zlen (s_data root)), l0, l1, l2, l3, l4, (s_data algo), i4, u, (s_rest sig), (s_rest oid). repeat (split; [assumption|]). split.
  - rewrite A0. cbn [app]. f_equal. rewrite <- app_assoc. f_equal. rewrite A1, A2, A3. cbn [app]. rewrite <- !app_assoc. reflexivity.
  - change id_bit_string with 3 in A3. rewrite <- A3, A4. cbn [app]. rewrite <- app_assoc. reflexivity.
Qed.
Lemma laid_out_parts der tbs oid sig : bytes der -> laid_out der tbs oid sig -> bytes tbs /\ bytes sig /\ zlen tbs < zlen der /\ zlen sig < zlen der.
Proof.
  intros HB (n0 & l0 & l1 & l2 & l3 & l4 & algo & tag & unused & rest & more & _ & _ & _ & _ & _ & E & _). subst der.
  rewrite !zlen_app, !zlen_cons, !zlen_app, zlen_cons. nn. repeat (apply bytes_app in HB; destruct HB as [? HB]).
  match goal with H : bytes (48 :: l1 ++ tbs) |- _ => apply bytes_cons in H; destruct H as [_ H]; apply bytes_app in H; destruct H as [_ H]; split; [exact H|] end.
  match goal with H : bytes (3 :: _) |- _ => apply bytes_cons in H; destruct H as [_ H]; apply bytes_app in H; destruct H as [_ H]; apply bytes_cons in H; destruct H as [_ H]; split; [exact H|] end. lia.
Qed.

(** ** Keys that the parser builds: all numbers have the right width *)
Record sized (n : nat) (k : pubkey) : Prop := {
  z_N : bn n (mN (pub_s k)); z_Ninv : bn n (mNinv (pub_s k)); z_R2 : bn n (mR2 (pub_s k)); z_e : bn n (pub_e k) }.
Lemma redc_total n N Ninv v : bn n N -> bn n Ninv -> bn (n + n) v -> exists t, redc n N Ninv v = Ok t /\ bn n t.
Proof.
  intros HN HI Hv. unfold redc.
  destruct (slice_ok (n + n) n 0 v Hv ltac:(lia)) as (v0 & E & H0 & V0). change (32 * Z.of_nat 0) with 0 in *. rewrite E; cbn [bind]; clear E.
  destruct (mul_ok n v0 Ninv H0 HI) as (p & E & Hp & Vp). rewrite E; cbn [bind]; clear E.
  destruct (slice_ok (n + n) n 0 p Hp ltac:(lia)) as (m & E & Hm & Vm). change (32 * Z.of_nat 0) with 0 in *. rewrite E; cbn [bind]; clear E.
  destruct (mul_ok n m N Hm HN) as (mn & E & Hmn & Vmn). rewrite E; cbn [bind]; clear E.
  destruct (add_val (n + n) v mn Hv Hmn) as (Hs & Vs & Cs). destruct (add v mn) as [carry s]; cbn [fst snd] in *.
  destruct (slice_ok (n + n) n n s Hs ltac:(lia)) as (t & E & Ht & Vt). rewrite E; cbn [bind]; clear E.
  destruct (sub_val n t N Ht HN) as (Hd & Vd & _). eexists; split; [reflexivity|]. destruct carry; assumption.
Qed.
Lemma mont_total n k : (0 < n)%nat -> sized n k ->
  (forall x, bn n x -> exists t, mont_of n (pub_s k) x = Ok t /\ bn n t) /\
  (forall x y, bn n x -> bn n y -> exists t, mont_mul n (pub_s k) x y = Ok t /\ bn n t) /\
  (forall x, bn n x -> exists t, mont_square n (pub_s k) x = Ok t /\ bn n t) /\
  (forall x, bn n x -> exists t, mont_out n (pub_s k) x = Ok t /\ bn n t).
Proof.
  intros Hn [Z1 Z2 Z3 Z4]. repeat split.
  - intros x Hx. unfold mont_of. destruct (mul_ok n x _ Hx Z3) as (p & -> & Hp & _). cbn [bind]. apply redc_total; assumption.
  - intros x y Hx Hy. unfold mont_mul. destruct (mul_ok n y x Hy Hx) as (p & -> & Hp & _). cbn [bind]. apply redc_total; assumption.
  - intros x Hx. unfold mont_square, square. destruct (mul_ok n x x Hx Hx) as (p & -> & Hp & _). cbn [bind]. apply redc_total; assumption.
  - intros x Hx. unfold mont_out. destruct (convert_up n (2 * bits_of n) (n + n) x Hx ltac:(replace (2 * bits_of n) with (bits_of (n + n)) by lia; apply nwords_mult) ltac:(lia)) as [HC _]. apply redc_total; assumption.
Qed.
Lemma rsaep_total n k m : (0 < n)%nat -> sized n k -> bn n m -> exists r, rsaep n k m = Ok r /\ bn n r.
Proof.
  intros Hn Z Hm. destruct (mont_total n k Hn Z) as (T1 & T2 & T3 & T4). unfold rsaep. destruct (T1 m Hm) as (v & -> & Hv). cbn [bind].
  destruct (of_u32_ok n 1 ltac:(lia) Hn) as [H1 _].
  assert (X : forall r, (exists t, r = Ok t /\ bn n t) -> exists t, (do x <- r; mont_out n (pub_s k) x) = Ok t /\ bn n t) by (intros r (t & -> & Ht); cbn [bind]; apply T4; exact Ht).
  apply X. destruct (eq_ _ _).
  - unfold mont_exp32. destruct (T1 _ H1) as (o & -> & _). cbn [bind].
    assert (SQ : forall c x, bn n x -> exists t, squarings c n (pub_s k) x = Ok t /\ bn n t).
    { induction c as [|c IH]; intros x Hx; cbn [squarings]; [eauto|]. destruct (T3 x Hx) as (y & -> & Hy). cbn [bind]. apply IH; exact Hy. }
    destruct (SQ 16%nat v Hv) as (b & -> & Hb). cbn [bind]. apply T2; assumption.
  - unfold mont_exp. destruct (T1 _ H1) as (o & -> & Ho). cbn [bind].
    assert (EX : forall c i x b, 0 <= i -> i + Z.of_nat c = bits_of n -> bn n x -> bn n b -> exists t, exp_loop c i n (pub_s k) (pub_e k) x b o = Ok t /\ bn n t).
    { induction c as [|c IH]; intros i x b Hi Hc Hx Hb; cbn [exp_loop]; [eauto|]. rewrite (bit_ok n _ i (z_e _ _ Z)) by lia. cbn [bind].
      destruct (T2 x (if Z.b2z (Z.testbit (val (pub_e k)) i) =? 0 then o else b) Hx ltac:(destruct (_ =? 0); assumption)) as (x' & -> & Hx'). cbn [bind].
      destruct (T3 b Hb) as (b' & -> & Hb'). cbn [bind]. apply IH; try assumption; lia. }
    apply EX; try assumption; lia.
Qed.
Lemma public_key_sized n N e k : (0 < n)%nat -> bn n N -> bn n e -> rsa_public_key n N e = Ok k -> sized n k.
Proof.
  intros Hn HN He H. unfold rsa_public_key, mont_state, inverse in H. destruct (inverse_total n n N ltac:(lia) Hn HN) as (inv & EI & Hi). rewrite EI in H. cbn [bind] in H.
  destruct (neg_ok n inv Hi) as [Hng _]. destruct (of_u32_ok n 1 ltac:(lia) Hn) as [H1 _]. destruct (add_val n _ _ Hng H1) as (HI & _ & _).
  set (Ninv := snd (add (neg inv) (of_u32 (bits_of n) 1))) in *.
  assert (NW : nwords (2 * bits_of n + 1) = Z.of_nat (S (n + n))) by (unfold nwords; symmetry; apply Z.div_unique with 0; lia).
  unfold zero_words in H; rewrite NW, Nat2Z.id in H.
  destruct (set_bit_ok (S (n + n)) (repeat 0 (S (n + n))) (2 * bits_of n) (bn_repeat0 _) ltac:(lia)) as (Rw & ER & HR & VR). rewrite ER in H. cbn [bind] in H.
  rewrite val_repeat0, Z.lor_0_l in VR. pose proof (bn_range _ _ HN) as BN. pose proof (pow_pos n) as P.
  destruct (Z.eq_dec (val N) 0) as [Z0|NZ]; [rewrite (naive_reduce_zero n (S (n + n))) in H by (assumption || lia); discriminate H|].
  destruct (naive_reduce_ok n (S (n + n)) (2 * bits_of n + 1) Rw N HR HN NW ltac:(lia) ltac:(lia) ltac:(lia)) as (R2 & E & H2 & V2).
  { intros s0 (j & -> & L & _). rewrite VR. replace (2 * bits_of n) with (32 * Z.of_nat (S (n + n) - 1)) by lia. pose proof (pow_pos (S (n + n) - 1)). lia. }
  rewrite E in H. cbn [bind] in H.
  destruct (convert_up n (2 * bits_of n) (n + n) R2 H2 ltac:(replace (2 * bits_of n) with (bits_of (n + n)) by lia; apply nwords_mult) ltac:(lia)) as [HC _].
  destruct (redc_total n N Ninv _ HN HI HC) as (R1 & E1 & _). rewrite E1 in H. cbn [bind] in H.
  destruct (mul_ok n R2 R2 H2 H2) as (RR & E3 & HRR & _). rewrite E3 in H. cbn [bind] in H.
  destruct (redc_total n N Ninv _ HN HI HRR) as (R3 & E4 & _). rewrite E4 in H. cbn [bind] in H. injection H as <-. constructor; assumption.
Qed.

(** ** The signature check *)
Definition digest_info (a : alg) (tbs : list Z) : list Z := h_asn1 a ++ spec_hash a (der_sequence tbs).
(** The length of the encoding: that of the signature, if the DigestInfo fits. *)
Definition em_len (a : alg) (sig : list Z) : Z := Z.max (zlen sig) (zlen (h_asn1 a) + spec_size a + 3).
Lemma PKCS1_cases a g data L : supply_ok a g -> bytes data -> zlen data < 2 ^ 24 -> 0 <= L < 2 ^ 32 ->
  PKCS1 a g data L = if L <? zlen (h_asn1 a) + spec_size a + 1 then Throw else Ok (emsa_pkcs1 (digest_info a data) (Z.max L (zlen (h_asn1 a) + spec_size a + 3))).
Proof.
  intros Hg HD LD HL. pose proof (spec_size_range a) as SR. pose proof (zlen_nonneg (h_asn1 a)) as AP. pose proof (zlen_nonneg data). set (q := zlen (h_asn1 a) + spec_size a) in *.
  assert (Q : q < 2 ^ 31) by (unfold q; destruct a; vm_compute; reflexivity).
  destruct (Z.ltb_spec L (q + 1)) as [C|C].
  - unfold PKCS1. rewrite h_size_spec. replace (L - zlen (h_asn1 a) - spec_size a - 1) with (L - q - 1) by (unfold q; lia). unfold w64.
    replace ((L - q - 1) mod 2 ^ 64) with (L - q - 1 + 2 ^ 64) by (apply (Z.mod_unique_pos _ _ (-1)); lia). destruct (Z.leb_spec (2 ^ 63) (L - q - 1 + 2 ^ 64)); [reflexivity | lia].
  - destruct (Z_le_dec (q + 3) L) as [G|G]; [rewrite Z.max_l by lia; apply PKCS1_ok; try assumption; fold q; lia|]. rewrite Z.max_r by lia.
    unfold digest_info. rewrite <- (PKCS1_ok a g data (q + 3)) by (assumption || (fold q; lia)). unfold PKCS1. rewrite h_size_spec.
    replace (L - zlen (h_asn1 a) - spec_size a - 1) with (L - q - 1) by (unfold q; lia). replace (q + 3 - zlen (h_asn1 a) - spec_size a - 1) with 2 by (unfold q; lia).
    rewrite !w64_small by lia. destruct (Z.leb_spec (2 ^ 63) (L - q - 1)); [lia|]. change (2 ^ 63 <=? 2) with false. cbv iota.
    replace (Z.to_nat (L - q - 1 - 2)) with O by lia. reflexivity.
Qed.
Lemma of_bytes_mod n sig : bytes sig -> exists r, of_bytes (bits_of n) sig = Ok r /\ bn n r /\ val r = le_val sig mod 2 ^ (32 * Z.of_nat n).
Proof. intros H. destruct (C41_any_length n sig H) as (r & E & Hr & V). exists r. auto. Qed.
(** The check in terms of the numbers: [e]-th power modulo [N] of the signature. *)
Theorem validate_sound n a g N e pk data sig : (0 < n)%nat -> bn n N -> Z.odd (val N) = true -> bn n e -> rsa_public_key n N e = Ok pk ->
  supply_ok a g -> bytes data -> zlen data < 2 ^ 24 -> bytes sig -> zlen sig < 2 ^ 32 ->
  validatePkcs1_5 n a g pk data sig = Ok true ->
  (le_val sig mod 2 ^ (32 * Z.of_nat n)) ^ val e mod val N = (be_val (emsa_pkcs1 (digest_info a data) (em_len a sig)) mod 2 ^ (32 * Z.of_nat n)) mod val N /\
  zlen (h_asn1 a) + spec_size a + 1 <= zlen sig.
Proof.
  intros Hn HN HO He Hpk Hg HD LD HS LS H. unfold validatePkcs1_5 in H. pose proof (zlen_nonneg sig). rewrite PKCS1_cases in H by (assumption || lia).
  destruct (Z.ltb_spec (zlen sig) (zlen (h_asn1 a) + spec_size a + 1)) as [|C]; [discriminate H|]. split; [|exact C]. cbn [bind] in H. fold (em_len a sig) in H. set (em := emsa_pkcs1 _ _) in *.
  assert (BE : bytes em) by (unfold em, digest_info; apply em_bytes).
  destruct (of_bytes_be n em BE) as (h & E1 & Hh & Vh). rewrite E1 in H. cbn [bind] in H.
  destruct (of_bytes_mod n sig HS) as (s & E2 & Hs & Vs). rewrite E2 in H. cbn [bind] in H.
  destruct (public_key_ok n N e Hn HN HO He) as (pk' & Epk & Gp & Pe & _). rewrite Hpk in Epk. injection Epk as <-.
  destruct (rsaep_ok n pk _ s Gp ltac:(rewrite Pe; exact He) Hs) as (r & E3 & Hr & Vr & _). rewrite E3 in H. cbn [bind] in H. rewrite Pe, Vs in Vr.
  injection H as H. rewrite (eq_ok n) in H by assumption. apply Z.eqb_eq in H. pose proof (odd_pos _ _ HN HO) as NP.
  rewrite Vh in H. rewrite H. destruct Vr as [V|[V V0]]; rewrite V; [rewrite Z.mod_mod by lia; reflexivity | rewrite V0, Z.mod_same by lia; reflexivity].
Qed.
Lemma validate_ends n a g pk data sig : (0 < n)%nat -> sized n pk -> supply_ok a g -> bytes data -> zlen data < 2 ^ 24 -> bytes sig -> zlen sig < 2 ^ 32 -> validatePkcs1_5 n a g pk data sig <> Diverge.
Proof.
  intros Hn SZ Hg HD LD HS LS. unfold validatePkcs1_5. pose proof (zlen_nonneg sig). rewrite PKCS1_cases by (assumption || lia). destruct (_ <? _); [discriminate|]. cbn [bind].
  destruct (of_bytes_be n (emsa_pkcs1 (digest_info a data) (Z.max (zlen sig) (zlen (h_asn1 a) + spec_size a + 3)))) as (h & E1 & Hh & Vh); [unfold digest_info; apply em_bytes|]. rewrite E1. cbn [bind].
  destruct (of_bytes_mod n sig HS) as (s & E2 & Hs & Vs). rewrite E2. cbn [bind]. destruct (rsaep_total n pk s Hn SZ Hs) as (r & -> & _). discriminate.
Qed.

(** ** verify *)
Definition supplies_ok (g : scheme -> nat -> supply) : Prop := supply_ok ASHA256 (g Pkcs1_256 0%nat) /\ supply_ok ASHA384 (g Pkcs1_384 0%nat) /\ supply_ok ASHA512 (g Pkcs1_512 0%nat).
Lemma sig_type_cases oid : sig_type oid = Other_scheme \/
  exists a, sig_alg oid a /\ forall g k d s, supplies_ok g -> validateSignature W (g (sig_type oid)) k (sig_type oid) d s = validatePkcs1_5 W a (g (sig_type oid) 0%nat) k d s /\ supply_ok a (g (sig_type oid) 0%nat).
Proof.
  unfold sig_type. destruct (list_eqb oid (oid_rsa_sig 11)) eqn:E1; [|destruct (list_eqb oid (oid_rsa_sig 12)) eqn:E2; [|destruct (list_eqb oid (oid_rsa_sig 13)) eqn:E3; [|left; reflexivity]]]; right.
  - apply list_eqb_eq in E1. exists ASHA256. split; [left; auto|]. intros g k d s (S1 & S2 & S3). split; [reflexivity | exact S1].
  - apply list_eqb_eq in E2. exists ASHA384. split; [right; left; auto|]. intros g k d s (S1 & S2 & S3). split; [reflexivity | exact S2].
  - apply list_eqb_eq in E3. exists ASHA512. split; [right; right; auto|]. intros g k d s (S1 & S2 & S3). split; [reflexivity | exact S3].
Qed.
Theorem verify_sound g c iss N e pk : bytes (derCert c) -> zlen (derCert c) < 2 ^ 24 -> supplies_ok g -> bn W N -> Z.odd (val N) = true -> bn W e -> rsa_public_key W N e = Ok pk ->
  (forall k, c_pubkey iss = Some k -> k = pk) -> verify g c iss = Ok true ->
  nested c iss /\ exists tbs oid sig a, laid_out (derCert c) tbs oid sig /\ sig_alg oid a /\ zlen (h_asn1 a) + spec_size a + 1 <= zlen sig /\
    (be_val sig mod 2 ^ 4096) ^ val e mod val N = (be_val (emsa_pkcs1 (digest_info a tbs) (em_len a sig)) mod 2 ^ 4096) mod val N.
Proof.
  intros HB LB HG HN HO He Hpk HK H. destruct (verify_shape g c iss HB) as [X|[X|(tbs & oid & sig & k & NE & LO & K & X)]]; [congruence..|]. split; [exact NE|].
  rewrite X in H. rewrite (HK _ K) in H. destruct (laid_out_parts _ _ _ _ HB LO) as (B1 & B2 & L1 & L2).
  destruct (sig_type_cases oid) as [T|(a & SA & V)]; [rewrite T in H; discriminate H|]. destruct (V g pk tbs (rev sig) HG) as [V1 V2]. rewrite V1 in H.
  destruct (validate_sound W a _ N e pk tbs (rev sig) ltac:(unfold W; lia) HN HO He Hpk V2 B1 ltac:(lia) ltac:(apply bytes_rev; exact B2) ltac:(rewrite zlen_rev; lia) H) as [R1 R2].
  exists tbs, oid, sig, a. split; [exact LO|]. split; [exact SA|]. rewrite zlen_rev in R2. split; [exact R2|].
  unfold em_len in *. rewrite zlen_rev in R1. rewrite <- be_val_rev, rev_involutive in R1. exact R1.
Qed.
(** A certificate from the parser: no key, or a key of the right widths. *)
Definition key_sized (c : cert) : Prop := forall k, c_pubkey c = Some k -> sized W k.
Theorem verify_ends g c iss : bytes (derCert c) -> zlen (derCert c) < 2 ^ 24 -> supplies_ok g -> key_sized iss -> verify g c iss <> Diverge.
Proof.
  intros HB LB HG HK. destruct (verify_shape g c iss HB) as [X|[X|(tbs & oid & sig & k & NE & LO & K & X)]]; [congruence..|]. rewrite X.
  destruct (laid_out_parts _ _ _ _ HB LO) as (B1 & B2 & L1 & L2). destruct (sig_type_cases oid) as [T|(a & SA & V)]; [rewrite T; discriminate|]. destruct (V g k tbs (rev sig) HG) as [-> V2].
  apply validate_ends; [unfold W; lia | apply HK; exact K | exact V2 | exact B1 | lia | apply bytes_rev; exact B2 | rewrite zlen_rev; lia].
Qed.

(** ** verify on well-formed certificates *)
Definition signed_der (c : cert) (tbs oid sig : list Z) : Prop := exists rest, derCert c = cert_der tbs oid sig ++ rest.
Lemma tlv_bytes id c : byte id -> zlen c < 2 ^ 64 -> bytes (tlv id c) -> bytes c.
Proof. intros _ _ H. unfold tlv in H. apply bytes_cons in H. destruct H as [_ H]. apply bytes_app in H. apply H. Qed.
Lemma verify_wf g c iss tbs oid sig k : bytes (derCert c) -> zlen (derCert c) < 2 ^ 24 -> signed_der c tbs oid sig -> c_pubkey iss = Some k ->
  verify g c iss = if (validity_start c <? validity_start iss) || (validity_end iss <? validity_end c) then Ok false
                   else validateSignature W (g (sig_type oid)) k (sig_type oid) tbs (rev sig).
Proof.
  intros HB LB (rest & E) HK. unfold verify. destruct (validity_start c <? validity_start iss); [reflexivity|]. destruct (validity_end iss <? validity_end c); [reflexivity|]. cbn [orb].
  rewrite E in *. unfold cert_der in *. set (inner := tlv 48 tbs ++ _) in *. pose proof (tlv_length 48 inner) as L0. rewrite zlen_app in LB. pose proof (zlen_nonneg rest) as Z0.
  assert (LI : zlen inner < 2 ^ 24) by lia. unfold inner in LI. rewrite !zlen_app in LI. pose proof (tlv_length 48 tbs) as L1. pose proof (tlv_length 48 (tlv 6 oid ++ tlv 5 [])) as L2. pose proof (tlv_length 3 (0 :: sig)) as L3.
  pose proof L2 as L4. rewrite zlen_app in L4. pose proof (tlv_length 6 oid) as L5. nn.
  rewrite whole_cur, read_tlv by lia. cbn [bind]. change (negb (48 =? id_sequence)) with false. cbv iota. rewrite view_of_cur. unfold inner at 1. rewrite read_tlv by lia. cbn [bind]. change (negb (48 =? id_sequence)) with false. cbv iota.
  rewrite read_tlv by lia. cbn [bind]. rewrite read_last by lia. cbn [bind]. change (negb (48 =? id_sequence)) with false. change (negb (3 =? id_bit_string)) with false. cbv iota.
  rewrite view_of_cur, read_tlv by lia. cbn [bind s_data]. rewrite HK. reflexivity.
Qed.
Definition check_wf (c : cert) : Prop := exists tbs oid sig, bytes (derCert c) /\ zlen (derCert c) < 2 ^ 24 /\ signed_der c tbs oid sig /\ (forall a, sig_alg oid a -> zlen (h_asn1 a) + spec_size a + 1 <= zlen sig).
Lemma signed_parts c tbs oid sig : bytes (derCert c) -> zlen (derCert c) < 2 ^ 24 -> signed_der c tbs oid sig -> bytes tbs /\ bytes sig /\ zlen tbs < 2 ^ 24 /\ zlen sig < 2 ^ 24.
Proof.
  intros HB LB (rest & E). rewrite E in *. unfold cert_der in *. set (inner := tlv 48 tbs ++ _) in *. pose proof (tlv_length 48 inner) as L0. rewrite zlen_app in LB. pose proof (zlen_nonneg rest) as Z0.
  apply bytes_app in HB. destruct HB as [HB _]. apply tlv_bytes in HB; [|unfold byte; lia | lia]. unfold inner in *. rewrite !zlen_app in L0. pose proof (tlv_length 48 tbs) as L1. pose proof (tlv_length 3 (0 :: sig)) as L3. rewrite zlen_cons in L3. nn.
  apply bytes_app in HB. destruct HB as [J1 HB]. apply bytes_app in HB. destruct HB as [_ J2]. apply tlv_bytes in J1; [|unfold byte; lia | lia]. apply tlv_bytes in J2; [|unfold byte; lia | rewrite zlen_cons; lia].
  apply bytes_cons in J2. split; [exact J1|]. split; [apply J2|]. lia.
Qed.
Theorem verify_total c iss k : check_wf c -> c_pubkey iss = Some k -> sized W k -> exists b, forall g, supplies_ok g -> verify g c iss = Ok b.
Proof.
  intros (tbs & oid & sig & HB & LB & SD & LS) HK SZ. destruct (signed_parts _ _ _ _ HB LB SD) as (B1 & B2 & L1 & L2).
  assert (X : exists b, forall g, supplies_ok g -> validateSignature W (g (sig_type oid)) k (sig_type oid) tbs (rev sig) = Ok b).
  { destruct (sig_type_cases oid) as [T|(a & SA & V)]; [rewrite T; exists false; reflexivity|]. specialize (LS a SA).
    destruct (of_bytes_be W (emsa_pkcs1 (digest_info a tbs) (em_len a (rev sig)))) as (h & E1 & Hh & Vh); [unfold digest_info; apply em_bytes|].
    destruct (of_bytes_mod W (rev sig) (bytes_rev _ B2)) as (s & E2 & Hs & Vs). destruct (rsaep_total W k s ltac:(unfold W; lia) SZ Hs) as (r & E3 & _).
    exists (eq_ h r). intros g HG. destruct (V g k tbs (rev sig) HG) as [-> V2]. unfold validatePkcs1_5. pose proof (zlen_nonneg sig). rewrite PKCS1_cases by (assumption || rewrite ?zlen_rev; lia).
    rewrite zlen_rev. destruct (Z.ltb_spec (zlen sig) (zlen (h_asn1 a) + spec_size a + 1)); [lia|]. cbn [bind]. unfold em_len in E1. rewrite zlen_rev in E1. rewrite E1. cbn [bind]. rewrite E2. cbn [bind]. rewrite E3. reflexivity. }
  destruct X as [b X]. exists (if (validity_start c <? validity_start iss) || (validity_end iss <? validity_end c) then false else b). intros g HG. rewrite (verify_wf g c iss tbs oid sig k HB LB SD HK). destruct (_ || _); [reflexivity | apply X; exact HG].
Qed.
Theorem verify_exact g c iss tbs oid sig a N e k : bytes (derCert c) -> zlen (derCert c) < 2 ^ 24 -> signed_der c tbs oid sig -> sig_alg oid a -> supplies_ok g ->
  bn W N -> Z.odd (val N) = true -> bn W e -> rsa_public_key W N e = Ok k -> c_pubkey iss = Some k ->
  zlen (h_asn1 a) + spec_size a + 3 <= zlen sig <= 512 -> 2 * 256 ^ (zlen sig - 2) <= val N ->
  exists b, verify g c iss = Ok b /\ (b = true <-> nested c iss /\ be_val sig ^ val e mod val N = be_val (emsa_pkcs1 (digest_info a tbs) (zlen sig))).
Proof.
  intros HB LB SD SA HG HN HO He HR HK HL LN. destruct (signed_parts _ _ _ _ HB LB SD) as (B1 & B2 & L1 & L2). rewrite (verify_wf g c iss tbs oid sig k HB LB SD HK).
  assert (NI : nested c iss <-> (validity_start c <? validity_start iss) || (validity_end iss <? validity_end c) = false) by (unfold nested; rewrite orb_false_iff, !Z.ltb_ge; lia).
  destruct (_ || _) eqn:NB; [exists false; split; [reflexivity|]; split; [discriminate | intros [NE _]; apply NI in NE; congruence]|].
  assert (NE : nested c iss) by (apply NI; reflexivity). clear NI.
  assert (V : validateSignature W (g (sig_type oid)) k (sig_type oid) tbs (rev sig) = validatePkcs1_5 W a (g (sig_type oid) 0%nat) k tbs (rev sig) /\ supply_ok a (g (sig_type oid) 0%nat)).
  { destruct HG as (G1 & G2 & G3). destruct SA as [[-> ->]|[[-> ->]|[-> ->]]]; split; (reflexivity || assumption). }
  destruct V as [-> V2].
  destruct (C61_validate W a _ N e tbs (rev sig) ltac:(unfold W; lia) HN HO He V2 B1 L1 (bytes_rev _ B2) ltac:(rewrite zlen_rev; lia) ltac:(rewrite zlen_rev; unfold W; lia) ltac:(rewrite zlen_rev; exact LN)) as (pk & b & E1 & E2 & E3).
  rewrite HR in E1. injection E1 as <-. exists b. split; [exact E2|]. rewrite E3. rewrite zlen_rev, <- be_val_rev, rev_involutive. unfold digest_info. tauto.
Qed.
(** verify looks at nothing of the issuer but its validity period and key. *)
Theorem verify_issuer g c i j : validity_start i = validity_start j -> validity_end i = validity_end j -> c_pubkey i = c_pubkey j -> verify g c i = verify g c j.
Proof. intros H1 H2 H3. unfold verify. rewrite H1, H2, H3. reflexivity. Qed.
