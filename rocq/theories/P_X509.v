(** Proofs about the certificate code: the DER reader and what is built on it. *)
From Coq Require Import String.
From Verif Require Import Base BaseP S_Base64 M_Base64 P_Base64 S_Hash M_Hash P_Hash M_HKDF P_HKDF S_Bignum M_Bignum P_Bignum Prop_Bignum M_Mont P_Mont S_RSA M_RSA P_RSA S_X509 M_X509.
Open Scope Z_scope.

(** ** The reader *)
(** A view in the middle of its span: [pre] has been read, [post] is left. *)
Definition cur (pre post rest : list Z) : view := View (Sp (pre ++ post) rest) (zlen pre).
Lemma view_of_cur c rest : view_of (Sp c rest) = cur [] c rest. Proof. reflexivity. Qed.
Lemma whole_cur c : view_of (whole c) = cur [] c []. Proof. reflexivity. Qed.

Lemma getz_cur {A} (pre : list A) x post : getz (pre ++ x :: post) (zlen pre) = Ok x.
Proof.
  unfold getz. pose proof (zlen_nonneg pre). destruct (Z.leb_spec 0 (zlen pre)); [|lia].
  rewrite zlen_to_nat, nth_error_app2, Nat.sub_diag by lia. reflexivity.
Qed.
Lemma getz_cur' {A} (pre : list A) x post i : i = zlen pre -> getz (pre ++ x :: post) i = Ok x.
Proof. intros ->; apply getz_cur. Qed.

Lemma be_val_cons b l : be_val (b :: l) = b * 256 ^ zlen l + be_val l.
Proof. exact (be_val_app [b] l). Qed.
Lemma read_size_ok : forall ds pre post size off, bytes ds -> off = zlen pre -> 0 <= size ->
  0 <= size * 256 ^ zlen ds + be_val ds < 2 ^ 64 ->
  read_size (List.length ds) (pre ++ ds ++ post) off size = Ok (size * 256 ^ zlen ds + be_val ds, off + zlen ds).
Proof.
  induction ds as [|b ds IH]; intros pre post size off HB Ho Hs HR.
  - cbn [read_size List.length]. rewrite zlen_nil, Z.mul_1_r. cbn. rewrite !Z.add_0_r; reflexivity.
  - cbn [List.length read_size app]. rewrite (getz_cur' _ _ _ _ Ho). cbn [bind].
    apply bytes_cons in HB; destruct HB as [Hb HB]. rewrite be_val_cons, zlen_cons in *. pose proof (zlen_nonneg ds) as ZD.
    rewrite Z.pow_add_r in * by lia. change (256 ^ 1) with 256 in *. pose proof (be_val_range ds HB) as VR.
    assert (P1 : 1 <= 256 ^ zlen ds) by (pose proof (Z.pow_pos_nonneg 256 (zlen ds)); lia).
    assert (SB : 0 <= size * 256 + b < 2 ^ 64) by (unfold byte in Hb; nia).
    rewrite Z.shiftl_mul_pow2 by lia. change (2 ^ 8) with 256. unfold byte in Hb. rewrite (w64_small (size * 256)) by nia. rewrite w64_small by exact SB.
    change (pre ++ b :: ds ++ post) with (pre ++ [b] ++ (ds ++ post)). rewrite app_assoc.
    rewrite IH; [f_equal; f_equal; ring | exact HB | rewrite zlen_app; change (zlen [b]) with 1; lia | lia |].
    replace ((size * 256 + b) * 256 ^ zlen ds + be_val ds) with (size * (256 * 256 ^ zlen ds) + (b * 256 ^ zlen ds + be_val ds)) by ring. exact HR.
Qed.

Lemma land_80 b : 0 <= b < 128 -> Z.land b 0x80 =? 0 = true.
Proof.
  intros H. apply Z.eqb_eq. apply Z.bits_inj'. intros i Hi. rewrite Z.land_spec, Z.bits_0. change 0x80 with (2 ^ 7).
  rewrite Z.pow2_bits_eqb by lia. destruct (Z.eqb_spec 7 i); [subst | apply andb_false_r]. rewrite (testbit_high b 7 7) by lia. reflexivity.
Qed.
Lemma land_long k : 0 <= k < 128 -> (Z.land (128 + k) 0x80 =? 0) = false /\ Z.land (128 + k) 0x7F = k.
Proof.
  intros H. split.
  - apply Z.eqb_neq. intros E. assert (Z.testbit (Z.land (128 + k) 0x80) 7 = false) by (rewrite E; apply Z.bits_0).
    rewrite Z.land_spec in H0. change (Z.testbit 0x80 7) with true in H0. rewrite andb_true_r, Z.testbit_eqb in H0 by lia.
    change (2 ^ 7) with 128 in H0. replace ((128 + k) / 128) with 1 in H0; [discriminate|].
    apply (Z.div_unique _ _ _ k); lia.
  - change 0x7F with (2 ^ 7 - 1). rewrite land_ones_mod by lia. change (2 ^ 7) with 128. symmetry. apply (Z.mod_unique _ _ 1); lia.
Qed.

Lemma sub_span_ok pre c post rest off : off = zlen pre -> sub_span (Sp (pre ++ c ++ post) rest) off (zlen c) = Ok (Sp c (post ++ rest)).
Proof.
  intros ->. unfold sub_span. cbn [s_data s_rest]. rewrite <- !app_assoc. rewrite !zlen_app.
  pose proof (zlen_nonneg pre); pose proof (zlen_nonneg c); pose proof (zlen_nonneg post); pose proof (zlen_nonneg rest).
  destruct (Z.leb_spec 0 (zlen pre)), (Z.leb_spec 0 (zlen c)), (Z.leb_spec (zlen pre + zlen c) (zlen pre + (zlen c + (zlen post + zlen rest)))); try lia.
  cbn [andb]. rewrite !zlen_to_nat, skipn_app, skipn_all, Nat.sub_diag, skipn_O. cbn [app].
  rewrite firstn_app, firstn_all, Nat.sub_diag, firstn_O, app_nil_r.
  replace (Z.to_nat (zlen pre + zlen c)) with (List.length (pre ++ c)) by (rewrite <- zlen_to_nat, zlen_app; reflexivity).
  rewrite app_assoc, skipn_app, skipn_all, Nat.sub_diag. reflexivity.
Qed.

Theorem read_form : forall pre id lf c post rest, length_form (zlen c) lf -> zlen c < 2 ^ 64 ->
  read (cur pre (id :: lf ++ c ++ post) rest) = Ok (id, Sp c (post ++ rest), cur (pre ++ id :: lf ++ c) post rest).
Proof.
  intros pre id lf c post rest HL HS. unfold read, cur. cbn [v_span v_off s_data].
  rewrite getz_cur. cbn [bind]. change (pre ++ id :: lf ++ c ++ post) with (pre ++ [id] ++ (lf ++ c ++ post)). rewrite app_assoc.
  assert (E1 : zlen pre + 1 = zlen (pre ++ [id])) by (rewrite zlen_app; reflexivity).
  set (q := pre ++ [id]) in *. assert (EQ : forall l : list Z, pre ++ id :: l = q ++ l) by (intros l; unfold q; rewrite <- app_assoc; reflexivity).
  assert (E2 : zlen pre + 2 = zlen q + 1) by lia.
  destruct HL as [[Hn ->]|(ds & HB & HD & HV & ->)].
  - cbn [app]. rewrite (getz_cur' _ _ _ _ E1). cbn [bind]. rewrite land_80 by exact Hn. cbn [bind].
    change (q ++ zlen c :: c ++ post) with (q ++ [zlen c] ++ c ++ post). rewrite app_assoc.
    rewrite sub_span_ok by (rewrite zlen_app; change (zlen [zlen c]) with 1; lia). cbn [bind]. f_equal. f_equal.
    rewrite (EQ (zlen c :: c)). f_equal; [f_equal; rewrite <- !app_assoc; reflexivity|]. rewrite zlen_app, zlen_cons. lia.
  - cbn [app]. rewrite (getz_cur' _ _ _ _ E1). cbn [bind]. destruct (land_long (zlen ds) ltac:(lia)) as [-> ->].
    rewrite zlen_to_nat. change (q ++ 128 + zlen ds :: ds ++ c ++ post) with (q ++ [128 + zlen ds] ++ ds ++ c ++ post). rewrite app_assoc.
    pose proof (zlen_nonneg c).
    rewrite read_size_ok; [|exact HB | rewrite zlen_app; change (zlen [128 + zlen ds]) with 1; lia | lia | rewrite Z.mul_0_l, HV; lia].
    cbn [bind]. rewrite Z.mul_0_l, Z.add_0_l, HV. rewrite (app_assoc (q ++ [_]) ds).
    rewrite sub_span_ok by (rewrite !zlen_app; change (zlen [128 + zlen ds]) with 1; lia). cbn [bind]. f_equal. f_equal.
    rewrite (EQ (128 + zlen ds :: ds ++ c)). f_equal; [f_equal; repeat (rewrite <- !app_assoc; cbn [app]); reflexivity|]. rewrite zlen_app, zlen_cons, zlen_app. lia.
Qed.

Lemma minimal_be_val : forall f n, 0 <= n < 256 ^ Z.of_nat f -> be_val (minimal_be f n) = n /\ bytes (minimal_be f n) /\ zlen (minimal_be f n) <= Z.of_nat f /\ (n <> 0 -> 0 < zlen (minimal_be f n)).
Proof.
  induction f as [|f IH]; intros n Hn.
  - change (256 ^ Z.of_nat 0) with 1 in Hn. cbn [minimal_be]. change (zlen (@nil Z)) with 0. split; [cbn; lia|]. split; [constructor|]. lia.
  - cbn [minimal_be]. destruct (Z.eqb_spec n 0); [subst; change (zlen (@nil Z)) with 0; split; [reflexivity|]; split; [constructor | lia]|].
    replace (Z.of_nat (S f)) with (Z.of_nat f + 1) in * by lia. rewrite Z.pow_add_r in Hn by lia. change (256 ^ 1) with 256 in Hn.
    destruct (IH (n / 256)) as (H1 & H2 & H3 & H4); [split; [apply Z.div_pos; lia | apply Z.div_lt_upper_bound; lia]|].
    pose proof (Z.mod_pos_bound n 256 ltac:(lia)). pose proof (zlen_nonneg (minimal_be f (n / 256))).
    rewrite be_val_app, H1. rewrite zlen_app. change (zlen [n mod 256]) with 1. change (be_val [n mod 256]) with (0 + n mod 256). change (256 ^ 1) with 256.
    split; [pose proof (Z.div_mod n 256 ltac:(lia)); lia|]. split; [apply bytes_app; split; [exact H2|]; apply bytes_cons; split; [exact H | constructor]|]. lia.
Qed.
Lemma der_form n : 0 <= n < 2 ^ 64 -> length_form n (der_length n).
Proof.
  intros Hn. unfold der_length. destruct (Z.ltb_spec n 128); [left; split; [lia | reflexivity]|]. right.
  destruct (minimal_be_val 8 n Hn) as (H1 & H2 & H3 & H4). exists (minimal_be 8 n). split; [exact H2|]. split; [split; [apply H4; lia | change (Z.of_nat 8) with 8 in H3; lia]|]. split; [exact H1 | reflexivity].
Qed.
(** Reading a DER element. *)
Lemma read_tlv pre id c post rest : zlen c < 2 ^ 64 -> read (cur pre (tlv id c ++ post) rest) = Ok (id, Sp c (post ++ rest), cur (pre ++ tlv id c) post rest).
Proof.
  intros H. pose proof (zlen_nonneg c). unfold tlv. cbn [app]. rewrite <- app_assoc. apply read_form; [apply der_form; lia | exact H].
Qed.
Lemma read_last pre id c rest : zlen c < 2 ^ 64 -> read (cur pre (tlv id c) rest) = Ok (id, Sp c rest, cur (pre ++ tlv id c) [] rest).
Proof. intros H. rewrite <- (app_nil_r (tlv id c)) at 1. rewrite read_tlv by exact H. reflexivity. Qed.
Lemma empty_cur pre post rest : empty (cur pre post rest) = match post with [] => true | _ => false end.
Proof.
  unfold empty, cur. cbn [v_off v_span s_data]. rewrite zlen_app. destruct post; [rewrite zlen_nil; lia|]. rewrite zlen_cons. pose proof (zlen_nonneg post). lia.
Qed.
Lemma peek_cur pre x post rest : peek (cur pre (x :: post) rest) = Ok x.
Proof. unfold peek, cur. cbn [v_off v_span s_data]. apply getz_cur. Qed.

(** What a successful read returns lies inside the allocation, and the header inside the span. *)
Lemma sub_span_inside s off size c : sub_span s off size = Ok c ->
  zlen (s_data c) = size /\ s_data s ++ s_rest s = firstn (Z.to_nat off) (s_data s ++ s_rest s) ++ s_data c ++ s_rest c.
Proof.
  unfold sub_span. set (all := s_data s ++ s_rest s). destruct (_ && _) eqn:E; [|discriminate]. intros H; injection H as <-. cbn [s_data s_rest].
  apply andb_true_iff in E; destruct E as [E1 E3]; apply andb_true_iff in E1; destruct E1 as [E1 E2].
  assert (0 <= off /\ 0 <= size /\ off + size <= zlen all) as (A1 & A2 & A3) by lia. unfold zlen in *. split.
  - rewrite firstn_length, skipn_length. lia.
  - rewrite Z2Nat.inj_add by lia. rewrite <- (firstn_skipn (Z.to_nat off) all) at 1. f_equal.
    rewrite <- (firstn_skipn (Z.to_nat size) (skipn (Z.to_nat off) all)) at 1. f_equal.
    clearbody all. clear. generalize (Z.to_nat off) as i, (Z.to_nat size) as j. intros i j. revert all. induction i as [|i IH]; intros all; [reflexivity|].
    destruct all; [cbn [skipn Nat.add]; destruct j; reflexivity|]. cbn [skipn Nat.add]. apply IH.
Qed.
Lemma read_inside v id c v' : read v = Ok (id, c, v') ->
  exists pre, s_data (v_span v) ++ s_rest (v_span v) = pre ++ s_data c ++ s_rest c /\ v_span v' = v_span v /\ v_off v' = zlen pre + zlen (s_data c).
Proof.
  unfold read. intros H. destruct (getz _ (v_off v)) eqn:E0; try discriminate H. cbn [bind] in H. destruct (getz _ (v_off v + 1)) eqn:E1; try discriminate H. cbn [bind] in H.
  match type of H with bind ?x _ = _ => destruct x as [[size off]| | |] eqn:E2; try discriminate H end. cbn [bind] in H.
  destruct (sub_span (v_span v) off size) as [s| | |] eqn:E3; try discriminate H. cbn [bind] in H. injection H as <- <- <-.
  pose proof (sub_span_inside _ _ _ _ E3) as [L A]. exists (firstn (Z.to_nat off) (s_data (v_span v) ++ s_rest (v_span v))). split; [exact A|]. split; [reflexivity|].
  cbn [v_off]. rewrite L. f_equal. unfold sub_span in E3. destruct (_ && _) eqn:E; [|discriminate E3].
  apply andb_true_iff in E; destruct E as [E4 E6]; apply andb_true_iff in E4; destruct E4 as [E4 E5]. unfold zlen in *. rewrite firstn_length. lia.
Qed.
