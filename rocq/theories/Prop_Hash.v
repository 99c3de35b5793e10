(** Property theorems for the hash classes (C07 - C14, C16 - C18). *)
From Coq Require Import String.
From Verif Require Import Base BaseP S_MD M_MD S_MD5 S_SHA1 S_SHA2 S_SHA3 M_SHA3 S_Hash M_Hash P_Hash.
Open Scope Z_scope.

(** C07: two ways of cutting the same bytes into add() calls give the same digest (at any
    total length for the six Merkle-Damgaard classes, below 2^64 bytes for SHA-3). *)
Theorem C07_streaming : forall a g1 g2 (ps qs : list (list Z)),
  length g1 = buflen a -> length g2 = buflen a ->
  Forall bytes ps -> Forall bytes qs -> concat ps = concat qs -> zlen (concat ps) < 2 ^ 64 ->
  exists d, h_hash a g1 ps = Ok d /\ h_hash a g2 qs = Ok d.
Proof.
  intros a g1 g2 ps qs H1 H2 HP HQ HE HL; unfold h_hash.
  destruct (h_adds_inv a ps _ [] (h_new_inv a g1 H1) HP HL) as (o1 & E1 & I1).
  destruct (h_adds_inv a qs _ [] (h_new_inv a g2 H2) HQ ltac:(rewrite <- HE; exact HL)) as (o2 & E2 & I2).
  rewrite E1, E2; cbn [bind app] in *; rewrite <- HE in I2.
  destruct (Nat.eq_dec (buflen a) 0) as [Z0|N0].
  - exists (spec_hash a (concat ps)); split; apply h_digest_inv3; assumption.
  - exists (mdF a (concat ps)); split; apply h_digest_md; assumption.
Qed.
Print Assumptions C07_streaming.

Example C07_case : exists d,
  h_hash ASHA256 (repeat 7 64) [[97]; []; [98; 99]] = Ok d /\ h_hash ASHA256 (repeat 0 64) [[97; 98]; [99]] = Ok d
  /\ nth 0 d 0 = 0xba /\ nth 31 d 0 = 0xad.
Proof. eexists; split; [vm_compute; reflexivity|]; vm_compute; auto. Qed.

(** C08: every history of add() and digest reads shows what an ideal object shows, whose
    reads do not change it: each read is the standard's hash of exactly the bytes added
    before it.  2^61 - 1 is the value MaxLength() reports. *)
Theorem C08_reads_do_not_disturb : forall a g ops,
  length g = buflen a -> bytes (added ops) -> zlen (added ops) < 2 ^ 61 ->
  obj_run (h_add a) (h_digest a) (h_new a g) ops = Ok (ideal_run (spec_hash a) [] ops).
Proof. exact hash_history. Qed.
Print Assumptions C08_reads_do_not_disturb.

(** Removing the reads does not change any other observation. *)
Theorem C08_read_is_pure : forall a g ops1 ops2,
  length g = buflen a -> bytes (added (ops1 ++ ops2)) -> zlen (added (ops1 ++ ops2)) < 2 ^ 61 ->
  exists r1 d r2, obj_run (h_add a) (h_digest a) (h_new a g) (ops1 ++ HRead :: ops2) = Ok (r1 ++ d :: r2) /\
    obj_run (h_add a) (h_digest a) (h_new a g) (ops1 ++ ops2) = Ok (r1 ++ r2).
Proof.
  intros a g ops1 ops2 Hg HB HL.
  assert (A : forall o1 o2 m, ideal_run (spec_hash a) m (o1 ++ o2)
              = ideal_run (spec_hash a) m o1 ++ ideal_run (spec_hash a) (m ++ added o1) o2).
  { induction o1 as [|[x|] o1 IH]; intros o2 m; cbn [ideal_run added app]; rewrite ?app_nil_r; try reflexivity.
    - rewrite IH, <- app_assoc; reflexivity.
    - rewrite IH; reflexivity. }
  assert (AA : added (ops1 ++ HRead :: ops2) = added (ops1 ++ ops2)).
  { clear; induction ops1 as [|[x|] o1 IH]; cbn [added app]; try reflexivity; [rewrite IH; reflexivity | exact IH]. }
  rewrite !hash_history by (rewrite ?AA; assumption); rewrite !A; cbn [ideal_run].
  do 3 eexists; split; reflexivity.
Qed.
Print Assumptions C08_read_is_pure.

Example C08_case :
  let ops := [HRead; HAdd [97]; HRead; HRead; HAdd [98; 99]; HRead] in
  obj_run (h_add ASHA1) (h_digest ASHA1) (h_new ASHA1 (repeat 5 64)) ops
  = Ok [sha1 []; sha1 [97]; sha1 [97]; sha1 [97; 98; 99]].
Proof.
  intros ops; unfold ops; rewrite C08_reads_do_not_disturb;
    [reflexivity | reflexivity | repeat constructor; lia | reflexivity].
Qed.

(** C09: for the six classes with an uninitialised buffer, no history (of any total length)
    leaves an array or depends on the buffer's first content; SHA-3 has no buffer and never
    leaves its state array below 2^64 bytes. *)
Theorem C09_no_fault_and_no_garbage : forall a ops, buflen a <> 0%nat -> pieces_ok ops ->
  exists r, forall g, length g = buflen a ->
    obj_run (h_add a) (h_digest a) (h_new a g) ops = Ok r.
Proof. intros a ops HA HP; eexists; intros g Hg; apply md_history_new; assumption. Qed.
Print Assumptions C09_no_fault_and_no_garbage.

Theorem C09_sha3_no_fault : forall a g ops, buflen a = 0%nat -> length g = buflen a ->
  bytes (added ops) -> zlen (added ops) < 2 ^ 64 ->
  exists r, obj_run (h_add a) (h_digest a) (h_new a g) ops = Ok r.
Proof. intros a g ops HA HG HB HL; eexists; apply sha3_history; assumption. Qed.
Print Assumptions C09_sha3_no_fault.

Example C09_case : exists r,
  obj_run (h_add AMD5) (h_digest AMD5) (h_new AMD5 (repeat 0xa5 64)) [HAdd (repeat 1 70); HRead] = Ok r /\
  obj_run (h_add AMD5) (h_digest AMD5) (h_new AMD5 (repeat 0 64)) [HAdd (repeat 1 70); HRead] = Ok r.
Proof. eexists; split; vm_compute; reflexivity. Qed.

(** C10 - C14: the classes compute the standards' functions. *)
Theorem C10_md5_is_rfc1321 : forall g m, length g = 64%nat -> bytes m -> zlen m < 2 ^ 61 ->
  h_hash AMD5 g [m] = Ok (md5 m).
Proof. intros g m Hg HB HL; rewrite (h_hash_ok AMD5 g [m] Hg); cbn [concat]; rewrite ?app_nil_r; auto. Qed.
Print Assumptions C10_md5_is_rfc1321.
Example C10_case : h_hash AMD5 (repeat 0 64) [[97; 98; 99]]
  = Ok [0x90; 0x01; 0x50; 0x98; 0x3c; 0xd2; 0x4f; 0xb0; 0xd6; 0x96; 0x3f; 0x7d; 0x28; 0xe1; 0x7f; 0x72].
Proof. vm_compute; reflexivity. Qed.

Theorem C11_sha1_is_fips180 : forall g m, length g = 64%nat -> bytes m -> zlen m < 2 ^ 61 ->
  h_hash ASHA1 g [m] = Ok (sha1 m).
Proof. intros g m Hg HB HL; rewrite (h_hash_ok ASHA1 g [m] Hg); cbn [concat]; rewrite ?app_nil_r; auto. Qed.
Print Assumptions C11_sha1_is_fips180.
Example C11_case : h_hash ASHA1 (repeat 0 64) [[97; 98; 99]]
  = Ok [0xa9; 0x99; 0x3e; 0x36; 0x47; 0x06; 0x81; 0x6a; 0xba; 0x3e; 0x25; 0x71; 0x78; 0x50; 0xc2; 0x6c; 0x9c; 0xd0; 0xd8; 0x9d].
Proof. vm_compute; reflexivity. Qed.

Theorem C12_sha256_sha224_are_fips180 : forall g m, length g = 64%nat -> bytes m -> zlen m < 2 ^ 61 ->
  h_hash ASHA256 g [m] = Ok (sha256 m) /\ h_hash ASHA224 g [m] = Ok (sha224 m).
Proof.
  intros g m Hg HB HL; rewrite (h_hash_ok ASHA256 g [m] Hg), (h_hash_ok ASHA224 g [m] Hg);
    cbn [concat]; rewrite ?app_nil_r; auto.
Qed.
Print Assumptions C12_sha256_sha224_are_fips180.
Example C12_case : h_hash ASHA224 (repeat 0 64) [[97; 98; 99]]
  = Ok [0x23; 0x09; 0x7d; 0x22; 0x34; 0x05; 0xd8; 0x22; 0x86; 0x42; 0xa4; 0x77; 0xbd; 0xa2;
        0x55; 0xb3; 0x2a; 0xad; 0xbc; 0xe4; 0xbd; 0xa0; 0xb3; 0xf7; 0xe3; 0x6c; 0x9d; 0xa7].
Proof. vm_compute; reflexivity. Qed.

Theorem C13_sha512_sha384_are_fips180 : forall g m, length g = 128%nat -> bytes m -> zlen m < 2 ^ 61 ->
  h_hash ASHA512 g [m] = Ok (sha512 m) /\ h_hash ASHA384 g [m] = Ok (sha384 m).
Proof.
  intros g m Hg HB HL; rewrite (h_hash_ok ASHA512 g [m] Hg), (h_hash_ok ASHA384 g [m] Hg);
    cbn [concat]; rewrite ?app_nil_r; auto.
Qed.
Print Assumptions C13_sha512_sha384_are_fips180.
Example C13_case : h_hash ASHA384 (repeat 0 128) [[97; 98; 99]]
  = Ok [0xcb; 0x00; 0x75; 0x3f; 0x45; 0xa3; 0x5e; 0x8b; 0xb5; 0xa0; 0x3d; 0x69; 0x9a; 0xc6; 0x50; 0x07;
        0x27; 0x2c; 0x32; 0xab; 0x0e; 0xde; 0xd1; 0x63; 0x1a; 0x8b; 0x60; 0x5a; 0x43; 0xff; 0x5b; 0xed;
        0x80; 0x86; 0x07; 0x2b; 0xa1; 0xe7; 0xcc; 0x23; 0x58; 0xba; 0xec; 0xa1; 0x34; 0xc8; 0x25; 0xa7].
Proof. vm_compute; reflexivity. Qed.

Theorem C14_sha3_is_fips202 : forall m, bytes m -> zlen m < 2 ^ 64 ->
  h_hash ASHA3_224 [] [m] = Ok (sha3 224 m) /\ h_hash ASHA3_256 [] [m] = Ok (sha3 256 m) /\
  h_hash ASHA3_384 [] [m] = Ok (sha3 384 m) /\ h_hash ASHA3_512 [] [m] = Ok (sha3 512 m).
Proof.
  intros m HB HL.
  assert (A : forall a, buflen a = 0%nat -> h_hash a [] [m] = Ok (spec_hash a m)).
  { intros a Ha; unfold h_hash.
    destruct (h_adds_inv a [m] _ [] (h_new_inv a [] (eq_sym Ha))) as (o & E & I);
      cbn [concat app] in *; rewrite ?app_nil_r in *; auto.
    rewrite E; cbn [bind]; apply h_digest_inv3; assumption. }
  rewrite !A by reflexivity; auto.
Qed.
Print Assumptions C14_sha3_is_fips202.
Example C14_case : h_hash ASHA3_256 [] [[97; 98; 99]]
  = Ok [0x3a; 0x98; 0x5d; 0xa7; 0x4f; 0xe2; 0x25; 0xb2; 0x04; 0x5c; 0x17; 0x2d; 0x6b; 0xd3; 0x90; 0xbd;
        0x85; 0x5f; 0x08; 0x6e; 0x3e; 0x9d; 0x52; 0x5b; 0x46; 0xbf; 0xe2; 0x45; 0x11; 0x43; 0x15; 0x32].
Proof. vm_compute; reflexivity. Qed.

(** ** C16: names *)
(** Full statement: every listed name gives its algorithm, every other name throws. *)
Definition names_right (sel : string -> res alg) : Prop :=
  (forall n a, In (n, a) names -> sel n = Ok a) /\ (forall n, (forall a, ~ In (n, a) names) -> sel n = Throw).

Theorem C16_names_refuted : ~ names_right alg_of_name /\
  (exists d, Hash_data "sha3-256" [] [[97]] = Ok d /\ d <> spec_hash ASHA3_256 [97] /\ zlen d = 64) /\
  (exists n d, (forall a, ~ In (n, a) names) /\ Hash_data n [] [[97]] = Ok d).
Proof.
  split; [|split].
  - intros [H _]; specialize (H "sha3-256"%string ASHA3_256); vm_compute in H.
    assert (C : Ok ASHA3_512 = Ok ASHA3_256) by (apply H; tauto); discriminate C.
  - eexists; split; [vm_compute; reflexivity|]; split; [|reflexivity].
    intros C; apply (f_equal zlen) in C; rewrite spec_hash_length in C; discriminate C.
  - exists "whirlpool"%string; eexists; split; [|vm_compute; reflexivity].
    intros a H; repeat (destruct H as [H|H]; [discriminate H|]); exact H.
Qed.
Print Assumptions C16_names_refuted.

(** Partial: missing are the name sha3-256 and the rejection of unknown names. *)
Theorem C16_names_partial : forall n a g ps, In (n, a) names -> n <> "sha3-256"%string ->
  length g = buflen a -> Forall bytes ps -> zlen (concat ps) < 2 ^ 61 ->
  Hash_data n g ps = Ok (spec_hash a (concat ps)) /\ Hash_size n = Ok (spec_size a).
Proof.
  intros n a g ps HN Hx Hg HB HL.
  assert (E : alg_of_name n = Ok a).
  { repeat (destruct HN as [HN|HN]; [injection HN as <- <-; try (exfalso; apply Hx; reflexivity); vm_compute; reflexivity|]).
    destruct HN. }
  unfold Hash_data, Hash_size; rewrite E; cbn [bind]; rewrite h_hash_ok by assumption.
  split; [reflexivity|]; destruct a; reflexivity.
Qed.
Print Assumptions C16_names_partial.
Example C16_case : In ("sha2-384"%string, ASHA384) names. Proof. cbn; tauto. Qed.

(** What every other name selects. *)
Theorem C16_unknown_selects_sha3_512 : forall n, (forall a, ~ In (n, a) names) -> alg_of_name n = Ok ASHA3_512.
Proof.
  intros n H; unfold alg_of_name.
  assert (N : forall s a, In (s, a) names -> String.eqb n s = false).
  { intros s a Hs; apply String.eqb_neq; intros ->; exact (H a Hs). }
  rewrite (N "md5"%string AMD5), (N "sha1"%string ASHA1), (N "sha"%string ASHA1), (N "sha224"%string ASHA224),
    (N "sha2-224"%string ASHA224), (N "sha256"%string ASHA256), (N "sha2-256"%string ASHA256),
    (N "sha384"%string ASHA384), (N "sha2-384"%string ASHA384), (N "sha512"%string ASHA512),
    (N "sha2-512"%string ASHA512), (N "sha3-224"%string ASHA3_224), (N "sha3-384"%string ASHA3_384)
    by (cbn; tauto); reflexivity.
Qed.
Print Assumptions C16_unknown_selects_sha3_512.

(** ** C17: hexadecimal text *)
(** Full statement, for one class. *)
Definition hex_agrees (a : alg) : Prop := forall g ps,
  length g = buflen a -> Forall bytes ps -> zlen (concat ps) < 2 ^ 61 ->
  exists o d, h_adds a (h_new a g) ps = Ok o /\ h_digest a o = Ok d /\ h_string a o = Ok (hex d).

Lemma hex_length d : zlen (hex d) = 2 * zlen d.
Proof.
  unfold hex; induction d as [|b d IH]; [reflexivity|].
  cbn [flat_map]; rewrite zlen_app, IH, !zlen_cons; unfold zlen; cbn [length]; lia.
Qed.
(** Does the text of the empty message's digest have two characters per byte? *)
Definition text_fits (a : alg) : bool :=
  match h_digest a (h_new a (repeat 0 (buflen a))), h_string a (h_new a (repeat 0 (buflen a))) with
  | Ok d, Ok s => zlen s =? 2 * zlen d
  | _, _ => false
  end.
Lemma hex_agrees_fits a : hex_agrees a -> text_fits a = true.
Proof.
  intros H; destruct (H (repeat 0 (buflen a)) [] (repeat_length _ _) ltac:(constructor) eq_refl) as (o & d & Ho & Hd & Hs).
  cbn [h_adds] in Ho; injection Ho as <-; unfold text_fits; rewrite Hd, Hs, hex_length; apply Z.eqb_refl.
Qed.
Lemma text224 : text_fits ASHA224 = false. Proof. vm_compute; reflexivity. Qed.
Lemma text384 : text_fits ASHA384 = false. Proof. vm_compute; reflexivity. Qed.

Theorem C17_hex_refuted : ~ hex_agrees ASHA224 /\ ~ hex_agrees ASHA384.
Proof. split; intros H; apply hex_agrees_fits in H; [rewrite text224 in H | rewrite text384 in H]; discriminate H. Qed.
Print Assumptions C17_hex_refuted.

(** Partial: all classes but SHA2<224> and SHA2<384>. *)
Theorem C17_hex_partial : forall a, a <> ASHA224 -> a <> ASHA384 -> hex_agrees a.
Proof.
  intros a N1 N2 g ps Hg HB HL.
  destruct (h_adds_inv a ps _ [] (h_new_inv a g Hg) HB) as (o & E & I); [cbn [app]; lia|].
  cbn [app] in I; exists o, (spec_hash a (concat ps)).
  assert (D : h_digest a o = Ok (spec_hash a (concat ps))) by (apply h_digest_inv; auto using bytes_concat).
  split; [exact E|]; split; [exact D|].
  unfold h_string; replace (match a with ASHA224 => ASHA256 | ASHA384 => ASHA512 | x => x end) with a
    by (destruct a; try reflexivity; congruence).
  rewrite D; cbn [bind]; rewrite hex_string_hex by apply spec_hash_bytes; reflexivity.
Qed.
Print Assumptions C17_hex_partial.
Example C17_case : hex [0xba; 0x78] = [98; 97; 55; 56] /\ ASHA256 <> ASHA224 /\ ASHA256 <> ASHA384.
Proof. repeat split; discriminate. Qed.

(** ** C18: DigestInfo prefixes *)
(** Full statement, for one class: prefix followed by any digest of the class's size is the
    DER DigestInfo of RFC 8017 with the registered OID. *)
Definition prefix_ok (a : alg) : Prop :=
  forall d, zlen d = spec_size a -> h_asn1 a ++ d = digest_info a d.

Theorem C18_prefix_refuted : ~ prefix_ok ASHA3_224 /\ ~ prefix_ok ASHA3_384 /\ ~ prefix_ok ASHA3_512.
Proof.
  split; [|split]; intros H.
  - specialize (H (repeat 0 28) eq_refl); vm_compute in H; discriminate H.
  - specialize (H (repeat 0 48) eq_refl); vm_compute in H; discriminate H.
  - specialize (H (repeat 0 64) eq_refl); vm_compute in H; discriminate H.
Qed.
Print Assumptions C18_prefix_refuted.

Theorem C18_prefix_partial : forall a, ~ In a [ASHA3_224; ASHA3_384; ASHA3_512] -> prefix_ok a.
Proof.
  intros a HA d Hd; unfold digest_info, der.
  rewrite !zlen_app, !zlen_cons, Hd.
  destruct a; try (exfalso; apply HA; cbn; tauto); cbn [spec_size]; vm_compute; reflexivity.
Qed.
Print Assumptions C18_prefix_partial.
Example C18_case : ~ In ASHA256 [ASHA3_224; ASHA3_384; ASHA3_512] /\ zlen (repeat 9 32) = spec_size ASHA256.
Proof. split; [cbn; intuition discriminate | reflexivity]. Qed.
