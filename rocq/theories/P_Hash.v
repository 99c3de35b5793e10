(** All ten hash classes behind one invariant. *)
From Coq Require Import String.
From Verif Require Import Base BaseP S_Word P_Word S_MD M_MD P_MD P_MDS.
From Verif Require M_MD5 S_MD5 P_MD5 M_SHA1 S_SHA1 P_SHA1 M_SHA2 S_SHA2 P_SHA2 M_SHA3 S_SHA3 P_SHA3 P_SHA3b.
From Verif Require Import S_Hash M_Hash.
Open Scope Z_scope.

Definition hinv (a : alg) (o : hobj) (m : list Z) : Prop :=
  match a, o with
  | AMD5, OMD s => P_MD5.md5_inv s m
  | ASHA1, OMD s => P_SHA1.sha1_inv s m
  | ASHA224, OMD s => P_SHA2.sha224_inv s m
  | ASHA256, OMD s => P_SHA2.sha256_inv s m
  | ASHA384, OMD s => P_SHA2.sha384_inv s m
  | ASHA512, OMD s => P_SHA2.sha512_inv s m
  | ASHA3_224, OS3 s => P_SHA3b.InvS 224 s m
  | ASHA3_256, OS3 s => P_SHA3b.InvS 256 s m
  | ASHA3_384, OS3 s => P_SHA3b.InvS 384 s m
  | ASHA3_512, OS3 s => P_SHA3b.InvS 512 s m
  | _, _ => False
  end.

Lemma h_new_inv a g : length g = buflen a -> hinv a (h_new a g) [].
Proof.
  intros H; destruct a; cbn [hinv h_new buflen] in *.
  1: apply init_inv; [apply P_MD5.md5_B | exact H].
  1: apply init_inv; [apply P_SHA1.B64 | exact H].
  1: apply init_inv; [apply P_SHA2.B64_div | exact H].
  1: apply init_inv; [apply P_SHA2.B64_div | exact H].
  1: apply init_inv; [apply P_SHA2.B128_div | exact H].
  1: apply init_inv; [apply P_SHA2.B128_div | exact H].
  all: split; [reflexivity | apply P_SHA3b.Inv3_init; auto].
Qed.

Lemma h_add_inv a o m d : hinv a o m -> bytes d -> zlen (m ++ d) < 2 ^ 64 ->
  exists o', h_add a o d = Ok o' /\ hinv a o' (m ++ d).
Proof.
  intros HI HB HL.
  assert (Hd : zlen d < 2 ^ 64) by (rewrite zlen_app in HL; pose proof (zlen_nonneg m); lia).
  destruct a, o as [s|s]; cbn [hinv h_add] in *; try contradiction.
  1: destruct P_MD5.md5_B as [P D]; destruct (md_add_ok 64 _ P D _ s m d HI Hd) as (s' & E & I).
  2: destruct P_MD5.md5_B as [P D]; destruct (md_add_ok 64 _ P D _ s m d HI Hd) as (s' & E & I).
  3: destruct P_MD5.md5_B as [P D]; destruct (md_add_ok 64 _ P D _ s m d HI Hd) as (s' & E & I).
  4: destruct P_MD5.md5_B as [P D]; destruct (md_add_ok 64 _ P D _ s m d HI Hd) as (s' & E & I).
  5: destruct P_SHA2.B128_div as [P D]; destruct (md_add_ok 128 _ P D _ s m d HI Hd) as (s' & E & I).
  6: destruct P_SHA2.B128_div as [P D]; destruct (md_add_ok 128 _ P D _ s m d HI Hd) as (s' & E & I).
  1-6: exists (OMD s'); split; [unfold M_MD5.md5_add, M_SHA1.sha1_add, M_SHA2.sha224_add, M_SHA2.sha384_add, M_SHA2.sha256_add, M_SHA2.sha512_add; rewrite E; reflexivity | exact I].
  1: destruct (P_SHA3b.sha3_add_ok 224 ltac:(auto) s m d HI HB HL) as (s' & E & I).
  2: destruct (P_SHA3b.sha3_add_ok 256 ltac:(auto) s m d HI HB HL) as (s' & E & I).
  3: destruct (P_SHA3b.sha3_add_ok 384 ltac:(auto) s m d HI HB HL) as (s' & E & I).
  4: destruct (P_SHA3b.sha3_add_ok 512 ltac:(auto) s m d HI HB HL) as (s' & E & I).
  all: exists (OS3 s'); split; [cbn [sha3_size_of]; rewrite E; reflexivity | exact I].
Qed.

Lemma h_digest_inv a o m : hinv a o m -> bytes m -> zlen m < 2 ^ 61 -> h_digest a o = Ok (spec_hash a m).
Proof.
  intros HI HB HL; destruct a, o as [s|s]; cbn [hinv h_digest spec_hash] in *; try contradiction.
  - apply P_MD5.md5_digest_ok; assumption.
  - apply P_SHA1.sha1_digest_ok; assumption.
  - apply P_SHA2.sha224_digest_ok; assumption.
  - apply P_SHA2.sha256_digest_ok; assumption.
  - apply P_SHA2.sha384_digest_ok; assumption.
  - apply P_SHA2.sha512_digest_ok; assumption.
  - apply (P_SHA3b.sha3_digest_ok 224); auto.
  - apply (P_SHA3b.sha3_digest_ok 256); auto.
  - apply (P_SHA3b.sha3_digest_ok 384); auto.
  - apply (P_SHA3b.sha3_digest_ok 512); auto.
Qed.

Lemma h_digest_inv3 a o m : buflen a = 0%nat -> hinv a o m -> h_digest a o = Ok (spec_hash a m).
Proof.
  intros HA HI; destruct a, o as [s|s]; cbn [hinv h_digest spec_hash buflen] in *; try contradiction; try discriminate HA.
  - apply (P_SHA3b.sha3_digest_ok 224); auto.
  - apply (P_SHA3b.sha3_digest_ok 256); auto.
  - apply (P_SHA3b.sha3_digest_ok 384); auto.
  - apply (P_SHA3b.sha3_digest_ok 512); auto.
Qed.

(** ** Histories *)
Lemma Forall_app_intro l1 l2 : bytes l1 -> bytes l2 -> bytes (l1 ++ l2).
Proof. intros; apply Forall_app; auto. Qed.
Lemma bytes_app_inv l1 l2 : bytes (l1 ++ l2) -> bytes l1 /\ bytes l2.
Proof. apply Forall_app. Qed.

Lemma obj_run_ideal a (lim : Z) (Hlim : lim <= 2 ^ 64)
  (Hdig : forall o m, hinv a o m -> bytes m -> zlen m < lim -> h_digest a o = Ok (spec_hash a m)) ops :
  forall o m, hinv a o m -> bytes m -> bytes (added ops) -> zlen (m ++ added ops) < lim ->
  obj_run (h_add a) (h_digest a) o ops = Ok (ideal_run (spec_hash a) m ops).
Proof.
  induction ops as [|[d|] ops IH]; intros o m HI HM HA HL; cbn [obj_run ideal_run added] in *; [reflexivity| |].
  - destruct (bytes_app_inv _ _ HA) as [Hd HA'].
    rewrite app_assoc in HL.
    assert (HL' : zlen (m ++ d) < lim) by (rewrite zlen_app in HL; pose proof (zlen_nonneg (added ops)); lia).
    destruct (h_add_inv a o m d HI Hd ltac:(lia)) as (o' & E & I'); rewrite E; cbn [bind].
    apply IH; auto; apply bytes_app; auto.
  - rewrite (Hdig o m HI HM) by (rewrite zlen_app in HL; pose proof (zlen_nonneg (added ops)); lia); cbn [bind].
    rewrite (IH o m HI HM HA HL); reflexivity.
Qed.

Lemma hash_history a g ops : length g = buflen a -> bytes (added ops) -> zlen (added ops) < 2 ^ 61 ->
  obj_run (h_add a) (h_digest a) (h_new a g) ops = Ok (ideal_run (spec_hash a) [] ops).
Proof.
  intros Hg HB HL; apply (obj_run_ideal a (2 ^ 61)); [lia| | |apply bytes_nil|exact HB|exact HL].
  - intros; apply h_digest_inv; assumption.
  - apply h_new_inv; exact Hg.
Qed.

Lemma sha3_history a g ops : buflen a = 0%nat -> length g = buflen a -> bytes (added ops) -> zlen (added ops) < 2 ^ 64 ->
  obj_run (h_add a) (h_digest a) (h_new a g) ops = Ok (ideal_run (spec_hash a) [] ops).
Proof.
  intros HA Hg HB HL; apply (obj_run_ideal a (2 ^ 64)); [lia| | |apply bytes_nil|exact HB|exact HL].
  - intros; apply h_digest_inv3; assumption.
  - apply h_new_inv; exact Hg.
Qed.

(** ** Any length: the Merkle-Damgaard classes never fault and depend only on the bytes added *)
Definition mdF (a : alg) (m : list Z) : list Z :=
  match a with
  | AMD5 => out_le 4 (comp 64 M_MD5.md5_processChunk P_MD5.md5_iv (m ++ cpad 64 8 false m))
  | ASHA1 => out_be 4 (comp 64 M_SHA1.sha1_processChunk P_SHA1.sha1_iv (m ++ cpad 64 8 true m))
  | ASHA224 => firstn 28 (out_be 4 (comp 64 M_SHA2.sha256_processChunk P_SHA2.sha224_ivl (m ++ cpad 64 8 true m)))
  | ASHA256 => out_be 4 (comp 64 M_SHA2.sha256_processChunk P_SHA2.sha256_ivl (m ++ cpad 64 8 true m))
  | ASHA384 => firstn 48 (out_be 8 (comp 128 M_SHA2.sha512_processChunk P_SHA2.sha384_ivl (m ++ cpad 128 16 true m)))
  | ASHA512 => out_be 8 (comp 128 M_SHA2.sha512_processChunk P_SHA2.sha512_ivl (m ++ cpad 128 16 true m))
  | _ => []
  end.

Lemma out_be_length sz l : length (out_be sz l) = (length l * sz)%nat.
Proof.
  unfold out_be; induction l as [|x l IH]; [reflexivity|].
  cbn [flat_map length]; rewrite app_length, map_length, seq_length, IH; reflexivity.
Qed.

Lemma fold_comp_length B (pc : list Z -> list Z -> list Z) n :
  (forall M w, length w = n -> length (pc M w) = n) ->
  forall w0 m, length w0 = n -> length (comp B pc w0 m) = n.
Proof.
  intros Hpc w0 m Hw; unfold comp.
  generalize (chunks (Z.to_nat B) m); intros l; revert w0 Hw.
  induction l as [|x l IH]; intros; cbn [fold_left]; auto.
Qed.

Lemma sha256_pc_length M w : length w = 8%nat -> length (M_SHA2.sha256_processChunk M w) = 8%nat.
Proof.
  intros H; do 9 (destruct w as [|? w]; try discriminate H); unfold M_SHA2.sha256_processChunk.
  destruct (fold_left _ _ _) as [[[[[[[a b] c] d] e] f] g] h]; reflexivity.
Qed.
Lemma sha512_pc_length M w : length w = 8%nat -> length (M_SHA2.sha512_processChunk M w) = 8%nat.
Proof.
  intros H; do 9 (destruct w as [|? w]; try discriminate H); unfold M_SHA2.sha512_processChunk.
  destruct (fold_left _ _ _) as [[[[[[[a b] c] d] e] f] g] h]; reflexivity.
Qed.

Lemma h_digest_md a o m : buflen a <> 0%nat -> hinv a o m -> h_digest a o = Ok (mdF a m).
Proof.
  intros HA HI; destruct a, o as [s|s]; cbn [hinv h_digest mdF buflen] in *; try contradiction.
  - destruct P_MD5.md5_B as [P D]; unfold M_MD5.md5_digest.
    rewrite (md_final_ok 64 _ P D 8 false ltac:(lia) _ _ _ HI); reflexivity.
  - destruct P_MD5.md5_B as [P D]; unfold M_SHA1.sha1_digest.
    rewrite (md_final_ok 64 _ P D 8 true ltac:(lia) _ _ _ HI); reflexivity.
  - destruct P_MD5.md5_B as [P D]; unfold M_SHA2.sha224_digest, M_SHA2.sha256_digest.
    rewrite (md_final_ok 64 _ P D 8 true ltac:(lia) _ _ _ HI); cbn [bind].
    rewrite slice_ok; [reflexivity|lia|lia|].
    unfold zlen; rewrite out_be_length, (fold_comp_length _ _ 8) by (apply sha256_pc_length || reflexivity); lia.
  - destruct P_MD5.md5_B as [P D]; unfold M_SHA2.sha256_digest.
    rewrite (md_final_ok 64 _ P D 8 true ltac:(lia) _ _ _ HI); reflexivity.
  - destruct P_SHA2.B128_div as [P D]; unfold M_SHA2.sha384_digest, M_SHA2.sha512_digest.
    rewrite (md_final_ok 128 _ P D 16 true ltac:(lia) _ _ _ HI); cbn [bind].
    rewrite slice_ok; [reflexivity|lia|lia|].
    unfold zlen; rewrite out_be_length, (fold_comp_length _ _ 8) by (apply sha512_pc_length || reflexivity); lia.
  - destruct P_SHA2.B128_div as [P D]; unfold M_SHA2.sha512_digest.
    rewrite (md_final_ok 128 _ P D 16 true ltac:(lia) _ _ _ HI); reflexivity.
Qed.

Lemma h_add_md a o m d : buflen a <> 0%nat -> hinv a o m -> zlen d < 2 ^ 64 ->
  exists o', h_add a o d = Ok o' /\ hinv a o' (m ++ d).
Proof.
  intros HA HI Hd.
  destruct a, o as [s|s]; cbn [hinv h_add buflen] in *; try contradiction.
  1-4: destruct P_MD5.md5_B as [P D]; destruct (md_add_ok 64 _ P D _ s m d HI Hd) as (s' & E & I).
  5-6: destruct P_SHA2.B128_div as [P D]; destruct (md_add_ok 128 _ P D _ s m d HI Hd) as (s' & E & I).
  all: exists (OMD s'); split; [unfold M_MD5.md5_add, M_SHA1.sha1_add, M_SHA2.sha224_add, M_SHA2.sha384_add, M_SHA2.sha256_add, M_SHA2.sha512_add; rewrite E; reflexivity | exact I].
Qed.

(** Every piece is an object in memory, so shorter than 2^64 bytes; the total is not bounded. *)
Fixpoint pieces_ok (ops : list hop) : Prop :=
  match ops with
  | [] => True
  | HAdd d :: t => zlen d < 2 ^ 64 /\ pieces_ok t
  | HRead :: t => pieces_ok t
  end.

Lemma md_history a ops : buflen a <> 0%nat -> pieces_ok ops -> forall o m, hinv a o m ->
  obj_run (h_add a) (h_digest a) o ops = Ok (ideal_run (mdF a) m ops).
Proof.
  intros HA; induction ops as [|[d|] ops IH]; intros HP o m HI; cbn [obj_run ideal_run pieces_ok] in *; [reflexivity| |].
  - destruct HP as [Hd HP]; destruct (h_add_md a o m d HA HI Hd) as (o' & E & I'); rewrite E; cbn [bind].
    apply IH; assumption.
  - rewrite (h_digest_md a o m HA HI); cbn [bind]; rewrite (IH HP o m HI); reflexivity.
Qed.

Lemma md_history_new a g ops : buflen a <> 0%nat -> length g = buflen a -> pieces_ok ops ->
  obj_run (h_add a) (h_digest a) (h_new a g) ops = Ok (ideal_run (mdF a) [] ops).
Proof. intros; apply md_history; auto; apply h_new_inv; assumption. Qed.

(** ** One-shot hashing (constructor with arguments, then data()) *)
Lemma h_adds_inv a ps : forall o m, hinv a o m -> Forall bytes ps -> zlen (m ++ concat ps) < 2 ^ 64 ->
  exists o', h_adds a o ps = Ok o' /\ hinv a o' (m ++ concat ps).
Proof.
  induction ps as [|p ps IH]; intros o m HI HB HL; cbn [h_adds concat] in *.
  - exists o; rewrite app_nil_r; auto.
  - inversion HB as [|? ? Hp Hps]; subst.
    rewrite app_assoc in HL.
    destruct (h_add_inv a o m p HI Hp) as (o' & E & I');
      [rewrite zlen_app in HL; pose proof (zlen_nonneg (concat ps)); lia|].
    rewrite E; cbn [bind]; destruct (IH o' (m ++ p) I' Hps HL) as (o2 & E2 & I2).
    exists o2; rewrite app_assoc; auto.
Qed.

Lemma bytes_concat ps : Forall bytes ps -> bytes (concat ps).
Proof. induction 1; cbn [concat]; [apply bytes_nil | apply bytes_app; auto]. Qed.

Lemma h_hash_ok a g ps : length g = buflen a -> Forall bytes ps -> zlen (concat ps) < 2 ^ 61 ->
  h_hash a g ps = Ok (spec_hash a (concat ps)).
Proof.
  intros Hg HB HL; unfold h_hash.
  destruct (h_adds_inv a ps (h_new a g) [] (h_new_inv a g Hg) HB) as (o & E & I); [cbn [app]; lia|].
  rewrite E; cbn [bind app] in *; apply h_digest_inv; auto using bytes_concat.
Qed.

(** ** Digest sizes *)
Lemma spec_hash_length a m : zlen (spec_hash a m) = spec_size a.
Proof.
  unfold zlen; destruct a; cbn [spec_hash spec_size].
  - unfold S_MD5.md5; destruct (fold_left _ _ _) as [[[A B] C] D]; reflexivity.
  - unfold S_SHA1.sha1; destruct (fold_left _ _ _) as [[[[A B] C] D] E]; reflexivity.
  - unfold S_SHA2.sha224; rewrite firstn_length, P_SHA2.st_bytes32_length; reflexivity.
  - unfold S_SHA2.sha256; rewrite P_SHA2.st_bytes32_length; reflexivity.
  - unfold S_SHA2.sha384; rewrite firstn_length, P_SHA2.st_bytes64_length; reflexivity.
  - unfold S_SHA2.sha512; rewrite P_SHA2.st_bytes64_length; reflexivity.
  - unfold S_SHA3.sha3; rewrite map_length, seq_length; reflexivity.
  - unfold S_SHA3.sha3; rewrite map_length, seq_length; reflexivity.
  - unfold S_SHA3.sha3; rewrite map_length, seq_length; reflexivity.
  - unfold S_SHA3.sha3; rewrite map_length, seq_length; reflexivity.
Qed.

Lemma bytes_firstn n l : bytes l -> bytes (firstn n l).
Proof. intros H; rewrite <- (firstn_skipn n l) in H; apply bytes_app_inv in H; tauto. Qed.
Lemma st_bytes_bytes v s : bytes (S_SHA2.st_bytes v s).
Proof.
  destruct s as [[[[[[[h0 h1] h2] h3] h4] h5] h6] h7]; unfold S_SHA2.st_bytes; cbn [flat_map].
  repeat match goal with |- bytes (_ ++ _) => apply Forall_app_intro end; try apply be_bytes_bytes; apply bytes_nil.
Qed.
Lemma byte_at_byte A n : byte (S_SHA3.byte_at A n).
Proof.
  unfold S_SHA3.byte_at; cbn [seq fold_right].
  assert (Hb : forall b, 0 <= Z.b2z b <= 1) by (intros []; cbn; lia).
  repeat match goal with |- context [Z.b2z ?b] => pose proof (Hb b); generalize dependent (Z.b2z b); intros end.
  unfold byte; lia.
Qed.
Lemma sha3_bytes d m : bytes (S_SHA3.sha3 d m).
Proof.
  unfold S_SHA3.sha3, bytes; apply Forall_forall; intros x Hx.
  apply in_map_iff in Hx; destruct Hx as (n & <- & _); apply byte_at_byte.
Qed.
Lemma spec_hash_bytes a m : bytes (spec_hash a m).
Proof.
  destruct a; cbn [spec_hash]; try apply sha3_bytes.
  - unfold S_MD5.md5; destruct (fold_left _ _ _) as [[[A B] C] D].
    repeat match goal with |- bytes (_ ++ _) => apply Forall_app_intro end; apply le_bytes_bytes.
  - unfold S_SHA1.sha1; destruct (fold_left _ _ _) as [[[[A B] C] D] E].
    repeat match goal with |- bytes (_ ++ _) => apply Forall_app_intro end; apply be_bytes_bytes.
  - apply bytes_firstn, st_bytes_bytes.
  - apply st_bytes_bytes.
  - apply bytes_firstn, st_bytes_bytes.
  - apply st_bytes_bytes.
Qed.

(** ** Hexadecimal *)
Lemma hex_string_hex l : bytes l -> hex_string l = hex l.
Proof.
  intros H; unfold hex_string, hex; induction H as [|b l Hb Hl IH]; [reflexivity|].
  cbn [flat_map]; rewrite IH; f_equal.
  assert (T : forall d, 0 <= d < 16 -> nth (Z.to_nat d) hextab 0 = hexchar d).
  { intros d Hd; rewrite <- (Z2Nat.id d) at 2 by lia.
    assert (Hn : (Z.to_nat d < 16)%nat) by lia.
    generalize dependent (Z.to_nat d); intros n Hn.
    do 16 (destruct n as [|n]; [reflexivity|]); lia. }
  unfold byte in Hb; change 15 with (Z.ones 4); rewrite Z.shiftr_div_pow2, Z.land_ones by lia.
  change (2 ^ 4) with 16; rewrite !T; [reflexivity| |].
  - apply Z.mod_pos_bound; lia.
  - split; [apply Z.div_pos; lia | apply Z.div_lt_upper_bound; lia].
Qed.
