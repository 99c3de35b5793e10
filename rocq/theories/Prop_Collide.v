(** Properties C93 and C94: collisions of the iterated hash functions, and extending a digest. *)
From Verif Require Import Base BaseP S_Word S_MD S_MD5 S_SHA1 S_SHA2 S_Hash M_Hash P_Hash P_MDC.
Open Scope Z_scope.

(** The pairs of chaining value and block that the standards' functions compress for a message. *)
Definition md5_steps (m : list Z) := steps S_MD5.block S_MD5.init (chunks 64 (pad_le 64 8 m)).
Definition sha1_steps (m : list Z) := steps S_SHA1.block S_SHA1.init (chunks 64 (pad_be 64 8 m)).
Definition sha2_32_steps iv (m : list Z) := steps (S_SHA2.block V32) iv (chunks 64 (pad_be 64 8 m)).
Definition sha2_64_steps iv (m : list Z) := steps (S_SHA2.block V64) iv (chunks 128 (pad_be 128 16 m)).

Lemma dec_list (x y : list Z) : {x = y} + {x <> y}. Proof. apply list_eq_dec, Z.eq_dec. Defined.
Ltac deq := repeat (first [exact Z.eq_dec | exact dec_list | decide equality]).
Lemma dec5 (x y : (Z * Z * Z * Z) * list Z) : {x = y} + {x <> y}. Proof. deq. Defined.
Lemma dec1 (x y : (Z * Z * Z * Z * Z) * list Z) : {x = y} + {x <> y}. Proof. deq. Defined.
Lemma dec2 (x y : S_SHA2.st * list Z) : {x = y} + {x <> y}. Proof. unfold S_SHA2.st in *; deq. Defined.

Lemma le_inj8 a b : 0 <= a < 2 ^ 64 -> 0 <= b < 2 ^ 64 -> le_bytes 8 a = le_bytes 8 b -> a = b.
Proof. intros Ha Hb E; apply (f_equal le_val) in E; rewrite !le_val_bytes in E by (change (256 ^ Z.of_nat 8) with (2 ^ 64); lia); exact E. Qed.
Lemma be_inj n a b : 0 <= a < 256 ^ Z.of_nat n -> 0 <= b < 256 ^ Z.of_nat n -> be_bytes n a = be_bytes n b -> a = b.
Proof. intros Ha Hb E; apply (f_equal be_val) in E; rewrite !be_val_bytes in E by lia; exact E. Qed.
Lemma be_inj8 a b : 0 <= a < 2 ^ 64 -> 0 <= b < 2 ^ 64 -> be_bytes 8 a = be_bytes 8 b -> a = b.
Proof. intros Ha Hb; apply be_inj; change (256 ^ Z.of_nat 8) with (2 ^ 64); lia. Qed.
Lemma be_inj16 a b : 0 <= a < 2 ^ 64 -> 0 <= b < 2 ^ 64 -> be_bytes 16 a = be_bytes 16 b -> a = b.
Proof. intros Ha Hb; apply be_inj; change (256 ^ Z.of_nat 16) with (2 ^ 128); lia. Qed.
Lemma app_len {A} (a b c d : list A) : length a = length c -> a ++ b = c ++ d -> a = c /\ b = d.
Proof.
  revert c; induction a as [|x a IH]; intros [|y c] L E; cbn [length app] in *; try discriminate; [split; [reflexivity | exact E]|].
  injection E as -> E; destruct (IH c ltac:(lia) E) as [-> ->]; split; reflexivity.
Qed.
Lemma addw_range w a b : 0 < w -> 0 <= addw w a b < 2 ^ w.
Proof. intros H; unfold addw; apply Z.mod_pos_bound, Z.pow_pos_nonneg; lia. Qed.

(** The digest shows the whole chaining value. *)
Definition md5_out (s : Z * Z * Z * Z) : list Z := let '(A, B, C, D) := s in le_bytes 4 A ++ le_bytes 4 B ++ le_bytes 4 C ++ le_bytes 4 D.
Definition sha1_out (s : S_SHA1.st) : list Z := let '(a, b, c, d, e) := s in be_bytes 4 a ++ be_bytes 4 b ++ be_bytes 4 c ++ be_bytes 4 d ++ be_bytes 4 e.
Definition in32 (s : S_SHA2.st) : Prop := let '(a, b, c, d, e, f, g, h) := s in Forall (word 32) [a; b; c; d; e; f; g; h].
Definition in64 (s : S_SHA2.st) : Prop := let '(a, b, c, d, e, f, g, h) := s in Forall (word 64) [a; b; c; d; e; f; g; h].
Definition in32_5 (s : S_SHA1.st) : Prop := let '(a, b, c, d, e) := s in Forall (word 32) [a; b; c; d; e].
Definition in32_4 (s : Z * Z * Z * Z) : Prop := let '(a, b, c, d) := s in Forall (word 32) [a; b; c; d].
Ltac words := repeat constructor; unfold word; apply addw_range; lia.
Lemma md5_block_in s M : in32_4 (S_MD5.block s M).
Proof. unfold S_MD5.block; destruct s as [[[A B] C] D]; destruct (fold_left _ _ _) as [[[A' B'] C'] D']; unfold in32_4; words. Qed.
Lemma sha1_block_in s M : in32_5 (S_SHA1.block s M).
Proof. unfold S_SHA1.block; destruct s as [[[[A B] C] D] E]; destruct (fold_left _ _ _) as [[[[A' B'] C'] D'] E']; unfold in32_5; words. Qed.
Lemma sha32_block_in s M : in32 (S_SHA2.block V32 s M).
Proof. unfold S_SHA2.block; destruct s as [[[[[[[h0 h1] h2] h3] h4] h5] h6] h7]; destruct (fold_left _ _ _) as [[[[[[[a b] c] d] e] f] g] h]; unfold in32; change (vw V32) with 32; words. Qed.
Lemma sha64_block_in s M : in64 (S_SHA2.block V64 s M).
Proof. unfold S_SHA2.block; destruct s as [[[[[[[h0 h1] h2] h3] h4] h5] h6] h7]; destruct (fold_left _ _ _) as [[[[[[[a b] c] d] e] f] g] h]; unfold in64; change (vw V64) with 64; words. Qed.
Lemma flat_be_inj k l : forall l', length l = length l' -> Forall (fun x => 0 <= x < 256 ^ Z.of_nat k) l -> Forall (fun x => 0 <= x < 256 ^ Z.of_nat k) l' ->
  flat_map (be_bytes k) l = flat_map (be_bytes k) l' -> l = l'.
Proof.
  induction l as [|x l IH]; intros [|y l'] L F F' E; cbn [length] in L; try discriminate; [reflexivity|].
  inversion F; inversion F'; subst; cbn [flat_map] in E; apply app_len in E; [|rewrite !be_bytes_length; reflexivity]; destruct E as [E1 E2].
  f_equal; [apply (be_inj k); assumption | apply IH; try assumption; lia].
Qed.
Lemma flat_le_inj k l : forall l', length l = length l' -> Forall (fun x => 0 <= x < 256 ^ Z.of_nat k) l -> Forall (fun x => 0 <= x < 256 ^ Z.of_nat k) l' ->
  flat_map (le_bytes k) l = flat_map (le_bytes k) l' -> l = l'.
Proof.
  induction l as [|x l IH]; intros [|y l'] L F F' E; cbn [length] in L; try discriminate; [reflexivity|].
  inversion F as [|? ? F1 F2]; inversion F' as [|? ? F1' F2']; subst; cbn [flat_map] in E; apply app_len in E; [|rewrite !le_bytes_length; reflexivity]; destruct E as [E1 E2].
  f_equal; [apply (f_equal le_val) in E1; rewrite !le_val_bytes in E1 by assumption; exact E1 | apply IH; try assumption; lia].
Qed.
Lemma st32_inj s t : in32 s -> in32 t -> st_bytes V32 s = st_bytes V32 t -> s = t.
Proof.
  destruct s as [[[[[[[a b] c] d] e] f] g] h], t as [[[[[[[a' b'] c'] d'] e'] f'] g'] h']; unfold in32, st_bytes; change (Z.to_nat (vw V32 / 8)) with 4%nat.
  intros F F' E; apply flat_be_inj in E; [|reflexivity | exact F | exact F']; injection E as -> -> -> -> -> -> -> ->; reflexivity.
Qed.
Lemma st64_inj s t : in64 s -> in64 t -> st_bytes V64 s = st_bytes V64 t -> s = t.
Proof.
  destruct s as [[[[[[[a b] c] d] e] f] g] h], t as [[[[[[[a' b'] c'] d'] e'] f'] g'] h']; unfold in64, st_bytes; change (Z.to_nat (vw V64 / 8)) with 8%nat.
  intros F F' E; apply flat_be_inj in E; [|reflexivity | exact F | exact F']; injection E as -> -> -> -> -> -> -> ->; reflexivity.
Qed.
Lemma sha1_out_inj s t : in32_5 s -> in32_5 t -> sha1_out s = sha1_out t -> s = t.
Proof.
  destruct s as [[[[a b] c] d] e], t as [[[[a' b'] c'] d'] e']; unfold in32_5, sha1_out; intros F F' E.
  assert (Q : flat_map (be_bytes 4) [a; b; c; d; e] = flat_map (be_bytes 4) [a'; b'; c'; d'; e']) by (cbn [flat_map]; rewrite !app_nil_r; exact E).
  apply flat_be_inj in Q; [|reflexivity | exact F | exact F']; injection Q as -> -> -> -> ->; reflexivity.
Qed.
Lemma md5_out_inj s t : in32_4 s -> in32_4 t -> md5_out s = md5_out t -> s = t.
Proof.
  destruct s as [[[a b] c] d], t as [[[a' b'] c'] d']; unfold in32_4, md5_out; intros F F' E.
  assert (Q : flat_map (le_bytes 4) [a; b; c; d] = flat_map (le_bytes 4) [a'; b'; c'; d']) by (cbn [flat_map]; rewrite !app_nil_r; exact E).
  apply flat_le_inj in Q; [|reflexivity | exact F | exact F']; injection Q as -> -> -> ->; reflexivity.
Qed.

Lemma same_digest a g g' m m' d : length g = buflen a -> length g' = buflen a -> bytes m -> bytes m' -> zlen m < 2 ^ 61 -> zlen m' < 2 ^ 61 ->
  h_hash a g [m] = Ok d -> h_hash a g' [m'] = Ok d -> spec_hash a m = spec_hash a m'.
Proof.
  intros G G' B B' L L' E E'.
  rewrite (h_hash_ok a g [m] G) in E by (cbn [concat]; rewrite ?app_nil_r; auto). rewrite (h_hash_ok a g' [m'] G') in E' by (cbn [concat]; rewrite ?app_nil_r; auto).
  cbn [concat] in E, E'; rewrite !app_nil_r in E, E'. injection E as E; injection E' as E'; rewrite E, E'; reflexivity.
Qed.

(** ** C93: from two messages with the same digest one gets, among the steps of the two
    computations, two different inputs to the compression function with the same output. *)
Definition collide {St} (comp : St -> list Z -> St) (B : nat) (xs ys : list (St * list Z)) : Prop :=
  exists x y, In x xs /\ In y ys /\ x <> y /\ comp (fst x) (snd x) = comp (fst y) (snd y) /\ length (snd x) = B /\ length (snd y) = B.

Theorem C93_md5 : forall g g' m m' d, length g = 64%nat -> length g' = 64%nat -> bytes m -> bytes m' -> zlen m < 2 ^ 61 -> zlen m' < 2 ^ 61 -> m <> m' ->
  h_hash AMD5 g [m] = Ok d -> h_hash AMD5 g' [m'] = Ok d -> collide S_MD5.block 64 (md5_steps m) (md5_steps m').
Proof.
  intros g g' m m' d G G' B B' L L' N E E'; pose proof (same_digest AMD5 g g' m m' d G G' B B' L L' E E') as Q; clear E E'.
  destruct (collision _ S_MD5.block dec5 64 8 (le_bytes 8) ltac:(lia) (le_bytes_length 8) le_inj8 md5_out S_MD5.init m m' L L' N Q) as (x & y & Ix & Iy & D & O & Lx & Ly).
  exists x, y; repeat split; try assumption; apply md5_out_inj; [apply md5_block_in | apply md5_block_in | exact O].
Qed.
Print Assumptions C93_md5.
Theorem C93_sha1 : forall g g' m m' d, length g = 64%nat -> length g' = 64%nat -> bytes m -> bytes m' -> zlen m < 2 ^ 61 -> zlen m' < 2 ^ 61 -> m <> m' ->
  h_hash ASHA1 g [m] = Ok d -> h_hash ASHA1 g' [m'] = Ok d -> collide S_SHA1.block 64 (sha1_steps m) (sha1_steps m').
Proof.
  intros g g' m m' d G G' B B' L L' N E E'; pose proof (same_digest ASHA1 g g' m m' d G G' B B' L L' E E') as Q; clear E E'.
  destruct (collision _ S_SHA1.block dec1 64 8 (be_bytes 8) ltac:(lia) (be_bytes_length 8) be_inj8 sha1_out S_SHA1.init m m' L L' N Q) as (x & y & Ix & Iy & D & O & Lx & Ly).
  exists x, y; repeat split; try assumption; apply sha1_out_inj; [apply sha1_block_in | apply sha1_block_in | exact O].
Qed.
Print Assumptions C93_sha1.
Theorem C93_sha256 : forall g g' m m' d, length g = 64%nat -> length g' = 64%nat -> bytes m -> bytes m' -> zlen m < 2 ^ 61 -> zlen m' < 2 ^ 61 -> m <> m' ->
  h_hash ASHA256 g [m] = Ok d -> h_hash ASHA256 g' [m'] = Ok d -> collide (S_SHA2.block V32) 64 (sha2_32_steps iv256 m) (sha2_32_steps iv256 m').
Proof.
  intros g g' m m' d G G' B B' L L' N E E'; pose proof (same_digest ASHA256 g g' m m' d G G' B B' L L' E E') as Q; clear E E'.
  destruct (collision _ (S_SHA2.block V32) dec2 64 8 (be_bytes 8) ltac:(lia) (be_bytes_length 8) be_inj8 (st_bytes V32) iv256 m m' L L' N Q) as (x & y & Ix & Iy & D & O & Lx & Ly).
  exists x, y; repeat split; try assumption; apply st32_inj; [apply sha32_block_in | apply sha32_block_in | exact O].
Qed.
Print Assumptions C93_sha256.
Theorem C93_sha512 : forall g g' m m' d, length g = 128%nat -> length g' = 128%nat -> bytes m -> bytes m' -> zlen m < 2 ^ 61 -> zlen m' < 2 ^ 61 -> m <> m' ->
  h_hash ASHA512 g [m] = Ok d -> h_hash ASHA512 g' [m'] = Ok d -> collide (S_SHA2.block V64) 128 (sha2_64_steps iv512 m) (sha2_64_steps iv512 m').
Proof.
  intros g g' m m' d G G' B B' L L' N E E'; pose proof (same_digest ASHA512 g g' m m' d G G' B B' L L' E E') as Q; clear E E'.
  destruct (collision _ (S_SHA2.block V64) dec2 128 16 (be_bytes 16) ltac:(lia) (be_bytes_length 16) be_inj16 (st_bytes V64) iv512 m m' L L' N Q) as (x & y & Ix & Iy & D & O & Lx & Ly).
  exists x, y; repeat split; try assumption; apply st64_inj; [apply sha64_block_in | apply sha64_block_in | exact O].
Qed.
Print Assumptions C93_sha512.
(** For the shortened digests: with the same first bytes of output. *)
Definition collide_first {St} (comp : St -> list Z -> St) (out : St -> list Z) (n B : nat) (xs ys : list (St * list Z)) : Prop :=
  exists x y, In x xs /\ In y ys /\ x <> y /\ firstn n (out (comp (fst x) (snd x))) = firstn n (out (comp (fst y) (snd y))) /\ length (snd x) = B /\ length (snd y) = B.
Theorem C93_sha224 : forall g g' m m' d, length g = 64%nat -> length g' = 64%nat -> bytes m -> bytes m' -> zlen m < 2 ^ 61 -> zlen m' < 2 ^ 61 -> m <> m' ->
  h_hash ASHA224 g [m] = Ok d -> h_hash ASHA224 g' [m'] = Ok d -> collide_first (S_SHA2.block V32) (st_bytes V32) 28 64 (sha2_32_steps iv224 m) (sha2_32_steps iv224 m').
Proof.
  intros g g' m m' d G G' B B' L L' N E E'; pose proof (same_digest ASHA224 g g' m m' d G G' B B' L L' E E') as Q; clear E E'.
  exact (collision _ (S_SHA2.block V32) dec2 64 8 (be_bytes 8) ltac:(lia) (be_bytes_length 8) be_inj8 (fun s => firstn 28 (st_bytes V32 s)) iv224 m m' L L' N Q).
Qed.
Print Assumptions C93_sha224.
Theorem C93_sha384 : forall g g' m m' d, length g = 128%nat -> length g' = 128%nat -> bytes m -> bytes m' -> zlen m < 2 ^ 61 -> zlen m' < 2 ^ 61 -> m <> m' ->
  h_hash ASHA384 g [m] = Ok d -> h_hash ASHA384 g' [m'] = Ok d -> collide_first (S_SHA2.block V64) (st_bytes V64) 48 128 (sha2_64_steps iv384 m) (sha2_64_steps iv384 m').
Proof.
  intros g g' m m' d G G' B B' L L' N E E'; pose proof (same_digest ASHA384 g g' m m' d G G' B B' L L' E E') as Q; clear E E'.
  exact (collision _ (S_SHA2.block V64) dec2 128 16 (be_bytes 16) ltac:(lia) (be_bytes_length 16) be_inj16 (fun s => firstn 48 (st_bytes V64 s)) iv384 m m' L L' N Q).
Qed.
Print Assumptions C93_sha384.
(** Meeting the hypotheses: a known pair of different messages with the same MD5 digest. *)
Definition wang1 : list Z := be_bytes 128 0xd131dd02c5e6eec4693d9a0698aff95c2fcab58712467eab4004583eb8fb7f8955ad340609f4b30283e488832571415a085125e8f7cdc99fd91dbdf280373c5bd8823e3156348f5bae6dacd436c919c6dd53e2b487da03fd02396306d248cda0e99f33420f577ee8ce54b67080a80d1ec69821bcb6a8839396f9652b6ff72a70.
Definition wang2 : list Z := be_bytes 128 0xd131dd02c5e6eec4693d9a0698aff95c2fcab50712467eab4004583eb8fb7f8955ad340609f4b30283e4888325f1415a085125e8f7cdc99fd91dbd7280373c5bd8823e3156348f5bae6dacd436c919c6dd53e23487da03fd02396306d248cda0e99f33420f577ee8ce54b67080280d1ec69821bcb6a8839396f965ab6ff72a70.
Example C93_case : bytes wang1 /\ bytes wang2 /\ zlen wang1 = 128 /\ zlen wang2 = 128 /\ wang1 <> wang2 /\
  exists d, h_hash AMD5 (repeat 0 64) [wang1] = Ok d /\ h_hash AMD5 (repeat 0 64) [wang2] = Ok d.
Proof.
  split; [apply be_bytes_bytes|]; split; [apply be_bytes_bytes|]; split; [reflexivity|]; split; [reflexivity|]; split; [vm_compute; discriminate|].
  exists (be_bytes 16 0x79054025255fb1a26e4bc422aef54eb4); split; vm_compute; reflexivity.
Qed.

(** ** C94: the digest of a longer message from a digest, without knowing the message. *)
(** The bytes that the padding adds to a message of [n] bytes. *)
Definition glue_le (n : Z) : list Z := [0x80] ++ repeat 0 (zero_bytes 64 8 n) ++ le_bytes 8 (8 * n).
Definition glue_be (B L : nat) (n : Z) : list Z := [0x80] ++ repeat 0 (zero_bytes (Z.of_nat B) (Z.of_nat L) n) ++ be_bytes L (8 * n).
(** Continue from a digest, given the length of the message before [x]. *)
Definition md5_extend (d : list Z) (n : Z) (x : list Z) : list Z :=
  let w := map le_val (chunks 4 d) in
  md5_out (fold_left S_MD5.block (chunks 64 (x ++ glue_le (n + zlen x))) (nth 0 w 0, nth 1 w 0, nth 2 w 0, nth 3 w 0)).
Definition sha1_extend (d : list Z) (n : Z) (x : list Z) : list Z :=
  let w := map be_val (chunks 4 d) in
  sha1_out (fold_left S_SHA1.block (chunks 64 (x ++ glue_be 64 8 (n + zlen x))) (nth 0 w 0, nth 1 w 0, nth 2 w 0, nth 3 w 0, nth 4 w 0)).
Definition sha256_extend (d : list Z) (n : Z) (x : list Z) : list Z :=
  st_bytes V32 (fold_left (S_SHA2.block V32) (chunks 64 (x ++ glue_be 64 8 (n + zlen x))) (st_of (map be_val (chunks 4 d)))).
Definition sha512_extend (d : list Z) (n : Z) (x : list Z) : list Z :=
  st_bytes V64 (fold_left (S_SHA2.block V64) (chunks 128 (x ++ glue_be 128 16 (n + zlen x))) (st_of (map be_val (chunks 8 d)))).

Lemma chunks_flat k (f : Z -> list Z) l : (0 < k)%nat -> (forall x, length (f x) = k) -> chunks k (flat_map f l) = map f l.
Proof. intros K F; induction l as [|x l IH]; [reflexivity|]; cbn [flat_map map]; rewrite chunks_app_full by (exact K || apply F); rewrite IH; reflexivity. Qed.
Lemma map_back (f g : Z -> Z) (P : Z -> Prop) l : Forall P l -> (forall x, P x -> f x = x) -> map f l = l.
Proof. intros F H; induction F as [|x l Px F IH]; [reflexivity|]; cbn [map]; rewrite IH, H by exact Px; reflexivity. Qed.
Lemma words_back_be k l : (0 < k)%nat -> Forall (fun x => 0 <= x < 256 ^ Z.of_nat k) l -> map be_val (chunks k (flat_map (be_bytes k) l)) = l.
Proof. intros K F; rewrite chunks_flat, map_map by (exact K || apply be_bytes_length); apply (map_back _ id _ _ F); intros x Hx; apply be_val_bytes, Hx. Qed.
Lemma words_back_le k l : (0 < k)%nat -> Forall (fun x => 0 <= x < 256 ^ Z.of_nat k) l -> map le_val (chunks k (flat_map (le_bytes k) l)) = l.
Proof. intros K F; rewrite chunks_flat, map_map by (exact K || apply le_bytes_length); apply (map_back _ id _ _ F); intros x Hx; apply le_val_bytes, Hx. Qed.

Lemma digest_of a g m d : length g = buflen a -> bytes m -> zlen m < 2 ^ 61 -> h_hash a g [m] = Ok d -> d = spec_hash a m.
Proof. intros G B L E; rewrite (h_hash_ok a g [m] G) in E by (cbn [concat]; rewrite ?app_nil_r; auto); cbn [concat] in E; rewrite app_nil_r in E; injection E as <-; reflexivity. Qed.
Lemma digest_is a g m : length g = buflen a -> bytes m -> zlen m < 2 ^ 61 -> h_hash a g [m] = Ok (spec_hash a m).
Proof. intros G B L; rewrite (h_hash_ok a g [m] G) by (cbn [concat]; rewrite ?app_nil_r; auto); cbn [concat]; rewrite app_nil_r; reflexivity. Qed.
Lemma bytes_glue_le n : bytes (glue_le n).
Proof. unfold glue_le; repeat (apply bytes_app; split); [apply bytesb_iff; reflexivity | apply bytes_repeat; unfold byte; lia | apply le_bytes_bytes]. Qed.
Lemma bytes_glue_be B L n : bytes (glue_be B L n).
Proof. unfold glue_be; repeat (apply bytes_app; split); [apply bytesb_iff; reflexivity | apply bytes_repeat; unfold byte; lia | apply be_bytes_bytes]. Qed.

Theorem C94_md5 : forall g g' m x d, length g = 64%nat -> length g' = 64%nat -> bytes m -> bytes x -> zlen (m ++ glue_le (zlen m) ++ x) < 2 ^ 61 ->
  h_hash AMD5 g [m] = Ok d -> h_hash AMD5 g' [m ++ glue_le (zlen m) ++ x] = Ok (md5_extend d (zlen m + zlen (glue_le (zlen m))) x).
Proof.
  intros g g' m x d G G' Bm Bx L E. assert (Lm : zlen m < 2 ^ 61) by (rewrite zlen_app in L; pose proof (zlen_nonneg (glue_le (zlen m) ++ x)); lia).
  assert (Bm2 : bytes (m ++ glue_le (zlen m) ++ x)) by (apply bytes_app; split; [exact Bm | apply bytes_app; split; [apply bytes_glue_le | exact Bx]]).
  apply (digest_of AMD5) in E; [|exact G | exact Bm | exact Lm].
  rewrite (digest_is AMD5 g' _ G' Bm2 L). f_equal. clear Bm2.
  pose proof (run_extended _ S_MD5.block 64 8 (le_bytes 8) ltac:(lia) (le_bytes_length 8) le_inj8 m x S_MD5.init) as R.
  destruct (run_last _ S_MD5.block 64 8 (le_bytes 8) ltac:(lia) (le_bytes_length 8) le_inj8 m S_MD5.init) as (s & b & Q).
  change (spec_hash AMD5 m) with (md5_out (fold_left S_MD5.block (chunks 64 (padm 64 8 (le_bytes 8) m)) S_MD5.init)) in E.
  change (spec_hash AMD5 (m ++ glue_le (zlen m) ++ x)) with (md5_out (fold_left S_MD5.block (chunks 64 (padm 64 8 (le_bytes 8) (m ++ added_pad 64 8 (le_bytes 8) (zlen m) ++ x))) S_MD5.init)).
  rewrite R. unfold md5_extend. change glue_le with (added_pad 64 8 (le_bytes 8)). f_equal. f_equal.
  pose proof (md5_block_in s b) as I. rewrite <- Q in I. clear Q R. set (t := fold_left _ _ _) in *. clearbody t. subst d.
  destruct t as [[[A B] C] D]; unfold in32_4, md5_out in *.
  assert (W : map le_val (chunks 4 (le_bytes 4 A ++ le_bytes 4 B ++ le_bytes 4 C ++ le_bytes 4 D)) = [A; B; C; D]).
  { rewrite <- (words_back_le 4 [A; B; C; D]) by (lia || exact I). cbn [flat_map]; rewrite app_nil_r; reflexivity. }
  rewrite W; reflexivity.
Qed.
Print Assumptions C94_md5.
Theorem C94_sha1 : forall g g' m x d, length g = 64%nat -> length g' = 64%nat -> bytes m -> bytes x -> zlen (m ++ glue_be 64 8 (zlen m) ++ x) < 2 ^ 61 ->
  h_hash ASHA1 g [m] = Ok d -> h_hash ASHA1 g' [m ++ glue_be 64 8 (zlen m) ++ x] = Ok (sha1_extend d (zlen m + zlen (glue_be 64 8 (zlen m))) x).
Proof.
  intros g g' m x d G G' Bm Bx L E. assert (Lm : zlen m < 2 ^ 61) by (rewrite zlen_app in L; pose proof (zlen_nonneg (glue_be 64 8 (zlen m) ++ x)); lia).
  assert (Bm2 : bytes (m ++ glue_be 64 8 (zlen m) ++ x)) by (apply bytes_app; split; [exact Bm | apply bytes_app; split; [apply bytes_glue_be | exact Bx]]).
  apply (digest_of ASHA1) in E; [|exact G | exact Bm | exact Lm].
  rewrite (digest_is ASHA1 g' _ G' Bm2 L). f_equal. clear Bm2.
  pose proof (run_extended _ (S_SHA1.block) 64 8 (be_bytes 8) ltac:(lia) (be_bytes_length 8) be_inj8 m x S_SHA1.init) as R.
  destruct (run_last _ (S_SHA1.block) 64 8 (be_bytes 8) ltac:(lia) (be_bytes_length 8) be_inj8 m S_SHA1.init) as (s & b & Q).
  change (spec_hash ASHA1 m) with ((sha1_out) (fold_left (S_SHA1.block) (chunks 64 (padm 64 8 (be_bytes 8) m)) S_SHA1.init)) in E.
  change (spec_hash ASHA1 (m ++ glue_be 64 8 (zlen m) ++ x)) with ((sha1_out) (fold_left (S_SHA1.block) (chunks 64 (padm 64 8 (be_bytes 8) (m ++ added_pad 64 8 (be_bytes 8) (zlen m) ++ x))) S_SHA1.init)).
  rewrite R. unfold sha1_extend. change (glue_be 64 8) with (added_pad 64 8 (be_bytes 8)). f_equal. f_equal.
  pose proof (sha1_block_in s b) as I. rewrite <- Q in I. clear Q R. set (t := fold_left _ _ _) in *. clearbody t. subst d.
  destruct t as [[[[A B] C] D] F]; unfold in32_5, sha1_out in *.
  assert (W : map be_val (chunks 4 (be_bytes 4 A ++ be_bytes 4 B ++ be_bytes 4 C ++ be_bytes 4 D ++ be_bytes 4 F)) = [A; B; C; D; F]).
  { rewrite <- (words_back_be 4 [A; B; C; D; F]) by (lia || exact I). cbn [flat_map]; rewrite app_nil_r; reflexivity. }
  rewrite W; reflexivity.
Qed.
Print Assumptions C94_sha1.
Theorem C94_sha256 : forall g g' m x d, length g = 64%nat -> length g' = 64%nat -> bytes m -> bytes x -> zlen (m ++ glue_be 64 8 (zlen m) ++ x) < 2 ^ 61 ->
  h_hash ASHA256 g [m] = Ok d -> h_hash ASHA256 g' [m ++ glue_be 64 8 (zlen m) ++ x] = Ok (sha256_extend d (zlen m + zlen (glue_be 64 8 (zlen m))) x).
Proof.
  intros g g' m x d G G' Bm Bx L E. assert (Lm : zlen m < 2 ^ 61) by (rewrite zlen_app in L; pose proof (zlen_nonneg (glue_be 64 8 (zlen m) ++ x)); lia).
  assert (Bm2 : bytes (m ++ glue_be 64 8 (zlen m) ++ x)) by (apply bytes_app; split; [exact Bm | apply bytes_app; split; [apply bytes_glue_be | exact Bx]]).
  apply (digest_of ASHA256) in E; [|exact G | exact Bm | exact Lm].
  rewrite (digest_is ASHA256 g' _ G' Bm2 L). f_equal. clear Bm2.
  pose proof (run_extended _ (S_SHA2.block V32) 64 8 (be_bytes 8) ltac:(lia) (be_bytes_length 8) be_inj8 m x iv256) as R.
  destruct (run_last _ (S_SHA2.block V32) 64 8 (be_bytes 8) ltac:(lia) (be_bytes_length 8) be_inj8 m iv256) as (s & b & Q).
  change (spec_hash ASHA256 m) with ((st_bytes V32) (fold_left (S_SHA2.block V32) (chunks 64 (padm 64 8 (be_bytes 8) m)) iv256)) in E.
  change (spec_hash ASHA256 (m ++ glue_be 64 8 (zlen m) ++ x)) with ((st_bytes V32) (fold_left (S_SHA2.block V32) (chunks 64 (padm 64 8 (be_bytes 8) (m ++ added_pad 64 8 (be_bytes 8) (zlen m) ++ x))) iv256)).
  rewrite R. unfold sha256_extend. change (glue_be 64 8) with (added_pad 64 8 (be_bytes 8)). f_equal. f_equal.
  pose proof (sha32_block_in s b) as I. rewrite <- Q in I. clear Q R. set (t := fold_left _ _ _) in *. clearbody t. subst d.
  destruct t as [[[[[[[h0 h1] h2] h3] h4] h5] h6] h7]; unfold in32, st_bytes in *. change (Z.to_nat (vw V32 / 8)) with 4%nat.
  rewrite (words_back_be 4) by (lia || exact I). reflexivity.
Qed.
Print Assumptions C94_sha256.
Theorem C94_sha512 : forall g g' m x d, length g = 128%nat -> length g' = 128%nat -> bytes m -> bytes x -> zlen (m ++ glue_be 128 16 (zlen m) ++ x) < 2 ^ 61 ->
  h_hash ASHA512 g [m] = Ok d -> h_hash ASHA512 g' [m ++ glue_be 128 16 (zlen m) ++ x] = Ok (sha512_extend d (zlen m + zlen (glue_be 128 16 (zlen m))) x).
Proof.
  intros g g' m x d G G' Bm Bx L E. assert (Lm : zlen m < 2 ^ 61) by (rewrite zlen_app in L; pose proof (zlen_nonneg (glue_be 128 16 (zlen m) ++ x)); lia).
  assert (Bm2 : bytes (m ++ glue_be 128 16 (zlen m) ++ x)) by (apply bytes_app; split; [exact Bm | apply bytes_app; split; [apply bytes_glue_be | exact Bx]]).
  apply (digest_of ASHA512) in E; [|exact G | exact Bm | exact Lm].
  rewrite (digest_is ASHA512 g' _ G' Bm2 L). f_equal. clear Bm2.
  pose proof (run_extended _ (S_SHA2.block V64) 128 16 (be_bytes 16) ltac:(lia) (be_bytes_length 16) be_inj16 m x iv512) as R.
  destruct (run_last _ (S_SHA2.block V64) 128 16 (be_bytes 16) ltac:(lia) (be_bytes_length 16) be_inj16 m iv512) as (s & b & Q).
  change (spec_hash ASHA512 m) with ((st_bytes V64) (fold_left (S_SHA2.block V64) (chunks 128 (padm 128 16 (be_bytes 16) m)) iv512)) in E.
  change (spec_hash ASHA512 (m ++ glue_be 128 16 (zlen m) ++ x)) with ((st_bytes V64) (fold_left (S_SHA2.block V64) (chunks 128 (padm 128 16 (be_bytes 16) (m ++ added_pad 128 16 (be_bytes 16) (zlen m) ++ x))) iv512)).
  rewrite R. unfold sha512_extend. change (glue_be 128 16) with (added_pad 128 16 (be_bytes 16)). f_equal. f_equal.
  pose proof (sha64_block_in s b) as I. rewrite <- Q in I. clear Q R. set (t := fold_left _ _ _) in *. clearbody t. subst d.
  destruct t as [[[[[[[h0 h1] h2] h3] h4] h5] h6] h7]; unfold in64, st_bytes in *. change (Z.to_nat (vw V64 / 8)) with 8%nat.
  rewrite (words_back_be 8) by (lia || exact I). reflexivity.
Qed.
Print Assumptions C94_sha512.
(** Meeting the hypotheses: the digest of an unknown key and message is extended by other bytes. *)
Example C94_case : h_hash AMD5 (repeat 0 64) [[107; 101; 121] ++ glue_le 3 ++ [33]] =
  (do d <- h_hash AMD5 (repeat 0 64) [[107; 101; 121]]; Ok (md5_extend d 64 [33])) /\ zlen (glue_le 3) = 61.
Proof. split; vm_compute; reflexivity. Qed.
