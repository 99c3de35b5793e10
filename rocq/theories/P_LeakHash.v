From Coq Require Import String.
From Verif Require Import Base BaseP S_Hash M_MD M_SHA2 M_Hash S_HKDF M_HKDF M_Leak P_Leak M_LeakHash.
Open Scope Z_scope.
Open Scope list_scope.

(** ** Two runs and the two results of the models without records *)
Definition both {A} (m m' : traced A) (r r' : res A) (Q : A -> A -> Prop) : Prop :=
  fst m = fst m' /\ exists a a', snd m = Ok a /\ r = Ok a /\ snd m' = Ok a' /\ r' = Ok a' /\ Q a a'.
Lemma both_bind {A B} (m m' : traced A) r r' (f f' : A -> traced B) h h' P Q :
  both m m' r r' P -> (forall a a', P a a' -> both (f a) (f' a') (h a) (h' a') Q) -> both (tbind m f) (tbind m' f') (bind r h) (bind r' h') Q.
Proof.
  intros (T & a & a' & E & -> & E' & -> & HP) H. destruct (H a a' HP) as (T2 & b & b' & F & G & F' & G' & HQ). unfold both, tbind. rewrite E, E'. cbn [fst snd bind]. rewrite T, T2. split; [reflexivity|]. exists b, b'. auto.
Qed.
Lemma both_step {A B} (m m' : traced A) tr a a' (f f' : A -> traced B) r r' Q :
  m = (tr, Ok a) -> m' = (tr, Ok a') -> both (f a) (f' a') r r' Q -> both (tbind m f) (tbind m' f') r r' Q.
Proof.
  intros -> -> (T2 & b & b' & F & G & F' & G' & HQ). unfold both, tbind. cbn [fst snd]. rewrite T2. split; [reflexivity|]. exists b, b'. auto.
Qed.
Lemma both_emit {A} es es' (a a' : A) (Q : A -> A -> Prop) : es = es' -> Q a a' -> both (emit es a) (emit es' a') (Ok a) (Ok a') Q.
Proof. intros -> H. split; [reflexivity|]. exists a, a'. auto. Qed.
Lemma both_ret {A} (a a' : A) (Q : A -> A -> Prop) : Q a a' -> both (ret a) (ret a') (Ok a) (Ok a') Q.
Proof. apply both_emit. reflexivity. Qed.
Lemma both_weaken {A} (m m' : traced A) r r' (P Q : A -> A -> Prop) : both m m' r r' P -> (forall a a', P a a' -> Q a a') -> both m m' r r' Q.
Proof. intros (T & a & a' & E & F & E' & F' & HP) H. split; [exact T|]. exists a, a'. auto 10. Qed.
Lemma tbind_ok {A B} (m : traced A) tr a (f : A -> traced B) tr2 r : m = (tr, Ok a) -> f a = (tr2, r) -> tbind m f = (tr ++ tr2, r).
Proof. intros -> H. unfold tbind. cbn [fst snd]. rewrite H. reflexivity. Qed.

(** ** Loops with a fixed record *)
Fixpoint loop_record (rec : nat -> list event) (ts : list nat) : list event :=
  match ts with
  | [] => [Loop false]
  | t :: rest => Loop true :: rec t ++ loop_record rec rest
  end.
Lemma for_value {A} (f : A -> nat -> traced A) g rec (I : nat -> A -> Prop) lo hi :
  (forall s t, (lo <= t < hi)%nat -> I t s -> f s t = (rec t, Ok (g s t)) /\ I (S t) (g s t)) ->
  forall n t0 s, (lo <= t0)%nat -> (t0 + n <= hi)%nat -> I t0 s ->
  for_t f (seq t0 n) s = (loop_record rec (seq t0 n), Ok (fold_left g (seq t0 n) s)) /\ I (t0 + n)%nat (fold_left g (seq t0 n) s).
Proof.
  intros H. induction n as [|n IH]; intros t0 s L0 L HI; cbn [seq for_t loop_record fold_left].
  - rewrite Nat.add_0_r. split; [reflexivity | exact HI].
  - destruct (H s t0) as [E HI']; [lia | exact HI|]. destruct (IH (S t0) (g s t0)) as [E2 HI2]; [lia | lia | exact HI'|]. split; [|replace (t0 + S n)%nat with (S t0 + n)%nat by lia; exact HI2].
    apply (tbind_ok _ [Loop true] tt); [reflexivity|]. apply (tbind_ok _ _ _ _ _ _ E E2).
Qed.
Lemma at_value v t : (t < List.length v)%nat -> at_t v t = ([At (Z.of_nat t)], Ok (nth t v 0)).
Proof.
  intros H. unfold at_t, get_t, getz. replace (0 <=? Z.of_nat t) with true by lia. rewrite Nat2Z.id, (nth_error_nth' v 0 H). reflexivity.
Qed.
Lemma fold_snoc {A B} (h : B -> A) : forall ts W0, fold_left (fun W t => W ++ [h t]) ts W0 = W0 ++ map h ts.
Proof. induction ts as [|t ts IH]; intros W0; cbn [fold_left map]; [rewrite app_nil_r; reflexivity | rewrite IH, <- app_assoc; reflexivity]. Qed.
Ltac reads := etransitivity; [repeat (eapply tbind_ok; [apply at_value; lia|]); reflexivity | reflexivity].

(** ** processChunk *)
Definition fill4 (t : nat) := map (fun i => At (Z.of_nat i)) [t * 4; t * 4 + 1; t * 4 + 2; t * 4 + 3; t]%nat.
Definition fill8 (t : nat) := map (fun i => At (Z.of_nat i)) [t * 8; t * 8 + 1; t * 8 + 2; t * 8 + 3; t * 8 + 4; t * 8 + 5; t * 8 + 6; t * 8 + 7; t]%nat.
Definition extend (t : nat) := map (fun i => At (Z.of_nat i)) [t - 2; t - 15; t - 7; t - 16; t]%nat.
Definition two (t : nat) := [At (Z.of_nat t); At (Z.of_nat t)].
Definition chunk_record (fill : nat -> list event) (rounds : nat) : list event :=
  loop_record fill (seq 0 16) ++ loop_record extend (seq 16 (rounds - 16)) ++ loop_record two (seq 0 rounds) ++ [].

Lemma eight (t : list Z) : List.length t = 8%nat -> exists a b c d e f g h, t = [a; b; c; d; e; f; g; h].
Proof. destruct t as [|a [|b [|c [|d [|e [|f [|g [|h [|x t]]]]]]]]]; cbn [List.length]; intros H; try discriminate H. exists a, b, c, d, e, f, g, h. reflexivity. Qed.
Definition has_length {A} (n : nat) (l : list A) : Prop := List.length l = n.
Section Chunk.
  Context (rounds : nat) (fill : nat -> list event) (chunk : list Z).
  Context (fill_t : list Z -> list Z -> nat -> traced (list Z)) (word : list Z -> nat -> Z).
  Context (extend_t : list Z -> nat -> traced (list Z)) (next : list Z -> nat -> Z).
  Context (round_t : list Z -> st8 -> nat -> traced st8) (round : list Z -> st8 -> nat -> st8).
  Hypothesis many : (16 <= rounds)%nat.
  Hypothesis fill_ok : forall W t, (t < 16)%nat -> fill_t chunk W t = (fill t, Ok (W ++ [word chunk t])).
  Hypothesis extend_ok : forall W t, (16 <= t)%nat -> List.length W = t -> extend_t W t = (extend t, Ok (W ++ [next W t])).
  Hypothesis round_ok : forall W s t, (t < rounds)%nat -> List.length W = rounds -> round_t W s t = (two t, Ok (round W s t)).
  Definition expanded : list Z := fold_left (fun W t => W ++ [next W t]) (seq 16 (rounds - 16)) (map (word chunk) (seq 0 16)).
  Lemma chunk_runs (B : Type) s (fin : st8 -> B) :
    (see W0 <- for_t (fill_t chunk) (seq 0 16) [];
     see W <- for_t extend_t (seq 16 (rounds - 16)) W0;
     see s' <- for_t (round_t W) (seq 0 rounds) s; ret (fin s'))
    = (chunk_record fill rounds, Ok (fin (fold_left (round expanded) (seq 0 rounds) s))).
  Proof.
    assert (Snoc : forall (W : list Z) x t, has_length t W -> has_length (S t) (W ++ [x])) by (intros W x t E; unfold has_length in *; rewrite app_length; cbn [List.length]; lia).
    destruct (for_value (fill_t chunk) (fun W t => W ++ [word chunk t]) fill has_length 0 16) with (n := 16%nat) (t0 := 0%nat) (s := @nil Z) as [E1 H1]; [| lia | lia | reflexivity |].
    { intros W t Ht Hs. split; [apply fill_ok; lia | apply Snoc; exact Hs]. }
    rewrite fold_snoc in E1, H1. cbn [app Nat.add] in E1, H1.
    destruct (for_value extend_t (fun W t => W ++ [next W t]) extend has_length 16 rounds) with (n := (rounds - 16)%nat) (t0 := 16%nat) (s := map (word chunk) (seq 0 16)) as [E2 H2]; [| lia | lia | exact H1 |].
    { intros W t Ht Hs. split; [apply extend_ok; [lia | exact Hs] | apply Snoc; exact Hs]. }
    fold expanded in E2, H2. replace (16 + (rounds - 16))%nat with rounds in H2 by lia.
    destruct (for_value (round_t expanded) (round expanded) two (fun _ _ => True) 0 rounds) with (n := rounds) (t0 := 0%nat) (s := s) as [E3 _]; [| lia | lia | exact I |].
    { intros W t Ht _. split; [apply round_ok; [lia | exact H2] | exact I]. }
    unfold chunk_record. apply (tbind_ok _ _ _ _ _ _ E1). apply (tbind_ok _ _ _ _ _ _ E2). apply (tbind_ok _ _ _ _ _ _ E3). reflexivity.
  Qed.
End Chunk.
Definition next256 (W : list Z) (t : nat) : Z :=
  let w2 := nth (t - 2) W 0 in
  let w15 := nth (t - 15) W 0 in
  w32 (Z.lxor (Z.lxor (rotr32 w2 17) (rotr32 w2 19)) (Z.shiftr w2 10)
               + Z.lxor (Z.lxor (rotr32 w15 7) (rotr32 w15 18)) (Z.shiftr w15 3)
               + nth (t - 7) W 0 + nth (t - 16) W 0).
Definition next512 (W : list Z) (t : nat) : Z :=
  let w2 := nth (t - 2) W 0 in
  let w15 := nth (t - 15) W 0 in
  w64 (Z.lxor (Z.lxor (rotr64 w2 19) (rotr64 w2 61)) (Z.shiftr w2 6)
               + Z.lxor (Z.lxor (rotr64 w15 1) (rotr64 w15 8)) (Z.shiftr w15 7)
               + nth (t - 7) W 0 + nth (t - 16) W 0).
Lemma sha256_chunk_value chunk w : List.length chunk = 64%nat -> List.length w = 8%nat ->
  sha256_chunk_t chunk w = (chunk_record fill4 64, Ok (sha256_processChunk chunk w)) /\ List.length (sha256_processChunk chunk w) = 8%nat.
Proof.
  intros L H. destruct (eight w H) as (w0 & w1 & w2 & w3 & w4 & w5 & w6 & w7 & ->). split.
  - assert (R1 : forall W t, (t < 16)%nat -> sha256_fill_t chunk W t = (fill4 t, Ok (W ++ [sha256_word chunk t]))) by (intros; unfold sha256_fill_t, sha256_word; rewrite Nat.add_0_r; reads).
    assert (R2 : forall W t, (16 <= t)%nat -> List.length W = t -> sha256_extend_t W t = (extend t, Ok (W ++ [next256 W t]))) by (intros; unfold sha256_extend_t; reads).
    assert (LK : List.length K_256 = 64%nat) by reflexivity.
    assert (R3 : forall W s t, (t < 64)%nat -> List.length W = 64%nat -> sha256_round_t W s t = (two t, Ok (sha256_round W s t))) by (intros W [[[[[[[a b] c] d] e] f] g] h] t Ht HW; unfold sha256_round_t, sha256_round; reads).
    pose proof (chunk_runs 64 fill4 chunk sha256_fill_t sha256_word sha256_extend_t next256 sha256_round_t sha256_round ltac:(lia) R1 R2 R3 (list Z) (w0, w1, w2, w3, w4, w5, w6, w7)
      (fun s => let '(a, b, c, d, e, f, g, h) := s in [w32 (w0 + a); w32 (w1 + b); w32 (w2 + c); w32 (w3 + d); w32 (w4 + e); w32 (w5 + f); w32 (w6 + g); w32 (w7 + h)])) as R.
    assert (EX : expanded 64 chunk sha256_word next256 = sha256_W chunk) by (unfold expanded, sha256_W, next256; change (64 - 16)%nat with 48%nat; cbv zeta; reflexivity). rewrite EX in R. change (64 - 16)%nat with 48%nat in R. unfold sha256_chunk_t, sha256_processChunk. exact R.
  - unfold sha256_processChunk. destruct (fold_left _ _ _) as [[[[[[[a b] c] d] e] f] g] h]. reflexivity.
Qed.
Lemma sha512_chunk_value chunk w : List.length chunk = 128%nat -> List.length w = 8%nat ->
  sha512_chunk_t chunk w = (chunk_record fill8 80, Ok (sha512_processChunk chunk w)) /\ List.length (sha512_processChunk chunk w) = 8%nat.
Proof.
  intros L H. destruct (eight w H) as (w0 & w1 & w2 & w3 & w4 & w5 & w6 & w7 & ->). split.
  - assert (R1 : forall W t, (t < 16)%nat -> sha512_fill_t chunk W t = (fill8 t, Ok (W ++ [sha512_word chunk t]))) by (intros; unfold sha512_fill_t, sha512_word; rewrite Nat.add_0_r; reads).
    assert (R2 : forall W t, (16 <= t)%nat -> List.length W = t -> sha512_extend_t W t = (extend t, Ok (W ++ [next512 W t]))) by (intros; unfold sha512_extend_t; reads).
    assert (LK : List.length K_512 = 80%nat) by reflexivity.
    assert (R3 : forall W s t, (t < 80)%nat -> List.length W = 80%nat -> sha512_round_t W s t = (two t, Ok (sha512_round W s t))) by (intros W [[[[[[[a b] c] d] e] f] g] h] t Ht HW; unfold sha512_round_t, sha512_round; reads).
    pose proof (chunk_runs 80 fill8 chunk sha512_fill_t sha512_word sha512_extend_t next512 sha512_round_t sha512_round ltac:(lia) R1 R2 R3 (list Z) (w0, w1, w2, w3, w4, w5, w6, w7)
      (fun s => let '(a, b, c, d, e, f, g, h) := s in [w64 (w0 + a); w64 (w1 + b); w64 (w2 + c); w64 (w3 + d); w64 (w4 + e); w64 (w5 + f); w64 (w6 + g); w64 (w7 + h)])) as R.
    assert (EX : expanded 80 chunk sha512_word next512 = sha512_W chunk) by (unfold expanded, sha512_W, next512; change (80 - 16)%nat with 64%nat; cbv zeta; reflexivity). rewrite EX in R. change (80 - 16)%nat with 64%nat in R. unfold sha512_chunk_t, sha512_processChunk. exact R.
  - unfold sha512_processChunk. destruct (fold_left _ _ _) as [[[[[[[a b] c] d] e] f] g] h]. reflexivity.
Qed.

(** ** add and data() *)
Lemma copy_value chunk to data from n : 0 <= to -> 0 <= from -> 0 <= n -> to + n <= zlen chunk -> from + n <= zlen data ->
  exists src x, slice data from n = Ok src /\ blit chunk to src = Ok x /\ copy_t chunk to data from n = ([At to; At from; At n], Ok x) /\ List.length x = List.length chunk.
Proof.
  intros H1 H2 H3 H4 H5. pose proof (slice_ok data from n H2 H3 H5) as ES. set (src := firstn (Z.to_nat n) (skipn (Z.to_nat from) data)) in *.
  assert (L : zlen src = n) by (unfold src, zlen in *; rewrite firstn_length, skipn_length; lia).
  pose proof (blit_ok chunk src to H1 ltac:(lia)) as EB. eexists _, _. split; [exact ES|]. split; [exact EB|]. split.
  - unfold copy_t. rewrite ES. cbn [bind]. rewrite EB. reflexivity.
  - rewrite !app_length, firstn_length, skipn_length. unfold zlen in *. lia.
Qed.
Definition same_len {A} (a a' : list A) : Prop := List.length a = List.length a'.
Lemma same_zlen {A} (a a' : list A) : same_len a a' -> zlen a = zlen a'. Proof. unfold same_len, zlen. intros ->. reflexivity. Qed.

Section MD.
  Context (B : Z) (pc : list Z -> list Z -> list Z) (pc_t : list Z -> list Z -> traced (list Z)) (rec : list event) (line : Z).
  Hypothesis B_pos : 0 < B < 2 ^ 32.
  Hypothesis pc_ok : forall chunk w, zlen chunk = B -> List.length w = 8%nat -> pc_t chunk w = (rec, Ok (pc chunk w)) /\ List.length (pc chunk w) = 8%nat.
  Definition cw_ok (s s' : list Z * list Z) : Prop :=
    zlen (fst s) = B /\ zlen (fst s') = B /\ List.length (snd s) = 8%nat /\ List.length (snd s') = 8%nat.
  Definition st_ok (s s' : hstate) : Prop := cw_ok (h_chunk s, h_words s) (h_chunk s', h_words s') /\ h_len s = h_len s' /\ 0 <= h_len s.
  Lemma md_loop_both data data' : same_len data data' -> zlen data < 2 ^ 64 -> forall fuel chunk chunk' w w' ino,
    cw_ok (chunk, w) (chunk', w') -> 0 <= ino <= zlen data -> zlen data - ino < Z.of_nat fuel ->
    both (md_loop_t B pc_t line fuel chunk w data ino) (md_loop_t B pc_t line fuel chunk' w' data' ino) (md_loop B pc fuel chunk w data ino) (md_loop B pc fuel chunk' w' data' ino) cw_ok.
  Proof.
    intros SD DD. pose proof (same_zlen _ _ SD) as ZD. induction fuel as [|fuel IH]; intros chunk chunk' w w' ino OK R F; [lia|].
    cbn [md_loop_t md_loop]. rewrite <- ZD. destruct OK as (C1 & C2 & W1 & W2). cbn [fst snd] in *.
    assert (WW : w64 (zlen data - ino) = zlen data - ino) by (unfold w64; apply Z.mod_small; lia). rewrite WW.
    destruct (B <=? zlen data - ino) eqn:LB.
    - apply Z.leb_le in LB. destruct (copy_value chunk 0 data ino B) as (s1 & x1 & E1 & F1 & G1 & L1); try lia. destruct (copy_value chunk' 0 data' ino B) as (s2 & x2 & E2 & F2 & G2 & L2); try lia.
      rewrite E1, E2. cbn [bind]. rewrite F1, F2. cbn [bind].
      apply (both_step _ _ [Loop true] tt tt); [reflexivity | reflexivity|].
      apply (both_step _ _ _ _ _ _ _ _ _ _ G1 G2). assert (X1 : zlen x1 = B) by (unfold zlen in *; lia). assert (X2 : zlen x2 = B) by (unfold zlen in *; lia).
      destruct (pc_ok x1 w X1 W1) as [P1 Q1]. destruct (pc_ok x2 w' X2 W2) as [P2 Q2].
      apply (both_step _ _ _ _ _ _ _ _ _ _ P1 P2). apply IH; [repeat split; assumption | lia | lia].
    - apply Z.leb_gt in LB. apply (both_step _ _ [Loop false] tt tt); [reflexivity | reflexivity|].
      apply (both_step _ _ [Choose (line + 20) (zlen data - ino =? 0)] (zlen data - ino =? 0) (zlen data - ino =? 0)); [unfold choose, emit; destruct (_ =? _); reflexivity | unfold choose, emit; destruct (_ =? _); reflexivity|].
      destruct (zlen data - ino =? 0) eqn:E0; [apply both_ret; repeat split; assumption|].
      destruct (copy_value chunk 0 data ino (zlen data - ino)) as (s1 & x1 & E1 & F1 & G1 & L1); try lia. destruct (copy_value chunk' 0 data' ino (zlen data - ino)) as (s2 & x2 & E2 & F2 & G2 & L2); try lia.
      rewrite E1, E2. cbn [bind]. rewrite F1, F2. cbn [bind]. apply (both_step _ _ _ _ _ _ _ _ _ _ G1 G2). apply both_ret. unfold cw_ok. cbn [fst snd]. unfold zlen in *. repeat split; (assumption || lia).
  Qed.
  Lemma md_add_both s s' data data' : st_ok s s' -> same_len data data' -> zlen data < 2 ^ 64 ->
    both (md_add_t B pc_t line s data) (md_add_t B pc_t line s' data') (md_add B pc s data) (md_add B pc s' data') (fun a a' => st_ok a a' /\ h_len a = w64 (h_len s + zlen data)).
  Proof.
    intros ((C1 & C2 & W1 & W2) & EL & LP) SD DD. pose proof (same_zlen _ _ SD) as ZD. cbn [fst snd] in *. unfold md_add_t, md_add. rewrite <- ZD, <- EL, <- SD.
    set (off := h_len s mod B). assert (RO : 0 <= off < B) by (apply Z.mod_pos_bound; lia). assert (LW : 0 <= w64 (h_len s + zlen data)) by (unfold w64; apply Z.mod_pos_bound; lia).
    assert (ZP : 0 <= zlen data) by (unfold zlen; lia).
    apply (both_step _ _ [Choose (line + 4) (negb (off =? 0))] (negb (off =? 0)) (negb (off =? 0))); [unfold choose, emit; destruct (negb _); reflexivity | unfold choose, emit; destruct (negb _); reflexivity|].
    destruct (negb (off =? 0)) eqn:E0.
    - assert (CN : Z.min (zlen data) (B - off) = if B - off <? zlen data then B - off else zlen data) by (destruct (B - off <? zlen data) eqn:E; lia).
      rewrite CN. set (copyNow := if B - off <? zlen data then B - off else zlen data) in *.
      apply (both_step _ _ [Choose (line + 5) (B - off <? zlen data)] copyNow copyNow); [reflexivity | reflexivity|].
      destruct (copy_value (h_chunk s) off data 0 copyNow) as (s1 & x1 & E1 & F1 & G1 & L1); try lia. destruct (copy_value (h_chunk s') off data' 0 copyNow) as (s2 & x2 & E2 & F2 & G2 & L2); try lia.
      rewrite E1, E2. cbn [bind]. rewrite F1, F2. cbn [bind]. apply (both_step _ _ _ _ _ _ _ _ _ _ G1 G2).
      apply (both_step _ _ [Choose (line + 9) (negb (off + copyNow =? B))] (negb (off + copyNow =? B)) (negb (off + copyNow =? B))); [unfold choose, emit; destruct (negb (_ =? B)); reflexivity | unfold choose, emit; destruct (negb (_ =? B)); reflexivity|].
      assert (X1 : zlen x1 = B) by (unfold zlen in *; lia). assert (X2 : zlen x2 = B) by (unfold zlen in *; lia).
      destruct (negb (off + copyNow =? B)); [apply both_ret; repeat split; assumption|].
      destruct (pc_ok x1 (h_words s) X1 W1) as [P1 Q1]. destruct (pc_ok x2 (h_words s') X2 W2) as [P2 Q2]. apply (both_step _ _ _ _ _ _ _ _ _ _ P1 P2).
      apply (both_bind _ _ _ _ _ _ _ _ cw_ok).
      + apply md_loop_both; [exact SD | exact DD | repeat split; assumption | lia | unfold zlen in *; lia].
      + intros a a' (A1 & A2 & A3 & A4). apply both_ret. repeat split; assumption.
    - apply (both_bind _ _ _ _ _ _ _ _ cw_ok).
      + apply md_loop_both; [exact SD | exact DD | repeat split; assumption | lia | unfold zlen in *; lia].
      + intros a a' (A1 & A2 & A3 & A4). apply both_ret. repeat split; assumption.
  Qed.
  Lemma msgsize_length n len : List.length (msgsize n true len) = n.
  Proof. unfold msgsize. rewrite rev_length. revert len. induction n as [|n IH]; intros len; cbn [msgsize_le List.length]; [reflexivity | rewrite IH; reflexivity]. Qed.
  Context (lenbytes wordsize : nat).
  Hypothesis few : Z.of_nat lenbytes < 2 ^ 32.
  Lemma md_digest_both s s' : st_ok s s' ->
    both (md_digest_t B pc_t line lenbytes wordsize s) (md_digest_t B pc_t line lenbytes wordsize s') (do w <- md_final B pc lenbytes true s; Ok (out_be wordsize w)) (do w <- md_final B pc lenbytes true s'; Ok (out_be wordsize w))
      (fun a a' => List.length a = (8 * wordsize)%nat /\ List.length a' = (8 * wordsize)%nat).
  Proof.
    intros OK. pose proof OK as (CW & EL & LP). unfold md_digest_t, md_final. rewrite <- EL.
    set (pad := B - w64 (h_len s + Z.of_nat lenbytes) mod B). assert (RP : 0 < pad <= B) by (pose proof (Z.mod_pos_bound (w64 (h_len s + Z.of_nat lenbytes)) B); unfold pad; lia).
    assert (LZ : zlen (128 :: repeat 0 (Z.to_nat B)) = 1 + B) by (unfold zlen; cbn [List.length]; rewrite repeat_length; lia).
    rewrite (slice_ok (128 :: repeat 0 (Z.to_nat B)) 0 pad) by lia. set (pads := firstn _ _). cbn [bind].
    assert (LPD : zlen pads = pad) by (unfold pads, zlen in *; rewrite firstn_length, skipn_length; lia).
    apply (both_step _ _ [At pad] pads pads); [reflexivity | reflexivity|].
    pose proof (md_add_both s s' pads pads OK eq_refl ltac:(lia)) as (T1 & a & a' & E1 & F1 & E1' & F1' & OK2 & _).
    rewrite F1, F1'. cbn [bind].
    apply (both_step _ _ (fst (md_add_t B pc_t line s pads)) a a'); [rewrite <- E1; destruct (md_add_t B pc_t line s pads); reflexivity | rewrite T1, <- E1'; destruct (md_add_t B pc_t line s' pads); reflexivity|].
    apply (both_step _ _ (down lenbytes) (msgsize lenbytes true (w64 (h_len s * 8))) (msgsize lenbytes true (w64 (h_len s * 8)))); [reflexivity | reflexivity|].
    set (sz := msgsize _ _ _). assert (LS : zlen sz < 2 ^ 64) by (unfold zlen, sz; rewrite msgsize_length; lia).
    pose proof (md_add_both a a' sz sz OK2 eq_refl LS) as (T2 & c & c' & E2 & F2 & E2' & F2' & ((_ & _ & H8 & H8') & _) & _). cbn [fst snd] in H8, H8'.
    rewrite F2, F2'. cbn [bind].
    apply (both_step _ _ (fst (md_add_t B pc_t line a sz)) c c'); [rewrite <- E2; destruct (md_add_t B pc_t line a sz); reflexivity | rewrite T2, <- E2'; destruct (md_add_t B pc_t line a' sz); reflexivity|].
    set (outw := fun v => map (fun j => Z.land (Z.shiftr v (8 * Z.of_nat wordsize - 8 - 8 * Z.of_nat j)) 255) (seq 0 wordsize)).
    assert (Out : forall w, List.length w = 8%nat -> 
      for_t (fun out i => see v <- at_t w i; emit (passes 1 wordsize (Z.of_nat (wordsize * i))) (out ++ outw v)) (seq 0 8) []
      = (loop_record (fun i => [At (Z.of_nat i)] ++ passes 1 wordsize (Z.of_nat (wordsize * i))) (seq 0 8), Ok (out_be wordsize w)) /\ List.length (out_be wordsize w) = (8 * wordsize)%nat).
    { intros w Hw. destruct (for_value (fun out i => see v <- at_t w i; emit (passes 1 wordsize (Z.of_nat (wordsize * i))) (out ++ outw v)) (fun out i => out ++ outw (nth i w 0))
        (fun i => [At (Z.of_nat i)] ++ passes 1 wordsize (Z.of_nat (wordsize * i))) (fun i l => List.length l = (i * wordsize)%nat) 0 8) with (n := 8%nat) (t0 := 0%nat) (s := @nil Z) as [E L]; [|lia|lia|reflexivity|].
      - intros l t Ht Hl. split; [apply (tbind_ok _ _ _ _ _ _ (at_value w t ltac:(lia))); reflexivity|]. rewrite app_length, Hl. unfold outw. rewrite map_length, seq_length. lia.
      - assert (FO : fold_left (fun out i => out ++ outw (nth i w 0)) (seq 0 8) [] = out_be wordsize w).
        { destruct (eight w Hw) as (w0 & w1 & w2 & w3 & w4 & w5 & w6 & w7 & ->). cbn [seq fold_left nth]. unfold out_be. cbn [flat_map app]. fold (outw w0) (outw w1) (outw w2) (outw w3) (outw w4) (outw w5) (outw w6) (outw w7). rewrite app_nil_r, <- !app_assoc. reflexivity. }
        rewrite FO in E, L. split; [exact E | exact L]. }
    destruct (Out (h_words c) H8) as [O1 O2]. destruct (Out (h_words c') H8') as [O3 O4]. unfold outw in O1, O3. 
    split; [rewrite O1, O3; reflexivity|]. exists (out_be wordsize (h_words c)), (out_be wordsize (h_words c')). rewrite O1, O3. repeat split; assumption.
  Qed.
End MD.

(** ** The four classes *)
Lemma pc256 chunk w : zlen chunk = 64 -> List.length w = 8%nat -> sha256_chunk_t chunk w = (chunk_record fill4 64, Ok (sha256_processChunk chunk w)) /\ List.length (sha256_processChunk chunk w) = 8%nat.
Proof. intros H. apply sha256_chunk_value. unfold zlen in H. lia. Qed.
Lemma pc512 chunk w : zlen chunk = 128 -> List.length w = 8%nat -> sha512_chunk_t chunk w = (chunk_record fill8 80, Ok (sha512_processChunk chunk w)) /\ List.length (sha512_processChunk chunk w) = 8%nat.
Proof. intros H. apply sha512_chunk_value. unfold zlen in H. lia. Qed.
Definition o_ok (a : alg) (o o' : hobj) : Prop := exists s s', o = OMD s /\ o' = OMD s' /\ st_ok (block_of a) s s'.
Lemma h_new_ok a g g' : sha2 a = true -> List.length g = buflen a -> List.length g' = buflen a -> o_ok a (h_new a g) (h_new a g').
Proof.
  intros SA L L'. destruct a; try discriminate SA; (eexists _, _; split; [reflexivity|]; split; [reflexivity|]); cbn [buflen] in L, L'; unfold st_ok, cw_ok, zlen; cbn; rewrite L, L'; repeat split; lia.
Qed.
Lemma h_add_both a o o' d d' : sha2 a = true -> o_ok a o o' -> same_len d d' -> zlen d < 2 ^ 64 ->
  both (h_add_t a o d) (h_add_t a o' d') (h_add a o d) (h_add a o' d') (o_ok a).
Proof.
  intros SA (s & s' & -> & -> & OK) SD DD. unfold h_add_t, h_add.
  destruct a; try discriminate SA; cbn [block_of] in OK; unfold sha224_add, sha256_add, sha384_add, sha512_add;
    (eapply both_bind; [first [apply (md_add_both 64 _ _ _ _ ltac:(lia) pc256 _ _ _ _ OK SD DD) | apply (md_add_both 128 _ _ _ _ ltac:(lia) pc512 _ _ _ _ OK SD DD)]|]);
    cbv beta; intros x x' [OKx _]; apply both_ret; exists x, x'; auto.
Qed.
Lemma h_adds_both a : sha2 a = true -> forall args args', Forall2 same_len args args' -> Forall (fun d => zlen d < 2 ^ 64) args -> forall o o', o_ok a o o' ->
  both (h_adds_t a o args) (h_adds_t a o' args') (h_adds a o args) (h_adds a o' args') (o_ok a).
Proof.
  intros SA. induction 1 as [|d d' args args' SD _ IH]; intros FA o o' OK; cbn [h_adds_t h_adds]; [apply both_ret; exact OK|].
  inversion FA as [|x y DD FA']; subst. eapply both_bind; [apply h_add_both; eassumption|]. intros x x' OKx. apply IH; assumption.
Qed.
Definition digests (a : alg) (d d' : list Z) : Prop := zlen d = h_size a /\ zlen d' = h_size a.
Lemma cut_both {A} (m m' : traced (list A)) r r' n k : both m m' r r' (fun a a' => List.length a = n /\ List.length a' = n) -> 0 <= k <= Z.of_nat n ->
  both (see d <- m; ([At k], slice d 0 k)) (see d <- m'; ([At k], slice d 0 k)) (do d <- r; slice d 0 k) (do d <- r'; slice d 0 k) (fun a a' => zlen a = k /\ zlen a' = k).
Proof.
  intros H R. eapply both_bind; [exact H|]. cbv beta. intros d d' [L L']. unfold both. cbn [fst snd]. split; [reflexivity|].
  rewrite !slice_ok by (unfold zlen; lia). eexists _, _. repeat split; unfold zlen; rewrite firstn_length, skipn_length; lia.
Qed.
Lemma h_digest_both a o o' : sha2 a = true -> o_ok a o o' -> both (h_digest_t a o) (h_digest_t a o') (h_digest a o) (h_digest a o') (digests a).
Proof.
  intros SA (s & s' & -> & -> & OK). unfold h_digest_t, h_digest.
  pose proof (fun OK => md_digest_both 64 _ _ _ 17 ltac:(lia) pc256 8 4 ltac:(lia) s s' OK) as D256.
  pose proof (fun OK => md_digest_both 128 _ _ _ 131 ltac:(lia) pc512 16 8 ltac:(lia) s s' OK) as D512.
  destruct a; try discriminate SA; cbn [block_of] in OK.
  all: try specialize (D256 OK); try specialize (D512 OK); clear OK.
  all: unfold sha224_digest, sha384_digest; try fold (sha256_digest s) (sha256_digest s') in D256; try fold (sha512_digest s) (sha512_digest s') in D512.
  all: try (apply (cut_both _ _ _ _ _ 28 D256); lia); try (apply (cut_both _ _ _ _ _ 48 D512); lia).
  all: first [apply (both_weaken _ _ _ _ _ _ D256) | apply (both_weaken _ _ _ _ _ _ D512)]; intros d d' [L L']; split; cbn [h_size]; unfold zlen; lia.
Qed.
Lemma h_hash_both a g g' args args' : sha2 a = true -> List.length g = buflen a -> List.length g' = buflen a -> Forall2 same_len args args' -> Forall (fun d => zlen d < 2 ^ 64) args ->
  both (h_hash_t a g args) (h_hash_t a g' args') (h_hash a g args) (h_hash a g' args') (digests a).
Proof.
  intros SA L L' F FA. eapply both_bind; [apply h_adds_both; [exact SA | exact F | exact FA | apply h_new_ok; assumption]|]. intros o o' OK. apply h_digest_both; assumption.
Qed.
Lemma h_hash_both1 a g g' d d' : sha2 a = true -> List.length g = buflen a -> List.length g' = buflen a -> zlen d = zlen d' -> zlen d < 2 ^ 64 ->
  both (h_hash_t a g [d]) (h_hash_t a g' [d']) (h_hash a g [d]) (h_hash a g' [d']) (digests a).
Proof. intros SA L L' E D. apply h_hash_both; try assumption; repeat constructor; try assumption. unfold same_len, zlen in *. lia. Qed.

(** ** hkdf.h *)
Definition sized (n : Z) (a a' : list Z) : Prop := zlen a = n /\ zlen a' = n.
Definition fresh (a : alg) (g : supply) : Prop := forall k, List.length (g k) = buflen a.
Lemma shift_fresh a g n : fresh a g -> fresh a (shift g n). Proof. intros H k. apply H. Qed.
Lemma resize_zlen l n : 0 <= n -> zlen (resize l n) = n.
Proof. intros H. unfold resize, zlen. rewrite app_length, firstn_length, repeat_length. lia. Qed.
Lemma insert_both {B} (x y x' y' : list Z) (f f' : list Z -> traced B) r r' Q : zlen x = zlen x' -> zlen y = zlen y' ->
  both (f (x ++ y)) (f' (x' ++ y')) r r' Q -> both (tbind (insert_t x y) f) (tbind (insert_t x' y') f') r r' Q.
Proof. intros E E' H. apply (both_step _ _ [At (zlen x); At (zlen y)] (x ++ y) (x' ++ y')); [reflexivity | unfold insert_t; rewrite <- E, <- E'; reflexivity | exact H]. Qed.
Lemma size_range a : sha2 a = true -> 0 < h_size a <= 64. Proof. destruct a; try discriminate; cbn [h_size]; lia. Qed.
Section Keys.
  Context (a : alg).
  Hypothesis SA : sha2 a = true.
  Lemma HMAC_both g g' text text' key key' : fresh a g -> fresh a g' -> zlen text = zlen text' -> zlen key = zlen key' -> zlen text < 2 ^ 63 ->
    both (HMAC_t a g text key) (HMAC_t a g' text' key') (HMAC a g text key) (HMAC a g' text' key') (sized (h_size a)).
  Proof.
    intros G G' ET EK LT. pose proof (size_range a SA) as R. unfold HMAC_t, HMAC.
    assert (PL : forall x k, zlen (map (fun c => Z.lxor c x) (resize k (h_size a * 2))) = h_size a * 2) by (intros; unfold zlen; rewrite map_length; fold (zlen (resize k (h_size a * 2))); apply resize_zlen; lia).
    eapply both_step; [reflexivity | unfold pad_t; rewrite <- EK; reflexivity|]. eapply both_step; [reflexivity | unfold pad_t; rewrite <- EK; reflexivity|].
    set (o := map _ (resize key _)). set (o' := map _ (resize key' _)). set (i := map _ (resize key _)). set (i' := map _ (resize key' _)).
    assert (zlen o = h_size a * 2) by apply PL. assert (zlen o' = h_size a * 2) by apply PL. assert (zlen i = h_size a * 2) by apply PL. assert (zlen i' = h_size a * 2) by apply PL.
    apply insert_both; [lia | lia|]. eapply both_bind; [apply h_hash_both1; [exact SA | apply G | apply G' | rewrite !zlen_app; lia | rewrite zlen_app; lia]|].
    intros d d' [L L']. apply insert_both; [lia | lia|]. apply h_hash_both1; [exact SA | apply G | apply G' | rewrite !zlen_app; lia | rewrite zlen_app; lia].
  Qed.
  Lemma expand_loop_both prk prk' info info' len : zlen prk = zlen prk' -> zlen info = zlen info' -> zlen info < 2 ^ 62 ->
    forall fuel g g' buffer buffer' lastT lastT' n, fresh a g -> fresh a g' -> zlen buffer = zlen buffer' -> zlen lastT = zlen lastT' -> zlen lastT <= 64 -> len - zlen buffer <= Z.of_nat fuel ->
    both (expand_loop_t a g fuel prk info len buffer lastT n) (expand_loop_t a g' fuel prk' info' len buffer' lastT' n) (expand_loop a g fuel prk info len buffer lastT n) (expand_loop a g' fuel prk' info' len buffer' lastT' n)
      (fun b b' => zlen b = zlen b').
  Proof.
    intros EP EI LI. pose proof (size_range a SA) as R. induction fuel as [|fuel IH]; intros g g' buffer buffer' lastT lastT' n G G' EB EL LL F; cbn [expand_loop_t expand_loop]; rewrite <- EB.
    - destruct (zlen buffer <? len) eqn:E; [lia|]. apply both_emit; [reflexivity | exact EB].
    - destruct (zlen buffer <? len) eqn:E; [|apply both_emit; [reflexivity | exact EB]].
      apply (both_step _ _ [Loop true] tt tt); [reflexivity | reflexivity|]. apply insert_both; [exact EL | exact EI|]. rewrite <- !app_assoc.
      eapply both_bind; [apply HMAC_both; [exact G | exact G' | rewrite !zlen_app; lia | exact EP | rewrite !zlen_app; change (zlen [w8 n]) with 1; lia]|].
      intros d d' [L L']. apply insert_both; [exact EB | lia|]. apply IH; try (apply shift_fresh; assumption); rewrite ?zlen_app; lia.
  Qed.
  Lemma expand_both g g' prk prk' info info' len : fresh a g -> fresh a g' -> zlen prk = zlen prk' -> zlen info = zlen info' -> zlen info < 2 ^ 62 -> 0 <= len ->
    both (HKDF_Expand_t a g prk info len) (HKDF_Expand_t a g' prk' info' len) (HKDF_Expand a g prk info len) (HKDF_Expand a g' prk' info' len) (sized len).
  Proof.
    intros G G' EP EI LI LL. eapply both_bind; [apply expand_loop_both; try assumption; try reflexivity; change (zlen (@nil Z)) with 0; lia|].
    cbv beta. intros b b' E. apply both_emit; [rewrite E; reflexivity|]. split; apply resize_zlen; exact LL.
  Qed.
  Lemma label_both g g' prk prk' label label' context context' len : fresh a g -> fresh a g' -> zlen prk = zlen prk' -> zlen label = zlen label' -> zlen context = zlen context' -> zlen label < 2 ^ 60 -> zlen context < 2 ^ 60 -> 0 <= len ->
    both (HKDF_Expand_Label_t a g prk label context len) (HKDF_Expand_Label_t a g' prk' label' context' len) (HKDF_Expand_Label a g prk label context len) (HKDF_Expand_Label a g' prk' label' context' len) (sized len).
  Proof.
    intros G G' EP EL EC LL LC HL. unfold HKDF_Expand_Label_t, HKDF_Expand_Label.
    assert (IL : forall l c, zlen (label_info len l c) = 10 + zlen l + zlen c) by (intros; unfold label_info; cbv zeta; rewrite !zlen_app; change (zlen (str "tls13 ")) with 6; unfold zlen; cbn [List.length]; lia).
    eapply both_step; [reflexivity | rewrite <- EL, <- EC; reflexivity|]. apply expand_both; try assumption; rewrite ?IL; lia.
  Qed.
End Keys.
