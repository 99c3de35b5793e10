(** GHASH as a polynomial in the hash subkey: two different messages collide for few subkeys. *)
From Verif Require Import Base BaseP S_GCM P_GF2 P_GField P_GHM P_HKDF.
Open Scope Z_scope.

Definition coeffs (X : list Z) : list Z := map be_val (chunks 16 X).
Lemma fold_map_ext {A B C} (f : A -> B -> A) (g : A -> C -> A) (h : B -> C) l : (forall y b, f y b = g y (h b)) -> forall y, fold_left f l y = fold_left g (map h l) y.
Proof. intros E; induction l as [|b l IH]; intros y; cbn [fold_left map]; [reflexivity | rewrite E; apply IH]. Qed.
Lemma GHASH_gh H X : GHASH H X = gh 128 R H 0 (coeffs X).
Proof. unfold GHASH, gh, coeffs; apply fold_map_ext; intros y b; apply block_mul_gmul. Qed.

Lemma coeffs_rng X k : bytes X -> length X = (k * 16)%nat -> Forall (rng 128) (coeffs X).
Proof.
  intros B L; unfold coeffs; apply Forall_map.
  assert (Forall (fun c : list Z => length c = 16%nat) (chunks 16 X)) as F1 by (apply (chunks_lengths 16 k X); lia || exact L).
  assert (F2 : Forall bytes (chunks 16 X)).
  { pose proof (chunks_concat 16 X ltac:(lia)) as C; rewrite <- C in B; clear - B; induction (chunks 16 X) as [|c l IH]; constructor; cbn [concat] in B; apply bytes_app in B; [apply B | apply IH, B]. }
  rewrite Forall_forall in *; intros c I; pose proof (be_val_range c (F2 c I)) as Q; unfold zlen in Q; rewrite (F1 c I) in Q; exact Q.
Qed.
Lemma coeffs_inj X Y k m : bytes X -> bytes Y -> length X = (k * 16)%nat -> length Y = (m * 16)%nat -> coeffs X = coeffs Y -> X = Y.
Proof.
  intros BX BY LX LY E; rewrite <- (chunks_concat 16 X), <- (chunks_concat 16 Y) by lia; f_equal.
  assert (Q : forall X k, bytes X -> length X = (k * 16)%nat -> Forall block (chunks 16 X)).
  { clear; intros X k B L; apply Forall_forall; intros c I; split.
    - destruct (chunks_lengths 16 k X ltac:(lia) L) as [F1 _]; rewrite Forall_forall in F1; apply F1, I.
    - pose proof (chunks_concat 16 X ltac:(lia)) as C; rewrite <- C in B; clear - B I; induction (chunks 16 X) as [|x l IH]; [destruct I|]; cbn [concat] in B; apply bytes_app in B.
      destruct I as [<-|I]; [apply B | apply IH; [apply B | exact I]]. }
  pose proof (Q X k BX LX) as FX; pose proof (Q Y m BY LY) as FY; unfold coeffs in E; clear - E FX FY.
  revert E FX FY; generalize (chunks 16 Y); induction (chunks 16 X) as [|c l IH]; intros [|c' l'] E FX FY; cbn [map] in E; try discriminate; [reflexivity|].
  inversion_clear FX as [|? ? [L1 B1] F1]; inversion_clear FY as [|? ? [L2 B2] F2]; injection E as E1 E2; f_equal; [|apply IH; assumption].
  rewrite <- (be_bytes_val c B1), <- (be_bytes_val c' B2), L1, L2, E1; reflexivity.
Qed.

Definition nblk (A C : list Z) : nat := length (coeffs (ghash_input A C)).
Lemma input_shape A C : exists X k, ghash_input A C = X ++ lengths A C /\ length X = (k * 16)%nat /\ X = (A ++ pad16 A) ++ (C ++ pad16 C).
Proof.
  destruct (pad16_length A) as [k1 L1]; destruct (pad16_length C) as [k2 L2]; exists ((A ++ pad16 A) ++ (C ++ pad16 C)), (k1 + k2)%nat; split; [|split].
  - unfold ghash_input; rewrite <- !app_assoc; reflexivity.
  - rewrite app_length, L1, L2; lia.
  - reflexivity.
Qed.
Lemma lengths_length A C : length (lengths A C) = 16%nat.
Proof. unfold lengths; rewrite app_length, !be_bytes_length; reflexivity. Qed.
Lemma input_length A C : exists k, length (ghash_input A C) = (k * 16)%nat.
Proof. destruct (input_shape A C) as (X & k & E & L & _); exists (k + 1)%nat; rewrite E, app_length, L, lengths_length; lia. Qed.
Lemma input_bytes A C : bytes A -> bytes C -> bytes (ghash_input A C).
Proof.
  intros BA BC; unfold ghash_input, lengths; repeat (rewrite bytes_app); repeat split; try assumption; apply pad16_bytes || apply be_bytes_bytes.
Qed.
Lemma coeffs_last A C : exists l, coeffs (ghash_input A C) = l ++ [be_val (lengths A C)].
Proof.
  destruct (input_shape A C) as (X & k & E & L & _); exists (map be_val (chunks 16 X)); unfold coeffs; rewrite E, (chunks_app_mult 16 k), map_app by (lia || exact L).
  f_equal; rewrite <- (app_nil_r (lengths A C)), chunks_app_full by (rewrite ?lengths_length; lia); cbn [map]; rewrite app_nil_r; reflexivity.
Qed.
Lemma lengths_inj A C A' C' : zlen A < 2 ^ 61 -> zlen C < 2 ^ 61 -> zlen A' < 2 ^ 61 -> zlen C' < 2 ^ 61 ->
  be_val (lengths A C) = be_val (lengths A' C') -> length A = length A' /\ length C = length C'.
Proof.
  intros LA LC LA' LC'; unfold lengths; rewrite !be_val_app, !zlen_be_bytes || rewrite !be_val_app.
  unfold zlen in *; rewrite !be_bytes_length, !be_val_bytes by lia; intros E; lia.
Qed.
Lemma input_inj A C A' C' : length A = length A' -> length C = length C' -> ghash_input A C = ghash_input A' C' -> A = A' /\ C = C'.
Proof.
  intros LA LC E; unfold ghash_input in E; unfold pad16, zlen in E; rewrite LA, LC in E.
  apply app_inj_len in E; [|exact LA]; destruct E as [E1 E]; apply app_inj_len in E; [|reflexivity]; destruct E as [_ E].
  apply app_inj_len in E; [|exact LC]; destruct E as [E2 _]; split; assumption.
Qed.

Theorem ghash_collisions A C A' C' d Hs : bytes A -> bytes C -> bytes A' -> bytes C' ->
  zlen A < 2 ^ 61 -> zlen C < 2 ^ 61 -> zlen A' < 2 ^ 61 -> zlen C' < 2 ^ 61 -> (A, C) <> (A', C') -> rng 128 d -> NoDup Hs ->
  (forall H, In H Hs -> rng 128 H /\ Z.lxor (GHASH H (ghash_input A C)) (GHASH H (ghash_input A' C')) = d) ->
  (length Hs <= Nat.max (nblk A C) (nblk A' C'))%nat.
Proof.
  intros BA BC BA' BC' LA LC LA' LC' D Hd ND HH.
  destruct (input_length A C) as [k L]; destruct (input_length A' C') as [k' L'].
  apply (collisions_128 _ _ d); [apply (coeffs_rng _ k); [apply input_bytes; assumption | exact L] | apply (coeffs_rng _ k'); [apply input_bytes; assumption | exact L'] | exact Hd | exact ND | |].
  - intros H I; rewrite <- !GHASH_gh; apply HH, I.
  - destruct (chunks_lengths 16 k _ ltac:(lia) L) as [_ N1]; destruct (chunks_lengths 16 k' _ ltac:(lia) L') as [_ N2].
    intros Z0; apply D; destruct (coeffs_last A C) as [t Et]; destruct (coeffs_last A' C') as [t' Et'].
    assert (Ev : be_val (lengths A C) = be_val (lengths A' C')).
    { unfold aligned in Z0; rewrite Et, Et', !app_assoc in Z0; apply app_inj_tail in Z0; apply Z0. }
    apply lengths_inj in Ev; try assumption; destruct Ev as [EA EC].
    assert (EL : length (ghash_input A C) = length (ghash_input A' C')).
    { unfold ghash_input; rewrite !app_length, !lengths_length; unfold pad16; rewrite !repeat_length; unfold zlen; rewrite EA, EC; reflexivity. }
    assert (EK : length (coeffs (ghash_input A C)) = length (coeffs (ghash_input A' C'))) by (unfold coeffs; rewrite !map_length; lia).
    unfold aligned in Z0; rewrite EK in Z0; apply app_inv_head in Z0; apply (coeffs_inj _ _ k k') in Z0; try assumption; try (apply input_bytes; assumption).
    destruct (input_inj A C A' C' EA EC Z0) as [-> ->]; reflexivity.
Qed.
