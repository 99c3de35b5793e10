From Verif Require Import Base BaseP M_MD.

Section MD.
Variable B : Z.
Variable pc : list Z -> list Z -> list Z.
Hypothesis B_pos : 0 < B.
Hypothesis B_div : (B | 2 ^ 64).
Let b : nat := Z.to_nat B.

Lemma b_pos : (0 < b)%nat. Proof. unfold b; lia. Qed.
Lemma b_B : Z.of_nat b = B. Proof. unfold b; lia. Qed.

(** Whole blocks and remaining bytes of a message. *)
Definition nfull (l : list Z) : nat := (length l / b * b)%nat.
Definition full (l : list Z) : list Z := firstn (nfull l) l.
Definition rem (l : list Z) : list Z := skipn (nfull l) l.
Definition comp (w l : list Z) : list Z := fold_left (fun w c => pc c w) (chunks b l) w.

Lemma nfull_small l : (length l < b)%nat -> nfull l = 0%nat.
Proof. intros H; unfold nfull; rewrite Nat.div_small by assumption; reflexivity. Qed.
Lemma nfull_step l : (b <= length l)%nat -> nfull l = (b + nfull (skipn b l))%nat.
Proof.
  intros H; unfold nfull; rewrite skipn_length.
  replace (length l) with (1 * b + (length l - b))%nat at 1 by lia.
  rewrite Nat.div_add_l by (pose proof b_pos; lia); lia.
Qed.
Lemma nfull_le l : (nfull l <= length l)%nat.
Proof. unfold nfull; pose proof b_pos; rewrite Nat.mul_comm; apply Nat.mul_div_le; lia. Qed.

Lemma full_small l : (length l < b)%nat -> full l = [].
Proof. intros H; unfold full; rewrite nfull_small by assumption; reflexivity. Qed.
Lemma rem_small l : (length l < b)%nat -> rem l = l.
Proof. intros H; unfold rem; rewrite nfull_small by assumption; reflexivity. Qed.
Lemma firstn_plus {A} n m (l : list A) : firstn (n + m) l = firstn n l ++ firstn m (skipn n l).
Proof. revert l; induction n as [|n IH]; intros [|x l]; cbn [firstn skipn Nat.add app]; rewrite ?firstn_nil; try reflexivity; f_equal; apply IH. Qed.
Lemma skipn_plus {A} n m (l : list A) : skipn (n + m) l = skipn m (skipn n l).
Proof. revert l; induction n as [|n IH]; intros [|x l]; cbn [skipn Nat.add]; rewrite ?skipn_nil; try reflexivity; apply IH. Qed.
Lemma full_step l : (b <= length l)%nat -> full l = firstn b l ++ full (skipn b l).
Proof. intros H; unfold full; rewrite nfull_step, firstn_plus by assumption; reflexivity. Qed.
Lemma rem_step l : (b <= length l)%nat -> rem l = rem (skipn b l).
Proof. intros H; unfold rem; rewrite nfull_step, skipn_plus by assumption; reflexivity. Qed.
Lemma rem_length l : length (rem l) = (length l mod b)%nat.
Proof.
  unfold rem; rewrite skipn_length; unfold nfull; pose proof b_pos.
  rewrite Nat.mod_eq by lia; lia.
Qed.
Lemma rem_length_lt l : (length (rem l) < b)%nat.
Proof. rewrite rem_length; pose proof b_pos; apply Nat.mod_upper_bound; lia. Qed.
Lemma full_length l : length (full l) = nfull l.
Proof. unfold full; rewrite firstn_length; pose proof (nfull_le l); lia. Qed.
Lemma full_rem l : full l ++ rem l = l.
Proof. apply firstn_skipn. Qed.

Lemma comp_step w l : (b <= length l)%nat -> comp w (full l) = comp (pc (firstn b l) w) (full (skipn b l)).
Proof.
  intros H; rewrite full_step by assumption; unfold comp.
  rewrite chunks_app_full by (try apply b_pos; rewrite firstn_length; lia); reflexivity.
Qed.

Lemma comp_app w m d :
  comp w (full (m ++ d)) = comp (comp w (full m)) (full (rem m ++ d)) /\ rem (m ++ d) = rem (rem m ++ d).
Proof.
  remember (length m) as n eqn:Hn; revert w m Hn.
  induction n as [n IH] using lt_wf_ind; intros w m Hn; pose proof b_pos as Hb.
  destruct (Nat.lt_ge_cases (length m) b) as [Hs|Hs].
  - rewrite (full_small m), (rem_small m) by assumption; split; reflexivity.
  - assert (E1 : firstn b (m ++ d) = firstn b m).
    { rewrite firstn_app; replace (b - length m)%nat with 0%nat by lia; rewrite firstn_O; apply app_nil_r. }
    assert (E2 : skipn b (m ++ d) = skipn b m ++ d).
    { rewrite skipn_app; replace (b - length m)%nat with 0%nat by lia; reflexivity. }
    rewrite (comp_step w (m ++ d)), (rem_step (m ++ d)), E1, E2 by (rewrite app_length; lia).
    rewrite (comp_step w m), (rem_step m) by assumption.
    apply (IH (length (skipn b m))); [rewrite skipn_length; lia | reflexivity].
Qed.

Lemma w64_sub n m : 0 <= m <= n -> n < 2 ^ 64 -> w64 (n - m) = n - m.
Proof. intros; apply w64_small; lia. Qed.

Lemma blit_full (chunk src : list Z) : length chunk = b -> length src = b -> blit chunk 0 src = Ok src.
Proof.
  intros Hc Hs; rewrite blit_ok by (unfold zlen; lia).
  cbn [Z.to_nat firstn app Nat.add]; rewrite skipn_all2 by lia; rewrite app_nil_r; reflexivity.
Qed.
Lemma blit_prefix (chunk src : list Z) : (length src <= length chunk)%nat ->
  exists chunk', blit chunk 0 src = Ok chunk' /\ length chunk' = length chunk /\ firstn (length src) chunk' = src.
Proof.
  intros H; rewrite blit_ok by (unfold zlen; lia); eexists; split; [reflexivity|].
  cbn [Z.to_nat firstn app Nat.add]; split.
  - rewrite app_length, skipn_length; lia.
  - rewrite firstn_app, firstn_all, Nat.sub_diag, firstn_O; apply app_nil_r.
Qed.

Lemma md_loop_ok fuel chunk words data inoff :
  length chunk = b -> 0 <= inoff <= zlen data -> zlen data < 2 ^ 64 ->
  (length data - Z.to_nat inoff < fuel)%nat ->
  let l := skipn (Z.to_nat inoff) data in
  exists chunk', md_loop B pc fuel chunk words data inoff = Ok (chunk', comp words (full l))
    /\ length chunk' = b /\ firstn (length (rem l)) chunk' = rem l.
Proof.
  revert chunk words inoff; induction fuel as [|fuel IH]; intros chunk words inoff Hc Hi Hd Hf l; [lia|].
  pose proof b_pos as Hb; pose proof b_B as HB.
  assert (Hl : length l = (length data - Z.to_nat inoff)%nat) by (unfold l; apply skipn_length).
  cbn [md_loop]; rewrite w64_sub by lia.
  destruct (Z.leb_spec B (zlen data - inoff)) as [H|H].
  - rewrite slice_ok by lia; cbn [bind].
    assert (Hlen : (b <= length l)%nat) by (unfold zlen in *; lia).
    assert (Hb1 : length (firstn b l) = b) by (rewrite firstn_length; lia).
    fold b; fold l; rewrite blit_full by assumption; cbn [bind].
    assert (Esk : skipn (Z.to_nat (inoff + B)) data = skipn b l)
      by (unfold l; rewrite Z2Nat.inj_add, skipn_plus by lia; reflexivity).
    destruct (IH (firstn b l) (pc (firstn b l) words) (inoff + B)) as (c' & E & L & F);
      [assumption | unfold zlen in *; lia | assumption | unfold zlen in *; lia |].
    rewrite Esk in E, F; exists c'; rewrite E.
    split; [f_equal; f_equal; symmetry; apply comp_step; assumption|].
    rewrite rem_step by assumption; auto.
  - assert (Hlen : (length l < b)%nat) by (unfold zlen in *; lia).
    rewrite full_small, rem_small by assumption.
    destruct (Z.eqb_spec (zlen data - inoff) 0) as [E0|E0].
    + exists chunk; split; [reflexivity|]; split; [assumption|].
      assert (length l = 0%nat) by (unfold zlen in *; lia).
      destruct l; [reflexivity | cbn in *; lia].
    + rewrite slice_ok by lia; cbn [bind]; fold l.
      rewrite firstn_all2 by (unfold zlen in *; lia).
      destruct (blit_prefix chunk l) as (c' & E & L & F); [lia|].
      rewrite E; cbn [bind]; exists c'; split; [reflexivity|]; split; [lia | exact F].
Qed.

(** Relation between an object and the message it has absorbed. *)
Definition Inv (w0 : list Z) (s : hstate) (m : list Z) : Prop :=
  h_len s = w64 (zlen m) /\ length (h_chunk s) = b /\ h_words s = comp w0 (full m)
  /\ firstn (length (rem m)) (h_chunk s) = rem m.

Lemma mod_w64 x : w64 x mod B = x mod B.
Proof.
  unfold w64; destruct B_div as [q Hq]; rewrite Hq.
  rewrite (Z.mul_comm q B), Z.rem_mul_r by (try nia; assert (0 < q) by nia; lia).
  rewrite Z.mul_comm, Z.mod_add by lia; apply Z.mod_mod; lia.
Qed.

Lemma zlen_mod m : zlen m mod B = Z.of_nat (length (rem m)).
Proof. rewrite rem_length; unfold zlen; rewrite Nat2Z.inj_mod, b_B; reflexivity. Qed.

Lemma init_inv garbage w0 : length garbage = b -> Inv w0 (mkH garbage w0 0) [].
Proof.
  intros H; unfold Inv; cbn [h_len h_chunk h_words].
  rewrite full_small, rem_small by (cbn; apply b_pos); cbn; auto.
Qed.

Lemma w64_add_zlen (m d : list Z) : w64 (w64 (zlen m) + zlen d) = w64 (zlen (m ++ d)).
Proof. rewrite zlen_app; unfold w64; rewrite Zplus_mod_idemp_l; reflexivity. Qed.

Lemma md_add_ok w0 s m d : Inv w0 s m -> zlen d < 2 ^ 64 ->
  exists s', md_add B pc s d = Ok s' /\ Inv w0 s' (m ++ d).
Proof.
  intros (Hlen & Hc & Hw & Hf) Hd; pose proof b_pos as Hb; pose proof b_B as HB.
  unfold md_add; rewrite Hlen, mod_w64, zlen_mod, w64_add_zlen.
  pose proof (rem_length_lt m) as Hr; set (r := rem m) in *.
  destruct (comp_app w0 m d) as [CA RA]; fold r in CA, RA.
  destruct (Z.eqb_spec (Z.of_nat (length r)) 0) as [E0|E0]; cbn [negb].
  - assert (Er : r = []) by (destruct r; [reflexivity | cbn in E0; lia]).
    destruct (md_loop_ok (S (length d)) (h_chunk s) (h_words s) d 0) as (c' & E & L & F);
      [assumption | pose proof (zlen_nonneg d); lia | assumption | lia |].
    cbn [Z.to_nat skipn] in E, F; rewrite E; cbn [bind fst snd].
    eexists; split; [reflexivity|]; unfold Inv; cbn [h_len h_chunk h_words].
    rewrite CA, RA, Er, app_nil_l, <- Hw; auto.
  - rewrite slice_ok by (pose proof (zlen_nonneg d); lia); cbn [bind Z.to_nat skipn].
    set (cn := Z.min (zlen d) (B - Z.of_nat (length r))).
    assert (Hcn : 0 <= cn <= zlen d) by (unfold cn; pose proof (zlen_nonneg d); lia).
    assert (Hsl : length (firstn (Z.to_nat cn) d) = Z.to_nat cn) by (rewrite firstn_length; unfold zlen in *; lia).
    rewrite blit_ok by (unfold zlen; rewrite ?Hsl, ?Hc; unfold cn; lia); cbn [bind].
    rewrite Nat2Z.id, Hf, Hsl.
    set (chunk' := r ++ firstn (Z.to_nat cn) d ++ skipn (length r + Z.to_nat cn) (h_chunk s)).
    assert (Lc' : length chunk' = b)
      by (unfold chunk'; rewrite !app_length, Hsl, skipn_length, Hc; unfold cn; lia).
    destruct (Z.eqb_spec (Z.of_nat (length r) + cn) B) as [E1|E1]; cbn [negb].
    + (* block completed *)
      assert (Ech : chunk' = r ++ firstn (Z.to_nat cn) d).
      { unfold chunk'; rewrite skipn_all2 by lia; rewrite app_nil_r; reflexivity. }
      destruct (md_loop_ok (S (length d)) chunk' (pc chunk' (h_words s)) d cn) as (c' & E & L & F);
        [assumption | lia | assumption | lia |].
      rewrite E; cbn [bind fst snd]; eexists; split; [reflexivity|].
      unfold Inv; cbn [h_len h_chunk h_words].
      assert (F1 : firstn b (r ++ d) = chunk').
      { rewrite Ech, firstn_app, firstn_all2 by lia; do 2 f_equal; lia. }
      assert (F2 : skipn b (r ++ d) = skipn (Z.to_nat cn) d).
      { rewrite skipn_app, skipn_all2 by lia; cbn [app]; f_equal; lia. }
      assert (Lrd : (b <= length (r ++ d))%nat) by (rewrite app_length; unfold zlen in *; lia).
      rewrite CA, RA, (comp_step _ (r ++ d)), (rem_step (r ++ d)), F1, F2, <- Hw by assumption; auto.
    + (* still short of a block: all of d was copied *)
      assert (Ecn : cn = zlen d) by (unfold cn in *; lia).
      assert (Lrd : (length (r ++ d) < b)%nat) by (rewrite app_length; unfold zlen in *; lia).
      eexists; split; [reflexivity|]; unfold Inv; cbn [h_len h_chunk h_words].
      rewrite CA, RA, (full_small (r ++ d)), (rem_small (r ++ d)) by assumption.
      split; [reflexivity|]; split; [assumption|]; split; [exact Hw|].
      change (firstn (length (r ++ d)) chunk' = r ++ d).
      unfold chunk'; rewrite Ecn, zlen_to_nat, firstn_all, app_assoc.
      rewrite firstn_app, firstn_all, Nat.sub_diag, firstn_O; apply app_nil_r.
Qed.

(** ** Sequences of add() calls *)
Fixpoint md_adds (s : hstate) (ps : list (list Z)) : res hstate :=
  match ps with
  | [] => Ok s
  | p :: t => do s' <- md_add B pc s p; md_adds s' t
  end.

Lemma md_adds_ok w0 ps : Forall (fun p => zlen p < 2 ^ 64) ps -> forall s m, Inv w0 s m ->
  exists s', md_adds s ps = Ok s' /\ Inv w0 s' (m ++ concat ps).
Proof.
  induction 1 as [|p ps Hp Hps IH]; intros s m HI; cbn [md_adds concat].
  - exists s; rewrite app_nil_r; auto.
  - destruct (md_add_ok w0 s m p HI Hp) as (s1 & E1 & I1); rewrite E1; cbn [bind].
    destruct (IH s1 (m ++ p) I1) as (s2 & E2 & I2); exists s2; rewrite app_assoc; auto.
Qed.

(** ** Finalisation *)
Variable lb : nat.
Variable be : bool.
Hypothesis lb_fits : Z.of_nat lb <= B < 2 ^ 62.

Lemma msgsize_le_length n len : length (msgsize_le n len) = n.
Proof. revert len; induction n; intros; cbn [msgsize_le length]; auto. Qed.
Lemma msgsize_length len : length (msgsize lb be len) = lb.
Proof. unfold msgsize; destruct be; rewrite ?rev_length; apply msgsize_le_length. Qed.

(** The padding appended to a message, as computed by the code. *)
Definition cpad (m : list Z) : list Z :=
  0x80 :: repeat 0 (Z.to_nat (B - 1 - (zlen m + Z.of_nat lb) mod B)) ++ msgsize lb be (w64 (zlen m * 8)).

Lemma firstn_repeat {A} (x : A) n m : (n <= m)%nat -> firstn n (repeat x m) = repeat x n.
Proof. revert m; induction n as [|n IH]; intros [|m] H; cbn; try reflexivity; [lia|]; f_equal; apply IH; lia. Qed.

Lemma cpad_length m : exists k, length (m ++ cpad m) = (k * b)%nat.
Proof.
  pose proof b_B as HB; unfold cpad.
  set (x := zlen m + Z.of_nat lb).
  assert (Hx : 0 <= x mod B < B) by (apply Z.mod_pos_bound; lia).
  exists (Z.to_nat (x / B + 1)).
  apply Nat2Z.inj; rewrite Nat2Z.inj_mul, HB.
  rewrite app_length; cbn [length]; rewrite app_length, repeat_length, msgsize_length.
  pose proof (Z.div_mod x B ltac:(lia)) as DM.
  assert (0 <= x / B) by (apply Z.div_pos; unfold x; pose proof (zlen_nonneg m); lia).
  rewrite Z2Nat.id by lia; unfold x, zlen in *; lia.
Qed.

Lemma md_final_ok w0 s m : Inv w0 s m -> md_final B pc lb be s = Ok (comp w0 (m ++ cpad m)).
Proof.
  intros HI; pose proof b_B as HB; unfold md_final.
  destruct HI as (Hlen & HI'); assert (HI : Inv w0 s m) by (split; assumption).
  rewrite Hlen.
  assert (Emod : w64 (w64 (zlen m) + Z.of_nat lb) mod B = (zlen m + Z.of_nat lb) mod B).
  { rewrite mod_w64; unfold w64; rewrite <- (mod_w64 (zlen m + Z.of_nat lb)); unfold w64.
    rewrite <- (mod_w64 (zlen m mod 2 ^ 64 + Z.of_nat lb)); unfold w64.
    rewrite Zplus_mod_idemp_l; reflexivity. }
  rewrite Emod; set (ps := B - (zlen m + Z.of_nat lb) mod B).
  assert (Hps : 1 <= ps <= B) by (unfold ps; pose proof (Z.mod_pos_bound (zlen m + Z.of_nat lb) B ltac:(lia)); lia).
  assert (Lz : zlen (128 :: repeat 0 (Z.to_nat B)) = 1 + B) by (rewrite zlen_cons; unfold zlen; rewrite repeat_length; lia).
  rewrite slice_ok by lia; cbn [bind Z.to_nat skipn].
  assert (Epad : firstn (Z.to_nat ps) (128 :: repeat 0 (Z.to_nat B)) = 128 :: repeat 0 (Z.to_nat (ps - 1))).
  { replace (Z.to_nat ps) with (S (Z.to_nat (ps - 1))) by lia; cbn [firstn]; f_equal; apply firstn_repeat; lia. }
  rewrite Epad.
  destruct (md_add_ok w0 s m (128 :: repeat 0 (Z.to_nat (ps - 1))) HI) as (s1 & E1 & I1).
  { rewrite zlen_cons; unfold zlen; rewrite repeat_length; lia. }
  rewrite E1; cbn [bind].
  replace (w64 (w64 (zlen m) * 8)) with (w64 (zlen m * 8)) by (unfold w64; rewrite Zmult_mod_idemp_l; reflexivity).
  destruct (md_add_ok w0 s1 _ (msgsize lb be (w64 (zlen m * 8))) I1) as (s2 & E2 & I2).
  { unfold zlen; rewrite msgsize_length; lia. }
  rewrite E2; cbn [bind]; f_equal.
  destruct I2 as (_ & _ & -> & _).
  assert (Eall : (m ++ 128 :: repeat 0 (Z.to_nat (ps - 1))) ++ msgsize lb be (w64 (zlen m * 8)) = m ++ cpad m).
  { unfold cpad; rewrite <- app_assoc; cbn [app]; do 5 f_equal; unfold ps; lia. }
  rewrite Eall; destruct (cpad_length m) as [k Hk].
  f_equal; unfold full, nfull; rewrite Hk, Nat.div_mul by (pose proof b_pos; lia).
  rewrite <- Hk; apply firstn_all.
Qed.
End MD.
