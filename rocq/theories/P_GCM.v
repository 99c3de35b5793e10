(** The counter mode loops of gcm.h and the whole of Encrypt and Decrypt. *)
From Verif Require Import Base BaseP M_HKDF M_GCM S_GCM P_Ghash P_GHM.
Open Scope Z_scope.

(** * Counter blocks *)
Lemma len12 (p : list Z) : length p = 12%nat -> exists a0 a1 a2 a3 a4 a5 a6 a7 a8 a9 a10 a11, p = [a0; a1; a2; a3; a4; a5; a6; a7; a8; a9; a10; a11].
Proof. intros L; do 12 (destruct p as [|? p]; [discriminate L|]); destruct p; [|discriminate L]; do 12 eexists; reflexivity. Qed.
Lemma bump8_at p x q i : i = zlen p -> bump8 (p ++ x :: q) i = Ok (p ++ w8 (x + 1) :: q, w8 (x + 1) =? 0).
Proof.
  intros ->; unfold bump8, getz, setz; pose proof (zlen_nonneg p).
  destruct (Z.leb_spec 0 (zlen p)); [|lia]; rewrite zlen_to_nat, nth_error_app2, Nat.sub_diag by lia; cbn [nth_error bind andb].
  rewrite zlen_app, zlen_cons; pose proof (zlen_nonneg q); destruct (Z.ltb_spec (zlen p) (zlen p + (1 + zlen q))); [|lia]; cbn [bind].
  unfold upd; rewrite (firstn_app_exact p), (skipn_app_exact p) by reflexivity; reflexivity.
Qed.
Lemma ctr_inc_parts p a b c d : length p = 12%nat -> ctr_inc (p ++ [a; b; c; d]) = Ok (p ++ (
  if negb (w8 (d + 1) =? 0) then [a; b; c; w8 (d + 1)] else
  if negb (w8 (c + 1) =? 0) then [a; b; w8 (c + 1); w8 (d + 1)] else
  if negb (w8 (b + 1) =? 0) then [a; w8 (b + 1); w8 (c + 1); w8 (d + 1)] else [w8 (a + 1); w8 (b + 1); w8 (c + 1); w8 (d + 1)])).
Proof.
  intros L; unfold ctr_inc.
  assert (L3 : forall x y z, 15 = zlen (p ++ [x; y; z])) by (intros; rewrite zlen_app; unfold zlen; rewrite L; reflexivity).
  assert (L2 : forall x y, 14 = zlen (p ++ [x; y])) by (intros; rewrite zlen_app; unfold zlen; rewrite L; reflexivity).
  assert (L1 : forall x, 13 = zlen (p ++ [x])) by (intros; rewrite zlen_app; unfold zlen; rewrite L; reflexivity).
  assert (L0 : 12 = zlen p) by (unfold zlen; rewrite L; reflexivity).
  change [a; b; c; d] with ([a; b; c] ++ [d]); rewrite app_assoc, bump8_at by apply L3; cbn [bind].
  destruct (w8 (d + 1) =? 0); cbn [negb]; [|rewrite <- app_assoc; reflexivity].
  rewrite <- app_assoc; change ([a; b; c] ++ [w8 (d + 1)]) with ([a; b] ++ c :: [w8 (d + 1)]); rewrite app_assoc, bump8_at by apply L2; cbn [bind].
  destruct (w8 (c + 1) =? 0); cbn [negb]; [|rewrite <- app_assoc; reflexivity].
  rewrite <- app_assoc; change ([a; b] ++ [w8 (c + 1); w8 (d + 1)]) with ([a] ++ b :: [w8 (c + 1); w8 (d + 1)]); rewrite app_assoc, bump8_at by apply L1; cbn [bind].
  destruct (w8 (b + 1) =? 0); cbn [negb]; [|rewrite <- app_assoc; reflexivity].
  rewrite <- app_assoc; cbn [app]; rewrite bump8_at by apply L0; reflexivity.
Qed.
Lemma be4 n : 0 <= n < 2 ^ 32 -> be_bytes 4 n = [n / 2 ^ 24; (n / 2 ^ 16) mod 256; (n / 2 ^ 8) mod 256; n mod 256].
Proof.
  intros Hn; unfold be_bytes; cbn [le_bytes rev app]; rewrite !Z.div_div by lia.
  change (256 * 256 * 256) with (2 ^ 24); change (256 * 256) with (2 ^ 16); change 256 with (2 ^ 8).
  rewrite (Z.mod_small (n / 2 ^ 24)); [reflexivity|]; split; [apply Z.div_pos; lia | apply Z.div_lt_upper_bound; lia].
Qed.
Lemma w8_next x : byte x -> w8 (x + 1) = if x =? 255 then 0 else x + 1.
Proof. unfold byte, w8; intros H; destruct (Z.eqb_spec x 255) as [->|D]; [reflexivity | apply Z.mod_small; lia]. Qed.
Lemma ctr_inc_ok C : block C -> ctr_inc C = Ok (inc32 C).
Proof.
  intros [L B]; rewrite <- (firstn_skipn 12 C) at 1.
  assert (L2 : length (skipn 12 C) = 4%nat) by (rewrite skipn_length; lia).
  assert (B2 : bytes (skipn 12 C)) by (apply bytes_skipn; exact B).
  unfold inc32; set (q := skipn 12 C) in *; destruct q as [|a [|b [|c [|d [|]]]]]; try discriminate L2.
  rewrite !bytes_cons in B2; destruct B2 as (Ba & Bb & Bc & Bd & _).
  rewrite ctr_inc_parts by (rewrite firstn_length; lia); do 2 f_equal.
  assert (V : be_val [a; b; c; d] = 2 ^ 24 * a + 2 ^ 16 * b + 2 ^ 8 * c + d) by (unfold be_val; cbn [fold_left]; ring); rewrite V; clear V.
  rewrite !w8_next by assumption.
  assert (K : forall a b c d, byte a -> byte b -> byte c -> byte d -> be_bytes 4 (2 ^ 24 * a + 2 ^ 16 * b + 2 ^ 8 * c + d) = [a; b; c; d]).
  { clear; intros a b c d Ba Bb Bc Bd; replace (2 ^ 24 * a + 2 ^ 16 * b + 2 ^ 8 * c + d) with (be_val [a; b; c; d]) by (unfold be_val; cbn [fold_left]; ring).
    apply (be_bytes_val [a; b; c; d]); repeat (apply bytes_cons; split; [assumption|]); apply bytes_nil. }
  unfold byte in *.
  destruct (Z.eqb_spec d 255) as [->|D]; cbn [negb Z.eqb].
  2:{ destruct (Z.eqb_spec (d + 1) 0); [lia|]; cbn [negb]; rewrite Z.mod_small by lia.
      rewrite <- (K a b c (d + 1)) by (unfold byte; lia); f_equal; ring. }
  destruct (Z.eqb_spec c 255) as [->|Dc]; cbn [negb Z.eqb].
  2:{ destruct (Z.eqb_spec (c + 1) 0); [lia|]; cbn [negb]; rewrite Z.mod_small by lia.
      rewrite <- (K a b (c + 1) 0) by (unfold byte; lia); f_equal; ring. }
  destruct (Z.eqb_spec b 255) as [->|Db]; cbn [negb Z.eqb].
  2:{ destruct (Z.eqb_spec (b + 1) 0); [lia|]; cbn [negb]; rewrite Z.mod_small by lia.
      rewrite <- (K a (b + 1) 0 0) by (unfold byte; lia); f_equal; ring. }
  destruct (Z.eqb_spec a 255) as [->|Da].
  - reflexivity.
  - rewrite Z.mod_small by lia; rewrite <- (K (a + 1) 0 0 0) by (unfold byte; lia); f_equal; ring.
Qed.
Lemma inc32_block C : block C -> block (inc32 C).
Proof.
  intros [L B]; unfold inc32; split; [rewrite app_length, firstn_length, be_bytes_length; lia|].
  apply bytes_app; split; [apply bytes_firstn; exact B | apply be_bytes_bytes].
Qed.
Definition cipher (E : list Z -> list Z) : Prop := forall b, block b -> block (E b).
(** The counter blocks after [C]. *)
Fixpoint counters (n : nat) (C : list Z) : list (list Z) := match n with O => [] | S k => inc32 C :: counters k (inc32 C) end.
Fixpoint incs (n : nat) (C : list Z) : list Z := match n with O => C | S k => incs k (inc32 C) end.
Lemma counters_app n m C : counters (n + m) C = counters n C ++ counters m (incs n C).
Proof. revert C; induction n as [|n IH]; intros C; cbn [plus counters incs app]; [reflexivity|]; rewrite IH; reflexivity. Qed.
Lemma incs_inc n : forall C, incs n (inc32 C) = inc32 (incs n C).
Proof. induction n as [|n IH]; intros C; cbn [incs]; [reflexivity | apply IH]. Qed.
Lemma incs_block n : forall C, block C -> block (incs n C).
Proof. induction n as [|n IH]; intros C B; cbn [incs]; [exact B | apply IH, inc32_block, B]. Qed.

Lemma xorl_comm a : forall b, xorl a b = xorl b a.
Proof. induction a as [|x a IH]; intros [|y b]; try reflexivity; cbn; rewrite Z.lxor_comm; f_equal; apply IH. Qed.
Lemma xorl_firstn a : forall b, xorl (firstn (length a) b) a = xorl a b.
Proof. induction a as [|x a IH]; intros [|y b]; try reflexivity; cbn; rewrite Z.lxor_comm; f_equal; apply IH. Qed.
Lemma blit_at {A} (pre old post src : list A) off : off = zlen pre -> length old = length src ->
  blit (pre ++ old ++ post) off src = Ok (pre ++ src ++ post).
Proof.
  intros -> L; rewrite blit_ok by (rewrite ?zlen_app; unfold zlen in *; rewrite ?L; lia).
  rewrite zlen_to_nat, (firstn_app_exact pre) by reflexivity; do 3 f_equal.
  rewrite app_assoc; apply skipn_app_exact; rewrite app_length, L; reflexivity.
Qed.
Lemma slice_at {A} (pre mid post : list A) off len : off = zlen pre -> len = zlen mid -> slice (pre ++ mid ++ post) off len = Ok mid.
Proof.
  intros -> ->; rewrite slice_ok by (rewrite ?zlen_app; pose proof (zlen_nonneg pre); pose proof (zlen_nonneg mid); pose proof (zlen_nonneg post); lia).
  rewrite !zlen_to_nat, (skipn_app_exact pre), (firstn_app_exact mid) by reflexivity; reflexivity.
Qed.
Lemma split_at {A} n (l : list A) : (n <= length l)%nat -> exists a b, l = a ++ b /\ length a = n.
Proof. intros H; exists (firstn n l), (skipn n l); rewrite firstn_skipn, firstn_length; split; [reflexivity | lia]. Qed.
Lemma gctr_app E p : forall C rest, length p = 16%nat -> gctr_blocks E C (chunks 16 (p ++ rest)) = xorl p (E C) ++ gctr_blocks E (inc32 C) (chunks 16 rest).
Proof. intros C rest L; rewrite chunks_app_full by (exact L || lia); reflexivity. Qed.

Lemma full_loop_ok E count : cipher E -> forall ipre im irest opre om orest n ctr used,
  block ctr -> bytes im -> 16 * n = zlen ipre -> 16 * n = zlen opre ->
  length im = (16 * count)%nat -> length om = (16 * count)%nat ->
  full_loop E (ipre ++ im ++ irest) count n ctr (opre ++ om ++ orest) used =
  Ok (incs count ctr, opre ++ gctr_blocks E (inc32 ctr) (chunks 16 im) ++ orest, used ++ counters count ctr).
Proof.
  intros HE; induction count as [|k IH]; intros ipre im irest opre om orest n ctr used Bc Bm Hi Ho Li Lo; cbn [full_loop].
  - destruct im; [|discriminate Li]; destruct om; [|discriminate Lo]; cbn [counters incs chunks chunks_fuel length gctr_blocks app]; rewrite app_nil_r; reflexivity.
  - rewrite ctr_inc_ok by exact Bc; cbn [bind].
    destruct (split_at 16 im ltac:(lia)) as (p & im' & -> & Lp); destruct (split_at 16 om ltac:(lia)) as (o & om' & -> & Lq).
    rewrite app_length in Li, Lo; apply bytes_app in Bm; destruct Bm as [Bp Bm].
    rewrite <- (app_assoc p), <- (app_assoc o), slice_at by (unfold zlen in *; lia); cbn [bind].
    pose proof (HE _ (inc32_block _ Bc)) as [LE BE].
    rewrite blit_at by (try lia; rewrite xorl_length, LE, Lp, Lq; reflexivity); cbn [bind].
    rewrite (app_assoc ipre), (app_assoc opre).
    assert (Lx : zlen (xorl (E (inc32 ctr)) p) = 16) by (unfold zlen; rewrite xorl_length, LE, Lp; reflexivity).
    rewrite IH; [| apply inc32_block; exact Bc | exact Bm | rewrite zlen_app; unfold zlen at 2; lia | rewrite zlen_app, Lx; lia | lia | lia].
    cbn [incs counters]; rewrite gctr_app by exact Lp; rewrite (xorl_comm p), <- !app_assoc; reflexivity.
Qed.

(** One step of the storing loop. *)
Lemma store_step E ipre p irest opre o orest n ctr :
  cipher E -> block ctr -> 16 * n = zlen ipre -> 16 * n = zlen opre -> length o = 16%nat ->
  (length p <= 16)%nat -> ((length p < 16)%nat -> irest = []) ->
  let inp := ipre ++ p ++ irest in
  (do out <- blit (opre ++ o ++ orest) (16 * n) (E ctr); xor_range out inp (16 * n) (Z.min (zlen inp - 16 * n) 16)) =
  Ok (opre ++ (xorl p (E ctr) ++ skipn (length p) (E ctr)) ++ orest).
Proof.
  intros HE Bc Hi Ho Lo Lp Lr inp; pose proof (HE _ Bc) as [LE BE].
  rewrite blit_at by (try lia; congruence); cbn [bind].
  assert (M : Z.min (zlen inp - 16 * n) 16 = zlen p).
  { unfold inp; rewrite !zlen_app; destruct (Nat.eq_dec (length p) 16) as [E1|E1]; [unfold zlen in *; lia|].
    rewrite Lr by lia; unfold zlen in *; cbn [length]; lia. }
  rewrite M; unfold xor_range.
  set (e := E ctr) in *.
  rewrite <- (firstn_skipn (length p) e) at 1; rewrite <- (app_assoc (firstn (length p) e)).
  assert (Lf : length (firstn (length p) e) = length p) by (rewrite firstn_length; lia).
  rewrite slice_at by (unfold zlen in *; rewrite ?Lf; lia); cbn [bind].
  unfold inp; rewrite slice_at by (unfold zlen in *; lia); cbn [bind].
  assert (Lxx : length (xorl (firstn (length p) e) p) = length p) by (rewrite xorl_length, Lf; apply Nat.min_id).
  rewrite <- (firstn_skipn (length p) e) at 1; rewrite <- (app_assoc (firstn (length p) e)).
  rewrite blit_at by (try lia; congruence); do 2 f_equal; rewrite app_assoc; do 2 f_equal.
  apply xorl_firstn.
Qed.
Lemma bind_assoc {A B C} (r : res A) (f : A -> res B) (g : B -> res C) : (do y <- (do x <- r; f x); g y) = (do x <- r; do y <- f x; g y).
Proof. destruct r; reflexivity. Qed.
Definition nblocks (l : list Z) : nat := Z.to_nat ((zlen l + 15) / 16).
Lemma nblocks_nil : nblocks [] = O. Proof. reflexivity. Qed.
Lemma nblocks_short p : (0 < length p <= 16)%nat -> nblocks p = 1%nat.
Proof. intros H; unfold nblocks; replace ((zlen p + 15) / 16) with 1; [reflexivity|]; apply (Z.div_unique_pos _ 16 1 (zlen p - 1)); unfold zlen; lia. Qed.
Lemma nblocks_app p r : length p = 16%nat -> nblocks (p ++ r) = S (nblocks r).
Proof.
  intros L; unfold nblocks; rewrite zlen_app; replace (zlen p) with 16 by (unfold zlen; rewrite L; reflexivity).
  replace (16 + zlen r + 15) with (zlen r + 15 + 1 * 16) by lia; rewrite Z.div_add by lia; pose proof (zlen_nonneg r).
  assert (0 <= (zlen r + 15) / 16) by (apply Z.div_pos; lia); lia.
Qed.
Lemma ctr_loop_ok E : cipher E -> forall count ipre irest opre orest n ctr used,
  block ctr -> bytes irest -> 16 * n = zlen ipre -> 16 * n = zlen opre -> count = nblocks irest -> length orest = (16 * count)%nat ->
  exists junk, ctr_loop E false (ipre ++ irest) count n ctr (opre ++ orest) used =
    Ok (opre ++ gctr_blocks E (inc32 ctr) (chunks 16 irest) ++ junk, used ++ counters count ctr).
Proof.
  intros HE; induction count as [|k IH]; intros ipre irest opre orest n ctr used Bc Bi Hi Ho Hc Lo; cbn [ctr_loop].
  - assert (irest = []) as ->.
    { destruct irest as [|x t]; [reflexivity|]; exfalso; unfold nblocks in Hc; rewrite zlen_cons in Hc.
      pose proof (zlen_nonneg t); assert (1 <= (1 + zlen t + 15) / 16) by (apply Z.div_le_lower_bound; lia); lia. }
    destruct orest; [|discriminate Lo]; exists []; cbn [counters chunks chunks_fuel length gctr_blocks app]; rewrite !app_nil_r; reflexivity.
  - rewrite ctr_inc_ok by exact Bc; cbn [bind]; pose proof (inc32_block _ Bc) as Bc'.
    destruct (split_at 16 orest ltac:(lia)) as (o & orest' & -> & Lq); rewrite app_length in Lo.
    destruct (le_lt_dec 16 (length irest)) as [G|G].
    + destruct (split_at 16 irest G) as (p & r & -> & Lp); apply bytes_app in Bi; destruct Bi as [Bp Br].
      rewrite nblocks_app in Hc by exact Lp; injection Hc as Hc.
      rewrite <- bind_assoc, store_step by (assumption || lia || (intros; lia)); cbn [bind].
      rewrite (skipn_all2 (E (inc32 ctr))) by (pose proof (HE _ Bc') as [LE _]; lia); rewrite app_nil_r.
      rewrite (app_assoc ipre), (app_assoc opre).
      pose proof (HE _ Bc') as [LE _].
      destruct (IH (ipre ++ p) r (opre ++ xorl p (E (inc32 ctr))) orest' (n + 1) (inc32 ctr) (used ++ [inc32 ctr])) as [junk Ej];
        [exact Bc' | exact Br | rewrite zlen_app; unfold zlen at 2; lia | rewrite zlen_app; unfold zlen at 2; rewrite xorl_length; lia | exact Hc | lia |].
      exists junk; rewrite Ej; cbn [counters]; rewrite gctr_app by exact Lp; rewrite <- !app_assoc; reflexivity.
    + assert (NE : irest <> []) by (intros ->; discriminate Hc).
      assert (0 < length irest)%nat by (destruct irest; [congruence | cbn [length]; lia]).
      rewrite nblocks_short in Hc by lia; injection Hc as ->.
      pose proof (store_step E ipre irest [] opre o orest' n (inc32 ctr) HE Bc' Hi Ho Lq ltac:(lia) ltac:(reflexivity)) as SS.
      cbv zeta in SS; rewrite (app_nil_r irest) in SS; rewrite <- bind_assoc, SS; cbn [bind ctr_loop].
      exists (skipn (length irest) (E (inc32 ctr)) ++ orest'); cbn [counters].
      rewrite chunks_step, firstn_all2, (@skipn_all2 _ 16 irest) by (exact NE || lia); cbn [gctr_blocks chunks chunks_fuel length]; rewrite app_nil_r.
      rewrite <- !app_assoc; reflexivity.
Qed.
Lemma gctr_length E X C : cipher E -> block C -> length (gctr_blocks E C (chunks 16 X)) = length X.
Proof.
  intros HE; remember (length X) as n eqn:En; revert X En C; induction n as [n IH] using lt_wf_ind; intros X En C Bc.
  destruct X as [|x X']; [subst; reflexivity|]; set (X := x :: X') in *.
  rewrite chunks_step by (unfold X; congruence || lia); cbn [gctr_blocks]; rewrite app_length, xorl_length, firstn_length.
  pose proof (HE _ Bc) as [LE _]; rewrite LE.
  rewrite (IH (n - 16)%nat); [lia| unfold X in En; cbn [length] in En; lia | rewrite skipn_length; lia | apply inc32_block; exact Bc].
Qed.
Lemma gctr_bytes E X C : cipher E -> block C -> bytes X -> bytes (gctr_blocks E C (chunks 16 X)).
Proof.
  intros HE; remember (length X) as n eqn:En; revert X En C; induction n as [n IH] using lt_wf_ind; intros X En C Bc BX.
  destruct X as [|x X']; [constructor|]; set (X := x :: X') in *.
  rewrite chunks_step by (unfold X; congruence || lia); cbn [gctr_blocks]; apply bytes_app; split.
  - apply bytes_xorl; [apply bytes_firstn; exact BX | apply (HE _ Bc)].
  - apply (IH (n - 16)%nat); [unfold X in En; cbn [length] in En; lia | rewrite skipn_length; lia | apply inc32_block; exact Bc | apply bytes_skipn; exact BX].
Qed.

(** * The first counter block of a message *)
Definition with_counter (j : list Z) (m : Z) : list Z := firstn 4 j ++ xorl (firstn 8 (skipn 4 j)) (be_bytes 8 m) ++ skipn 12 j.
Lemma be8 m : 0 <= m -> be_bytes 8 m = map (fun s => Z.land (Z.shiftr m s) 0xFF) [56; 48; 40; 32; 24; 16; 8; 0].
Proof.
  intros Hm; unfold be_bytes; cbn [le_bytes rev app map]; change 0xFF with 255.
  rewrite !land_0xff, !Z.shiftr_div_pow2 by lia; rewrite !Z.div_div by lia.
  change (2 ^ 0) with 1; rewrite Z.div_1_r; reflexivity.
Qed.
Definition last_bytes (iv : list Z) : list Z := if zlen iv =? 12 then [0; 0; 0; 1] else skipn 12 iv.
Lemma first_ctr_ok iv m : (zlen iv = 12 \/ zlen iv = 16) -> 0 <= m -> first_ctr iv m = Ok (with_counter (firstn 12 iv ++ last_bytes iv) m).
Proof.
  intros Hl Hm; unfold first_ctr, with_counter; rewrite (be8 m Hm).
  assert (Hx : forall j, length j = 16%nat -> xor_bytes j 4 [56; 48; 40; 32; 24; 16; 8; 0] m =
     Ok (firstn 4 j ++ xorl (firstn 8 (skipn 4 j)) (map (fun s => Z.land (Z.shiftr m s) 0xFF) [56; 48; 40; 32; 24; 16; 8; 0]) ++ skipn 12 j)).
  { intros j Lj; do 16 (destruct j as [|? j]; [discriminate Lj|]); destruct j; [|discriminate Lj].
    cbn [map]; set (k0 := Z.land (Z.shiftr m 56) _); set (k1 := Z.land (Z.shiftr m 48) _); set (k2 := Z.land (Z.shiftr m 40) _); set (k3 := Z.land (Z.shiftr m 32) _).
    set (k4 := Z.land (Z.shiftr m 24) _); set (k5 := Z.land (Z.shiftr m 16) _); set (k6 := Z.land (Z.shiftr m 8) _); set (k7 := Z.land (Z.shiftr m 0) _).
    cbn -[Z.lxor Z.land Z.shiftr]; reflexivity. }
  unfold last_bytes; destruct Hl as [Hl|Hl]; rewrite Hl.
  - assert (L : length iv = 12%nat) by (unfold zlen in Hl; lia); destruct (len12 iv L) as (a0 & a1 & a2 & a3 & a4 & a5 & a6 & a7 & a8 & a9 & a10 & a11 & ->).
    cbn [Z.eqb Pos.eqb].
    rewrite blit_ok by (cbn; lia); cbn [Z.to_nat Pos.to_nat Pos.iter_op length firstn skipn app repeat plus bind].
    rewrite Hx by reflexivity; cbn [bind]; cbn -[Z.lxor Z.land Z.shiftr]; reflexivity.
  - assert (L : length iv = 16%nat) by (unfold zlen in Hl; lia).
    cbn [Z.eqb Pos.eqb]; rewrite (firstn_skipn 12 iv), blit_ok by (rewrite ?Hl; cbn; lia); change (Z.to_nat 0) with 0%nat; rewrite firstn_O; cbn [app bind plus].
    rewrite skipn_all2 by (rewrite L, repeat_length; lia); rewrite app_nil_r, Hx by exact L; reflexivity.
Qed.
Lemma with_counter_block j m : block j -> block (with_counter j m).
Proof.
  intros [L B]; unfold with_counter; split.
  - rewrite !app_length, xorl_length, !firstn_length, !skipn_length, be_bytes_length, L; reflexivity.
  - rewrite !bytes_app; repeat split; [apply bytes_firstn | apply bytes_xorl; [apply bytes_firstn, bytes_skipn | apply be_bytes_bytes] | apply bytes_skipn]; exact B.
Qed.

(** * Whole messages *)
Lemma be_val_xorl a b : block a -> block b -> be_val (xorl a b) = Z.lxor (be_val a) (be_val b).
Proof.
  intros [La Ba] [Lb Bb].
  enough (H : forall a b, length a = length b -> bytes a -> bytes b -> be_val (xorl a b) = Z.lxor (be_val a) (be_val b)).
  { apply H; try assumption; congruence. }
  clear; intros a b L Ba Bb; revert b L Bb; induction a as [|x a IH] using rev_ind; intros b L Bb.
  - destruct b; [reflexivity | discriminate L].
  - destruct b as [|y b _] using rev_ind; [rewrite app_length in L; cbn [length] in L; lia|].
    rewrite !app_length in L; cbn [length] in L; apply bytes_app in Ba, Bb; destruct Ba as [Ba Hx], Bb as [Bb Hy].
    apply bytes_cons in Hx, Hy; destruct Hx as [Hx _], Hy as [Hy _].
    rewrite xorl_app by lia; cbn [xorl map2]; rewrite !be_val_app; change (zlen [?z]) with 1; change (256 ^ 1) with (2 ^ 8).
    rewrite IH by (assumption || lia); change (be_val [?z]) with z.
    pose proof (be_val_range a Ba); pose proof (be_val_range b Bb).
    pose proof (lxor_byte x y Hx Hy) as Hxy; unfold byte in *.
    assert (0 <= Z.lxor (be_val a) (be_val b)) by (apply Z.lxor_nonneg; lia).
    rewrite <- !lxor_disjoint_add by lia.
    rewrite <- !(Z.shiftl_mul_pow2 _ 8), Z.shiftl_lxor by lia; bxor.
Qed.
Lemma tag_ok E h c H C A : cipher E -> block c -> H = be_val (E (repeat 0 16)) -> h = reflect (le_val (E (repeat 0 16))) ->
  bytes C -> bytes A -> zlen C < 2 ^ 61 -> zlen A < 2 ^ 61 ->
  calculate_tag h (reflect (le_val (E c))) C A = Ok (GCTR E c (be_bytes 16 (GHASH H (ghash_input A C)))).
Proof.
  intros HE Bc -> -> BC BA LC LA.
  assert (Z0 : block (repeat 0 16)) by (split; [reflexivity | apply bytes_repeat; unfold byte; lia]).
  pose proof (mirror_block _ (HE _ Z0)) as MH.
  destruct (ghash_ok _ _ C A MH BC BA LC LA) as [Hg Rg]; unfold calculate_tag; rewrite Hg; cbn [bind]; f_equal.
  set (S := be_bytes 16 _); assert (BS : block S) by apply (store_bytes _ Rg).
  pose proof (mirror_lxor _ _ _ _ (mirror_block _ BS) (mirror_block _ (HE _ Bc))) as M.
  rewrite (mirror_store _ _ M), <- be_val_xorl by (try exact BS; apply HE; exact Bc).
  assert (BX : block (xorl S (E c))).
  { destruct BS as [LS BSb], (HE _ Bc) as [LE BE]; split; [rewrite xorl_length, LS, LE; reflexivity | apply bytes_xorl; assumption]. }
  destruct BX as [LX BX]; rewrite <- LX at 1; rewrite be_bytes_val by exact BX.
  unfold GCTR; rewrite <- (app_nil_r S) at 2; rewrite gctr_app by apply BS; cbn; rewrite app_nil_r; reflexivity.
Qed.
Definition J (iv : list Z) : list Z := firstn 12 iv ++ last_bytes iv.
Definition usable (E : list Z -> list Z) (g : gcm) : Prop :=
  g_h g = reflect (le_val (E (repeat 0 16))) /\ (zlen (g_iv g) = 12 \/ zlen (g_iv g) = 16) /\ bytes (g_iv g) /\ 0 <= g_count g < 2 ^ 64.
Lemma J_block iv : (zlen iv = 12 \/ zlen iv = 16) -> bytes iv -> block (J iv).
Proof.
  intros Hl B; unfold J, last_bytes; split.
  - rewrite app_length, firstn_length; destruct Hl as [Hl|Hl]; rewrite Hl; unfold zlen in Hl; cbn [Z.eqb Pos.eqb length]; rewrite ?skipn_length; lia.
  - apply bytes_app; split; [apply bytes_firstn; exact B|]; destruct (zlen iv =? 12); [apply bytesb_iff; reflexivity | apply bytes_skipn; exact B].
Qed.
Definition mblock (g : gcm) : list Z := with_counter (J (g_iv g)) (g_count g).
Lemma mblock_block E g : usable E g -> block (mblock g).
Proof. intros (_ & Hl & B & _); apply with_counter_block, J_block; assumption. Qed.
Definition next (g : gcm) : gcm := Gcm (g_h g) (g_iv g) (w64 (g_count g + 1)).
Lemma next_usable E g : usable E g -> usable E (next g).
Proof. intros (H & Hl & B & _); unfold usable, next; cbn [g_h g_iv g_count]; repeat split; try assumption; apply w64_range. Qed.
Lemma resize_prefix a b n : n = zlen a -> resize (a ++ b) n = a.
Proof.
  intros ->; unfold resize; rewrite zlen_to_nat, (firstn_app_exact a) by reflexivity.
  rewrite app_length; replace (length a - (length a + length b))%nat with 0%nat by lia; apply app_nil_r.
Qed.
Lemma chunks_nblocks (X : list Z) : length (chunks 16 X) = nblocks X.
Proof.
  remember (length X) as n eqn:En; revert X En; induction n as [n IH] using lt_wf_ind; intros X En.
  destruct (le_lt_dec 16 (length X)) as [G|G].
  - destruct (split_at 16 X G) as (p & r & -> & Lp); rewrite nblocks_app, chunks_app_full by (exact Lp || lia); cbn [length]; f_equal.
    apply (IH (length r)); [rewrite En, app_length; lia | reflexivity].
  - destruct X as [|x t]; [reflexivity|]; rewrite nblocks_short by (cbn [length] in *; lia).
    rewrite chunks_step, skipn_all2 by (cbn [length] in *; congruence || lia); reflexivity.
Qed.

Theorem Decrypt_ok E g C A tag : cipher E -> usable E g -> bytes C -> bytes A -> zlen C < 2 ^ 61 -> zlen A < 2 ^ 61 ->
  let H := be_val (E (repeat 0 16)) in
  Decrypt E g C A tag =
  Ok (GCTR E (inc32 (mblock g)) C, list_eqb (GCTR E (mblock g) (be_bytes 16 (GHASH H (ghash_input A C)))) tag, next g, mblock g :: counters (nblocks C) (mblock g)).
Proof.
  intros HE U BC BA LC LA H; pose proof (mblock_block E g U) as Bc; destruct U as (Uh & Hl & B & Um).
  unfold Decrypt; destruct (Z.ltb_spec (zlen (g_iv g)) 12); [lia|].
  rewrite first_ctr_ok by (assumption || lia); fold (J (g_iv g)); fold (mblock g); cbn [bind].
  fold (nblocks C).
  pose proof (zlen_nonneg C) as NC; pose proof (Z.div_pos (zlen C + 15) 16 ltac:(lia) ltac:(lia)).
  destruct (ctr_loop_ok E HE (nblocks C) [] C [] (repeat 0 (Z.to_nat (16 * ((zlen C + 15) / 16)))) 0 (mblock g) [mblock g]) as [junk Ej];
    [exact Bc | exact BC | reflexivity | reflexivity | reflexivity | rewrite repeat_length; unfold nblocks; lia |].
  cbn [app] in Ej; rewrite Ej; cbn [bind]; fold (GCTR E (inc32 (mblock g)) C).
  rewrite resize_prefix by (unfold zlen, GCTR; rewrite gctr_length; [reflexivity | exact HE | apply inc32_block; exact Bc]).
  rewrite (tag_ok E (g_h g) (mblock g) H C A HE Bc eq_refl Uh BC BA LC LA); cbn [bind].
  destruct (Z.leb_spec 8 (zlen (g_iv g))); [|lia]; reflexivity.
Qed.
Lemma nblocks_full X k : length X = (16 * k)%nat -> nblocks X = k.
Proof. intros L; unfold nblocks, zlen; rewrite L; replace (Z.of_nat (16 * k) + 15) with (Z.of_nat k * 16 + 15) by lia; rewrite Z.div_add_l by lia; change (15 / 16) with 0; lia. Qed.
Lemma gctr_blocks_app E ps : forall C X, (exists k, length ps = (16 * k)%nat) -> gctr_blocks E C (chunks 16 (ps ++ X)) = gctr_blocks E C (chunks 16 ps) ++ gctr_blocks E (incs (nblocks ps) C) (chunks 16 X).
Proof.
  remember (length ps) as n eqn:En; revert ps En; induction n as [n IH] using lt_wf_ind; intros ps En C X [k Hk].
  destruct k as [|k]; [destruct ps; [reflexivity | cbn [length] in En; lia]|].
  destruct (split_at 16 ps ltac:(lia)) as (p & r & -> & Lp); rewrite app_length in En.
  rewrite <- app_assoc, (gctr_app E p C (r ++ X)), (gctr_app E p C r), nblocks_app by exact Lp; cbn [incs].
  rewrite (IH (length r) ltac:(lia) r eq_refl) by (exists k; lia); apply app_assoc.
Qed.
Theorem Encrypt_ok E g P A : cipher E -> usable E g -> bytes P -> bytes A -> zlen P < 2 ^ 61 -> zlen A < 2 ^ 61 ->
  let H := be_val (E (repeat 0 16)) in
  let C := GCTR E (inc32 (mblock g)) P in
  Encrypt E g P A =
  Ok (C, GCTR E (mblock g) (be_bytes 16 (GHASH H (ghash_input A C))), next g, mblock g :: counters (nblocks P) (mblock g)).
Proof.
  intros HE U BP BA LP LA H C; pose proof (mblock_block E g U) as Bc; destruct U as (Uh & Hl & B & Um).
  assert (BC : bytes C) by (apply gctr_bytes; [exact HE | apply inc32_block; exact Bc | exact BP]).
  assert (LC : zlen C = zlen P) by (unfold zlen, C, GCTR; rewrite gctr_length; [reflexivity | exact HE | apply inc32_block; exact Bc]).
  unfold Encrypt; destruct (Z.ltb_spec (zlen (g_iv g)) 12); [lia|].
  rewrite first_ctr_ok by (assumption || lia); fold (J (g_iv g)); fold (mblock g); cbn [bind].
  set (c := mblock g) in *; set (nb := (zlen P + 15) / 16).
  pose proof (zlen_nonneg P) as NP; pose proof (Z.div_pos (zlen P + 15) 16 ltac:(lia) ltac:(lia)) as Nb; fold nb in Nb.
  pose proof (Z.div_mod (zlen P + 15) 16 ltac:(lia)) as DM; fold nb in DM; pose proof (Z.mod_pos_bound (zlen P + 15) 16 ltac:(lia)) as MB.
  set (full := if negb (zlen P =? nb * 16) then nb - 1 else nb).
  assert (F : full = zlen P / 16 /\ nb - full = (if zlen P =? nb * 16 then 0 else 1) /\ 0 <= full).
  { unfold full; destruct (Z.eqb_spec (zlen P) (nb * 16)) as [E1|E1]; cbn [negb].
    - repeat split; [rewrite E1, Z.div_mul by lia; reflexivity | lia | lia].
    - repeat split; [apply (Z.div_unique_pos _ 16 _ (zlen P - 16 * (nb - 1))); lia | lia |].
      destruct (Z.eq_dec nb 0); lia. }
  destruct F as (F1 & F2 & F3).
  pose proof (Z.div_mod (zlen P) 16 ltac:(lia)) as DM2; rewrite <- F1 in DM2; pose proof (Z.mod_pos_bound (zlen P) 16 ltac:(lia)) as MB2.
  destruct (split_at (16 * Z.to_nat full) P ltac:(unfold zlen in *; lia)) as (Pf & Pr & EP & LPf).
  assert (LPr : zlen Pr = zlen P mod 16) by (rewrite EP in DM2 |- *; rewrite zlen_app in *; unfold zlen in *; lia).
  assert (BPf : bytes Pf /\ bytes Pr) by (apply bytes_app; rewrite <- EP; exact BP); destruct BPf as [BPf BPr].
  destruct (split_at (16 * Z.to_nat full) (repeat 0 (Z.to_nat (16 * nb))) ltac:(rewrite repeat_length; lia)) as (Of & Or & EO & LOf).
  assert (LOr : length Or = (16 * Z.to_nat (nb - full))%nat).
  { apply (f_equal (@length Z)) in EO; rewrite repeat_length, app_length in EO; destruct (zlen P =? nb * 16); lia. }
  rewrite EP, EO at 1.
  pose proof (full_loop_ok E (Z.to_nat full) HE [] Pf Pr [] Of Or 0 c [c] Bc BPf eq_refl eq_refl LPf LOf) as Fl; cbn [app] in Fl.
  rewrite Fl; cbn [bind]; clear Fl.
  set (Cf := gctr_blocks E (inc32 c) (chunks 16 Pf)).
  assert (LCf : length Cf = (16 * Z.to_nat full)%nat) by (unfold Cf; rewrite gctr_length; [exact LPf | exact HE | apply inc32_block; exact Bc]).
  assert (EC : C = Cf ++ gctr_blocks E (inc32 (incs (Z.to_nat full) c)) (chunks 16 Pr)).
  { unfold C, GCTR; rewrite EP, gctr_blocks_app by (exists (Z.to_nat full); exact LPf); rewrite (nblocks_full _ _ LPf); do 2 f_equal; apply incs_inc. }
  assert (NB : nblocks P = (Z.to_nat full + Z.to_nat (nb - full))%nat) by (unfold nblocks; fold nb; destruct (zlen P =? nb * 16); lia).
  assert (L2 : ctr_loop E true P (Z.to_nat (nb - full)) full (incs (Z.to_nat full) c) (Cf ++ Or) ([c] ++ counters (Z.to_nat full) c) =
               Ok (C, c :: counters (nblocks P) c)).
  { rewrite NB, counters_app, EC; cbn [app].
    destruct (Z.eqb_spec (zlen P) (nb * 16)) as [E1|E1].
    - rewrite F2 in LOr |- *; destruct Or; [|discriminate LOr]; assert (Pr = []) as -> by (destruct Pr; [reflexivity | unfold zlen in *; cbn [length] in *; lia]).
      cbn [Z.to_nat ctr_loop counters chunks chunks_fuel length gctr_blocks]; rewrite !app_nil_r; reflexivity.
    - rewrite F2 in LOr |- *; change (Z.to_nat 1) with 1%nat in LOr |- *; cbn [ctr_loop].
      assert (Bi : block (incs (Z.to_nat full) c)) by (apply incs_block; exact Bc).
      rewrite ctr_inc_ok by exact Bi; cbn [bind].
      set (c2 := inc32 (incs (Z.to_nat full) c)); assert (Bc2 : block c2) by (apply inc32_block; exact Bi).
      pose proof (store_step E Pf Pr [] Cf Or [] full c2 HE Bc2 ltac:(unfold zlen; lia) ltac:(unfold zlen; lia) LOr ltac:(unfold zlen in *; lia) ltac:(reflexivity)) as SS.
      cbv zeta in SS; rewrite !app_nil_r, <- EP in SS; rewrite <- bind_assoc, SS; cbn [bind counters]; fold c2.
      assert (NE : Pr <> []) by (intros ->; rewrite zlen_nil in LPr; lia).
      rewrite chunks_step, firstn_all2, (@skipn_all2 _ 16 Pr) by (exact NE || (unfold zlen in *; lia)); cbn [gctr_blocks chunks chunks_fuel length]; rewrite app_nil_r.
      pose proof (HE _ Bc2) as [LE2 _].
      rewrite app_assoc, resize_prefix; [reflexivity|]; rewrite zlen_app; unfold zlen in *; rewrite xorl_length, LE2; lia. }
  change (c :: counters (Z.to_nat full) c) with ([c] ++ counters (Z.to_nat full) c); rewrite L2; cbn [bind].
  rewrite (tag_ok E (g_h g) c H C A HE Bc eq_refl Uh BC BA ltac:(lia) LA); reflexivity.
Qed.
