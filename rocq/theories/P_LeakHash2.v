From Coq Require Import String.
From Verif Require Import Base BaseP S_Hash M_MD M_MD5 M_SHA1 M_SHA3 M_Hash M_Leak P_Leak M_LeakHash P_LeakHash M_LeakHash2.
Open Scope Z_scope.
Open Scope list_scope.

(** ** processChunk of MD5 *)
Definition md5_g (i : nat) : nat :=
  (if Nat.ltb i 16 then i else if Nat.ltb i 32 then Nat.modulo (5 * i + 1) 16 else if Nat.ltb i 48 then Nat.modulo (3 * i + 5) 16 else Nat.modulo (7 * i) 16)%nat.
Definition md5_choices (i : nat) : list event :=
  if Nat.ltb i 16 then [Choose 103 true] else if Nat.ltb i 32 then [Choose 103 false; Choose 106 true]
  else [Choose 103 false; Choose 106 false; Choose 109 (Nat.ltb i 48)].
Definition md5_record (i : nat) : list event :=
  md5_choices i ++ map (fun t => At (Z.of_nat t)) [4 * md5_g i; 4 * md5_g i + 1; 4 * md5_g i + 2; 4 * md5_g i + 3; i; i]%nat.
Lemma md5_g_small i : (md5_g i < 16)%nat.
Proof. unfold md5_g. destruct (Nat.ltb i 16) eqn:E; [apply Nat.ltb_lt in E; exact E|]. destruct (Nat.ltb i 32); [apply Nat.mod_upper_bound; lia|]. destruct (Nat.ltb i 48); apply Nat.mod_upper_bound; lia. Qed.
Lemma md5_round_value chunk st i : List.length chunk = 64%nat -> (i < 64)%nat -> md5_round_t chunk st i = (md5_record i, Ok (md5_round chunk st i)).
Proof.
  intros L H. destruct st as [[[a b] c] d]. pose proof (md5_g_small i) as G. assert (LK : List.length md5_K = 64%nat) by reflexivity. assert (LS : List.length md5_s = 64%nat) by reflexivity.
  unfold md5_round_t, md5_round, md5_record, md5_choices. unfold md5_g in *.
  destruct (Nat.ltb i 16) eqn:E1; [|destruct (Nat.ltb i 32) eqn:E2; [|destruct (Nat.ltb i 48) eqn:E3]].
  - set (g := i) in * at 1 2 3 4. rewrite Nat.add_0_r. change (choose 103 true true false) with (@emit bool [Choose 103 true] true).
    eapply tbind_ok; [reflexivity|]. cbv beta iota. eapply (tbind_ok _ []); [reflexivity|]. cbv beta iota. reads.
  - set (g := Nat.modulo (5 * i + 1) 16) in *. rewrite Nat.add_0_r. eapply (tbind_ok _ [Choose 103 false] false); [reflexivity|]. cbv beta iota.
    eapply (tbind_ok _ [Choose 106 true]); [reflexivity|]. cbv beta iota. reads.
  - set (g := Nat.modulo (3 * i + 5) 16) in *. rewrite Nat.add_0_r. eapply (tbind_ok _ [Choose 103 false] false); [reflexivity|]. cbv beta iota.
    eapply (tbind_ok _ [Choose 106 false; Choose 109 true]); [reflexivity|]. cbv beta iota. reads.
  - set (g := Nat.modulo (7 * i) 16) in *. rewrite Nat.add_0_r. eapply (tbind_ok _ [Choose 103 false] false); [reflexivity|]. cbv beta iota.
    eapply (tbind_ok _ [Choose 106 false; Choose 109 false]); [reflexivity|]. cbv beta iota. reads.
Qed.
Definition md5_chunk_record : list event := loop_record md5_record (seq 0 64) ++ [].
Lemma pc_md5 chunk w : zlen chunk = 64 -> List.length w = 4%nat -> md5_chunk_t chunk w = (md5_chunk_record, Ok (md5_processChunk chunk w)) /\ List.length (md5_processChunk chunk w) = 4%nat.
Proof.
  intros L H. destruct w as [|w0 [|w1 [|w2 [|w3 [|x w]]]]]; try discriminate H. assert (LC : List.length chunk = 64%nat) by (unfold zlen in L; lia). split.
  - destruct (for_value (md5_round_t chunk) (md5_round chunk) md5_record (fun _ _ => True) 0 64) with (n := 64%nat) (t0 := 0%nat) (s := (w0, w1, w2, w3)) as [E _]; [| lia | lia | exact I |].
    { intros s t Ht _. split; [apply md5_round_value; [exact LC | lia] | exact I]. }
    unfold md5_chunk_t, md5_chunk_record, md5_processChunk. apply (tbind_ok _ _ _ _ _ _ E). destruct (fold_left _ _ _) as [[[a b] c] d]. reflexivity.
  - unfold md5_processChunk. destruct (fold_left _ _ _) as [[[a b] c] d]. reflexivity.
Qed.

(** ** processChunk of SHA-1 *)
Definition sha1_fill_record (n : nat) : list event := loop_record (fun i => [At (Z.of_nat (4 * n + i))]) (seq 0 4) ++ [At (Z.of_nat n)].
Definition sha1_extend_record (i : nat) : list event := map (fun t => At (Z.of_nat t)) [i - 3; i - 8; i - 14; i - 16; i]%nat.
Definition one (i : nat) : list event := [At (Z.of_nat i)].
Definition sha1_chunk_record : list event :=
  loop_record sha1_fill_record (seq 0 16) ++ loop_record sha1_extend_record (seq 16 64) ++
  loop_record one (seq 0 20) ++ loop_record one (seq 20 20) ++ loop_record one (seq 40 20) ++ loop_record one (seq 60 20) ++ [].
Lemma snoc_length (W : list Z) x t : has_length t W -> has_length (S t) (W ++ [x]).
Proof. unfold has_length. rewrite app_length. cbn [List.length]. lia. Qed.
Lemma sha1_fill_value chunk w n : List.length chunk = 64%nat -> (n < 16)%nat -> sha1_fill_t chunk w n = (sha1_fill_record n, Ok (w ++ [sha1_word chunk n])).
Proof.
  intros L H. destruct (for_value (fun v i => see c <- at_t chunk (4 * n + i); ret (w32 (Z.lor (w32 (Z.shiftl v 8)) c))) (fun v i => w32 (Z.lor (w32 (Z.shiftl v 8)) (nth (4 * n + i) chunk 0)))
    (fun i => [At (Z.of_nat (4 * n + i))]) (fun _ _ => True) 0 4) with (n := 4%nat) (t0 := 0%nat) (s := 0) as [E _]; [| lia | lia | exact I |].
  - intros s t Ht _. split; [|exact I]. apply (tbind_ok _ _ _ _ _ _ (at_value chunk (4 * n + t) ltac:(lia))). reflexivity.
  - unfold sha1_fill_t, sha1_fill_record, sha1_word. change [0; 1; 2; 3]%nat with (seq 0 4). set (v := fold_left _ (seq 0 4) 0) in *. clearbody v. apply (tbind_ok _ _ _ _ _ _ E). reflexivity.
Qed.
Lemma sha1_rounds_value f k w : List.length w = 80%nat -> forall lo s, (lo + 20 <= 80)%nat ->
  for_t (sha1_round_t f k w) (seq lo 20) s = (loop_record one (seq lo 20), Ok (fold_left (sha1_round f k w) (seq lo 20) s)).
Proof.
  intros L lo s H. destruct (for_value (sha1_round_t f k w) (sha1_round f k w) one (fun _ _ => True) lo 80) with (n := 20%nat) (t0 := lo) (s := s) as [E _]; [| lia | lia | exact I | exact E].
  intros [[[[a b] c] d] e] t Ht _. split; [|exact I]. unfold sha1_round_t, sha1_round, one. apply (tbind_ok _ _ _ _ _ _ (at_value w t ltac:(lia))). reflexivity.
Qed.
Lemma pc_sha1 chunk w : zlen chunk = 64 -> List.length w = 5%nat -> sha1_chunk_t chunk w = (sha1_chunk_record, Ok (sha1_processChunk chunk w)) /\ List.length (sha1_processChunk chunk w) = 5%nat.
Proof.
  intros L H. destruct w as [|w0 [|w1 [|w2 [|w3 [|w4 [|x w]]]]]]; try discriminate H. assert (LC : List.length chunk = 64%nat) by (unfold zlen in L; lia). split.
  - destruct (for_value (sha1_fill_t chunk) (fun W t => W ++ [sha1_word chunk t]) sha1_fill_record has_length 0 16) with (n := 16%nat) (t0 := 0%nat) (s := @nil Z) as [E1 H1]; [| lia | lia | reflexivity |].
    { intros W t Ht Hs. split; [apply sha1_fill_value; [exact LC | lia] | apply snoc_length; exact Hs]. }
    rewrite fold_snoc in E1, H1. cbn [app Nat.add] in E1, H1.
    destruct (for_value sha1_extend_t (fun w i => w ++ [sha1_rotate (Z.lxor (Z.lxor (Z.lxor (nth (i - 3) w 0) (nth (i - 8) w 0)) (nth (i - 14) w 0)) (nth (i - 16) w 0)) 1])
      sha1_extend_record has_length 16 80) with (n := 64%nat) (t0 := 16%nat) (s := map (sha1_word chunk) (seq 0 16)) as [E2 H2]; [| lia | lia | exact H1 |].
    { intros W t Ht Hs. split; [unfold sha1_extend_t; unfold has_length in Hs; reads | apply snoc_length; exact Hs]. }
    assert (EX : fold_left (fun w i => w ++ [sha1_rotate (Z.lxor (Z.lxor (Z.lxor (nth (i - 3) w 0) (nth (i - 8) w 0)) (nth (i - 14) w 0)) (nth (i - 16) w 0)) 1]) (seq 16 64) (map (sha1_word chunk) (seq 0 16)) = sha1_w chunk) by (unfold sha1_w; reflexivity).
    rewrite EX in E2, H2. clear EX. assert (H3 : List.length (sha1_w chunk) = 80%nat) by exact H2. clear H2. rename H3 into H2.
    unfold sha1_chunk_t, sha1_chunk_record, sha1_processChunk. cbv zeta. apply (tbind_ok _ _ _ _ _ _ E1). apply (tbind_ok _ _ _ _ _ _ E2).
    apply (tbind_ok _ _ _ _ _ _ (sha1_rounds_value _ _ _ H2 0%nat _ ltac:(lia))). apply (tbind_ok _ _ _ _ _ _ (sha1_rounds_value _ _ _ H2 20%nat _ ltac:(lia))).
    apply (tbind_ok _ _ _ _ _ _ (sha1_rounds_value _ _ _ H2 40%nat _ ltac:(lia))). apply (tbind_ok _ _ _ _ _ _ (sha1_rounds_value _ _ _ H2 60%nat _ ltac:(lia))).
    destruct (fold_left _ (seq 60 20) _) as [[[[a b] c] d] e]. reflexivity.
  - unfold sha1_processChunk. cbv zeta. destruct (fold_left _ (seq 60 20) _) as [[[[a b] c] d] e]. reflexivity.
Qed.

(** ** add and data() of MD5 and SHA-1 *)
(** The lemmas of P_LeakHash with any number of words. *)
Section MD.
  Context (nw : nat) (B : Z) (pc : list Z -> list Z -> list Z) (pc_t : list Z -> list Z -> traced (list Z)) (rec : list event) (line : Z).
  Hypothesis B_pos : 0 < B < 2 ^ 32.
  Hypothesis pc_ok : forall chunk w, zlen chunk = B -> List.length w = nw -> pc_t chunk w = (rec, Ok (pc chunk w)) /\ List.length (pc chunk w) = nw.
  Definition cw2_ok (s s' : list Z * list Z) : Prop :=
    zlen (fst s) = B /\ zlen (fst s') = B /\ List.length (snd s) = nw /\ List.length (snd s') = nw.
  Definition st2_ok (s s' : hstate) : Prop := cw2_ok (h_chunk s, h_words s) (h_chunk s', h_words s') /\ h_len s = h_len s' /\ 0 <= h_len s.
  Lemma md_loop_both2 data data' : same_len data data' -> zlen data < 2 ^ 64 -> forall fuel chunk chunk' w w' ino,
    cw2_ok (chunk, w) (chunk', w') -> 0 <= ino <= zlen data -> zlen data - ino < Z.of_nat fuel ->
    both (md_loop_t B pc_t line fuel chunk w data ino) (md_loop_t B pc_t line fuel chunk' w' data' ino) (md_loop B pc fuel chunk w data ino) (md_loop B pc fuel chunk' w' data' ino) cw2_ok.
  Proof.
    intros SD DD. pose proof (same_zlen _ _ SD) as ZD. induction fuel as [|fuel IH]; intros chunk chunk' w w' ino OK R F; [lia|].
    cbn [md_loop_t md_loop]. rewrite <- ZD. destruct OK as (C1 & C2 & W1 & W2). cbn [fst snd] in *.
    assert (WW : w64 (zlen data - ino) = zlen data - ino) by (unfold w64; apply Z.mod_small; lia). rewrite WW.
    destruct (B <=? zlen data - ino) eqn:LB.
    - apply Z.leb_le in LB. destruct (copy_value chunk 0 data ino B) as (s1 & x1 & E1 & F1 & G1 & L1); try lia. destruct (copy_value chunk' 0 data' ino B) as (s2 & x2 & E2 & F2 & G2 & L2); try lia.
      rewrite E1, E2. cbn [bind]. rewrite F1, F2. cbn [bind].
      apply (both_step _ _ [Loop true] tt tt); [reflexivity | reflexivity|].
      apply (both_step _ _ _ _ _ _ _ _ _ _ G1 G2). assert (X1 : zlen x1 = B) by (unfold zlen in *; lia). assert (X2 : zlen x2 = B) by (unfold zlen in *; lia).
      destruct (pc_ok x1 w X1 W1) as [P1 Q1]. destruct (pc_ok x2 w' X2 W2) as [P2 Q2].
      apply (both_step _ _ _ _ _ _ _ _ _ _ P1 P2). apply IH; [repeat split; assumption | lia | lia].
    - apply Z.leb_gt in LB. apply (both_step _ _ [Loop false] tt tt); [reflexivity | reflexivity|].
      apply (both_step _ _ [Choose (line + 20) (zlen data - ino =? 0)] (zlen data - ino =? 0) (zlen data - ino =? 0)); [unfold choose, emit; destruct (_ =? _); reflexivity | unfold choose, emit; destruct (_ =? _); reflexivity|].
      destruct (zlen data - ino =? 0) eqn:E0; [apply both_ret; repeat split; assumption|].
      destruct (copy_value chunk 0 data ino (zlen data - ino)) as (s1 & x1 & E1 & F1 & G1 & L1); try lia. destruct (copy_value chunk' 0 data' ino (zlen data - ino)) as (s2 & x2 & E2 & F2 & G2 & L2); try lia.
      rewrite E1, E2. cbn [bind]. rewrite F1, F2. cbn [bind]. apply (both_step _ _ _ _ _ _ _ _ _ _ G1 G2). apply both_ret. unfold cw2_ok. cbn [fst snd]. unfold zlen in *. repeat split; (assumption || lia).
  Qed.
  Lemma md_add_both2 s s' data data' : st2_ok s s' -> same_len data data' -> zlen data < 2 ^ 64 ->
    both (md_add_t B pc_t line s data) (md_add_t B pc_t line s' data') (md_add B pc s data) (md_add B pc s' data') (fun a a' => st2_ok a a' /\ h_len a = w64 (h_len s + zlen data)).
  Proof.
    intros ((C1 & C2 & W1 & W2) & EL & LP) SD DD. pose proof (same_zlen _ _ SD) as ZD. cbn [fst snd] in *. unfold md_add_t, md_add. rewrite <- ZD, <- EL, <- SD.
    set (off := h_len s mod B). assert (RO : 0 <= off < B) by (apply Z.mod_pos_bound; lia). assert (LW : 0 <= w64 (h_len s + zlen data)) by (unfold w64; apply Z.mod_pos_bound; lia).
    assert (ZP : 0 <= zlen data) by (unfold zlen; lia).
    apply (both_step _ _ [Choose (line + 4) (negb (off =? 0))] (negb (off =? 0)) (negb (off =? 0))); [unfold choose, emit; destruct (negb _); reflexivity | unfold choose, emit; destruct (negb _); reflexivity|].
    destruct (negb (off =? 0)) eqn:E0.
    - assert (CN : Z.min (zlen data) (B - off) = if B - off <? zlen data then B - off else zlen data) by (destruct (B - off <? zlen data) eqn:E; lia).
      rewrite CN. set (copyNow := if B - off <? zlen data then B - off else zlen data) in *.
      apply (both_step _ _ [Choose (line + 5) (B - off <? zlen data)] copyNow copyNow); [reflexivity | reflexivity|].
      destruct (copy_value (h_chunk s) off data 0 copyNow) as (s1 & x1 & E1 & F1 & G1 & L1); try lia. destruct (copy_value (h_chunk s') off data' 0 copyNow) as (s2 & x2 & E2 & F2 & G2 & L2); try lia.
      rewrite E1, E2. cbn [bind]. rewrite F1, F2. cbn [bind]. apply (both_step _ _ _ _ _ _ _ _ _ _ G1 G2).
      apply (both_step _ _ [Choose (line + 9) (negb (off + copyNow =? B))] (negb (off + copyNow =? B)) (negb (off + copyNow =? B))); [unfold choose, emit; destruct (negb (_ =? B)); reflexivity | unfold choose, emit; destruct (negb (_ =? B)); reflexivity|].
      assert (X1 : zlen x1 = B) by (unfold zlen in *; lia). assert (X2 : zlen x2 = B) by (unfold zlen in *; lia).
      destruct (negb (off + copyNow =? B)); [apply both_ret; repeat split; assumption|].
      destruct (pc_ok x1 (h_words s) X1 W1) as [P1 Q1]. destruct (pc_ok x2 (h_words s') X2 W2) as [P2 Q2]. apply (both_step _ _ _ _ _ _ _ _ _ _ P1 P2).
      apply (both_bind _ _ _ _ _ _ _ _ cw2_ok).
      + apply md_loop_both2; [exact SD | exact DD | repeat split; assumption | lia | unfold zlen in *; lia].
      + intros a a' (A1 & A2 & A3 & A4). apply both_ret. repeat split; assumption.
    - apply (both_bind _ _ _ _ _ _ _ _ cw2_ok).
      + apply md_loop_both2; [exact SD | exact DD | repeat split; assumption | lia | unfold zlen in *; lia].
      + intros a a' (A1 & A2 & A3 & A4). apply both_ret. repeat split; assumption.
  Qed.
  Lemma msgsize_length2 n be len : List.length (msgsize n be len) = n.
  Proof. unfold msgsize. assert (H : forall len, List.length (msgsize_le n len) = n) by (induction n as [|n IH]; intros l; cbn [msgsize_le List.length]; [reflexivity | rewrite IH; reflexivity]). destruct be; rewrite ?rev_length; apply H. Qed.
End MD.
Lemma fold_app {A} (g : nat -> list A) : forall ts o, fold_left (fun out i => out ++ g i) ts o = o ++ flat_map g ts.
Proof. induction ts as [|t ts IH]; intros o; cbn [fold_left flat_map]; [rewrite app_nil_r; reflexivity | rewrite IH, <- app_assoc; reflexivity]. Qed.
Lemma flat_map_nth (g : Z -> list Z) w : flat_map (fun i => g (nth i w 0)) (seq 0 (List.length w)) = flat_map g w.
Proof.
  rewrite !flat_map_concat_map. f_equal. rewrite <- (map_map (fun i => nth i w 0) g). f_equal.
  induction w as [|x w IH]; [reflexivity|]. cbn [List.length seq map nth]. f_equal. rewrite <- seq_shift, map_map. exact IH.
Qed.
Section Digest.
  Context (nw : nat) (pc : list Z -> list Z -> list Z) (pc_t : list Z -> list Z -> traced (list Z)) (rec : list event) (line : Z).
  Hypothesis pc_ok : forall chunk w, zlen chunk = 64 -> List.length w = nw -> pc_t chunk w = (rec, Ok (pc chunk w)) /\ List.length (pc chunk w) = nw.
  Context (be : bool) (sizes : list event) (sh : nat -> Z).
  Let outw (v : Z) : list Z := map (fun j => Z.land (Z.shiftr v (sh j)) 0xFF) (seq 0 4).
  Lemma word_digest_both s s' : st2_ok nw 64 s s' ->
    both (word_digest_t pc_t line nw be sizes sh s) (word_digest_t pc_t line nw be sizes sh s')
      (do w <- md_final 64 pc 8 be s; Ok (flat_map outw w)) (do w <- md_final 64 pc 8 be s'; Ok (flat_map outw w))
      (fun a a' => List.length a = (4 * nw)%nat /\ List.length a' = (4 * nw)%nat).
  Proof.
    intros OK. pose proof OK as (CW & EL & LP). unfold word_digest_t, md_final. rewrite <- EL. change (Z.of_nat 8) with 8.
    set (pad := 64 - w64 (h_len s + 8) mod 64). assert (RP : 0 < pad <= 64) by (pose proof (Z.mod_pos_bound (w64 (h_len s + 8)) 64); unfold pad; lia).
    change (Z.to_nat 64) with 64%nat. set (zeroes := 128 :: repeat 0 64). assert (LZ : zlen zeroes = 65) by reflexivity.
    rewrite (slice_ok zeroes 0 pad) by lia. set (pads := firstn _ _). cbn [bind].
    assert (LPD : zlen pads = pad) by (unfold pads, zlen in *; rewrite firstn_length, skipn_length; lia). clearbody pads zeroes.
    apply (both_step _ _ [At pad] pads pads); [reflexivity | reflexivity|].
    pose proof (md_add_both2 nw 64 pc pc_t rec line ltac:(lia) pc_ok s s' pads pads OK eq_refl ltac:(lia)) as (T1 & a & a' & E1 & F1 & E1' & F1' & OK2 & _).
    rewrite F1, F1'. cbn [bind].
    apply (both_step _ _ (fst (md_add_t 64 pc_t line s pads)) a a'); [rewrite <- E1; destruct (md_add_t 64 pc_t line s pads); reflexivity | rewrite T1, <- E1'; destruct (md_add_t 64 pc_t line s' pads); reflexivity|].
    set (sz := msgsize 8 be (w64 (h_len s * 8))). assert (LS : zlen sz < 2 ^ 64) by (unfold zlen, sz; rewrite msgsize_length2; lia). clearbody sz.
    apply (both_step _ _ sizes sz sz); [reflexivity | reflexivity|].
    pose proof (md_add_both2 nw 64 pc pc_t rec line ltac:(lia) pc_ok a a' sz sz OK2 eq_refl LS) as (T2 & c & c' & E2 & F2 & E2' & F2' & ((_ & _ & H8 & H8') & _) & _). cbn [fst snd] in H8, H8'.
    rewrite F2, F2'. cbn [bind].
    apply (both_step _ _ (fst (md_add_t 64 pc_t line a sz)) c c'); [rewrite <- E2; destruct (md_add_t 64 pc_t line a sz); reflexivity | rewrite T2, <- E2'; destruct (md_add_t 64 pc_t line a' sz); reflexivity|].
    assert (Out : forall w, List.length w = nw ->
      for_t (fun out i => see v <- at_t w i; emit (passes 1 4 (Z.of_nat (4 * i))) (out ++ outw v)) (seq 0 nw) []
      = (loop_record (fun i => [At (Z.of_nat i)] ++ passes 1 4 (Z.of_nat (4 * i))) (seq 0 nw), Ok (flat_map outw w)) /\ List.length (flat_map outw w) = (4 * nw)%nat).
    { intros w Hw. destruct (for_value (fun out i => see v <- at_t w i; emit (passes 1 4 (Z.of_nat (4 * i))) (out ++ outw v)) (fun out i => out ++ outw (nth i w 0))
        (fun i => [At (Z.of_nat i)] ++ passes 1 4 (Z.of_nat (4 * i))) (fun i l => List.length l = (4 * i)%nat) 0 nw) with (n := nw) (t0 := 0%nat) (s := @nil Z) as [E L]; [|lia|lia|reflexivity|].
      - intros l t Ht Hl. split; [apply (tbind_ok _ _ _ _ _ _ (at_value w t ltac:(lia))); reflexivity|]. rewrite app_length, Hl. unfold outw. rewrite map_length, seq_length. lia.
      - rewrite (fold_app (fun i => outw (nth i w 0))) in E, L. assert (FM : flat_map (fun i => outw (nth i w 0)) (seq 0 nw) = flat_map outw w) by (rewrite <- Hw; apply flat_map_nth).
        rewrite FM in E, L. cbn [app Nat.add] in E, L. split; [exact E | exact L]. }
    destruct (Out (h_words c) H8) as [O1 O2]. destruct (Out (h_words c') H8') as [O3 O4]. unfold outw in O1, O3 at 1.
    split; [rewrite O1, O3; reflexivity|]. exists (flat_map outw (h_words c)), (flat_map outw (h_words c')). rewrite O1, O3. repeat split; assumption.
  Qed.
End Digest.

(** ** SHA-3 *)
Ltac run := cbv -[Z.lxor Z.land Z.lor Z.shiftl Z.shiftr w64 Z.sub Z.pow].
Lemma lanes (s : list Z) : List.length s = 25%nat -> exists a b c d e f g h i j k l m n o p q r t u v w x y z, s = [a; b; c; d; e; f; g; h; i; j; k; l; m; n; o; p; q; r; t; u; v; w; x; y; z].
Proof. intros H. do 25 (destruct s as [|? s]; [discriminate H|]). destruct s; [|discriminate H]. repeat eexists. Qed.
Definition zs : list Z := repeat 0 25.
Lemma theta_value s : List.length s = 25%nat -> theta_t s = (fst (theta_t zs), Ok (theta s)) /\ List.length (theta s) = 25%nat.
Proof. intros H. split; [|reflexivity]. destruct (lanes s H) as (a & b & c & d & e & f & g & h & i & j & k & l & m & n & o & p & q & r & t & u & v & w & x & y & z & ->). run. reflexivity. Qed.
Lemma rho_pi_value s : List.length s = 25%nat -> rho_pi_t s = (fst (rho_pi_t zs), Ok (rho_pi s)) /\ List.length (rho_pi s) = 25%nat.
Proof. intros H. destruct (lanes s H) as (a & b & c & d & e & f & g & h & i & j & k & l & m & n & o & p & q & r & t & u & v & w & x & y & z & ->). run. split; reflexivity. Qed.
Lemma chi_value s : List.length s = 25%nat -> chi_t s = (fst (chi_t zs), Ok (chi s)) /\ List.length (chi s) = 25%nat.
Proof. intros H. split; [|reflexivity]. destruct (lanes s H) as (a & b & c & d & e & f & g & h & i & j & k & l & m & n & o & p & q & r & t & u & v & w & x & y & z & ->). run. reflexivity. Qed.
Definition iota_record (round : nat) : list event := [At (Z.of_nat round); At 0; At 0].
Lemma iota_value s round : List.length s = 25%nat -> (round < 24)%nat -> iota_t s round = (iota_record round, Ok (iota s round)) /\ List.length (iota s round) = 25%nat.
Proof.
  intros H R. destruct s as [|x s]; [discriminate H|]. split.
  - unfold iota_t, iota_record, iota. assert (L : List.length sha3_RC = 24%nat) by reflexivity. apply (tbind_ok _ _ _ _ _ _ (at_value sha3_RC round ltac:(lia))).
    set (k := nth round sha3_RC 0). clearbody k. unfold xor_t. apply (tbind_ok _ _ _ _ _ _ (at_value (x :: s) 0 ltac:(cbn [List.length]; lia))). reflexivity.
  - unfold iota, upd. rewrite app_length. cbn [firstn skipn List.length]. cbn [List.length] in H. lia.
Qed.
Definition round_record (round : nat) : list event := fst (theta_t zs) ++ fst (rho_pi_t zs) ++ fst (chi_t zs) ++ iota_record round.
Definition sha3_chunk_record : list event := loop_record round_record (seq 0 24).
Lemma sha3_chunk_value s : List.length s = 25%nat -> sha3_chunk_t s = (sha3_chunk_record, Ok (sha3_processChunk s)) /\ List.length (sha3_processChunk s) = 25%nat.
Proof.
  intros H. unfold sha3_chunk_t, sha3_processChunk, sha3_chunk_record.
  apply (for_value _ (fun s round => iota (chi (rho_pi (theta s))) round) round_record (fun _ => has_length 25) 0 24) with (n := 24%nat) (t0 := 0%nat); [|lia|lia|exact H].
  intros x t Ht Hx. destruct (theta_value x Hx) as [E1 H1]. destruct (rho_pi_value (theta x) H1) as [E2 H2]. destruct (chi_value _ H2) as [E3 H3]. destruct (iota_value _ t H3 ltac:(lia)) as [E4 H4].
  split; [|exact H4]. unfold round_record. apply (tbind_ok _ _ _ _ _ _ E1). apply (tbind_ok _ _ _ _ _ _ E2). apply (tbind_ok _ _ _ _ _ _ E3). exact E4.
Qed.
Lemma get_value v i : 0 <= i < zlen v -> get_t v i = ([At i], Ok (nth (Z.to_nat i) v 0)) /\ getz v i = Ok (nth (Z.to_nat i) v 0).
Proof.
  intros H. unfold get_t. assert (E : getz v i = Ok (nth (Z.to_nat i) v 0)); [|rewrite E; split; reflexivity].
  unfold getz. replace (0 <=? i) with true by lia. rewrite (nth_error_nth' v 0); [reflexivity | unfold zlen in H; lia].
Qed.
Lemma set_value v i x : 0 <= i < zlen v -> exists w, set_t v i x = ([At i], Ok w) /\ setz v i x = Ok w /\ List.length w = List.length v.
Proof.
  intros H. unfold set_t, setz. replace ((0 <=? i) && (i <? zlen v)) with true by lia. eexists. split; [reflexivity|]. split; [reflexivity|].
  unfold upd, zlen in *. pose proof (skipn_length (Z.to_nat i) v) as SK. rewrite app_length, firstn_length. destruct (skipn (Z.to_nat i) v); cbn [List.length] in *; lia.
Qed.
Lemma sha3_xor_value s offset c : List.length s = 25%nat -> 0 <= offset < 200 -> exists s', sha3_xor_t s offset c = ([At (offset / 8); At (offset / 8)], Ok s') /\ sha3_xor s offset c = Ok s' /\ List.length s' = 25%nat.
Proof.
  intros L R. assert (I : 0 <= offset / 8 < zlen s) by (unfold zlen; rewrite L; split; [apply Z.div_pos; lia | apply Z.div_lt_upper_bound; lia]).
  unfold sha3_xor_t, sha3_xor. destruct (get_value s _ I) as [G1 G2]. rewrite G2. cbn [bind]. destruct (set_value s (offset / 8) (Z.lxor (nth (Z.to_nat (offset / 8)) s 0) (w64 (Z.shiftl c (offset mod 8 * 8)))) I) as (w & S1 & S2 & S3).
  exists w. split; [apply (tbind_ok _ _ _ _ _ _ G1 S1)|]. split; [exact S2 | lia].
Qed.
Lemma rates size : size = 224 \/ size = 256 \/ size = 384 \/ size = 512 -> 8 <= sha3_rate size <= 199 /\ 0 <= sha3_rate size / 8 - 1 < 25 /\ 0 <= size / 8 <= 64.
Proof. intros [-> | [-> | [-> | ->]]]; vm_compute; intuition discriminate. Qed.
Section Sponge.
  Context (size : Z).
  Hypothesis known : size = 224 \/ size = 256 \/ size = 384 \/ size = 512.
  Definition lanes_ok (s s' : list Z) : Prop := List.length s = 25%nat /\ List.length s' = 25%nat.
  Lemma absorb_both : forall data data', same_len data data' -> forall s s' offset, lanes_ok s s' -> 0 <= offset < sha3_rate size ->
    both (absorb_t sha3_chunk_t size s offset data) (absorb_t sha3_chunk_t size s' offset data') (sha3_loop size s offset data) (sha3_loop size s' offset data') lanes_ok.
  Proof.
    destruct (rates size known) as (R1 & R2 & _). unfold same_len. induction data as [|c data IH]; intros [|c' data'] SL s s' offset [L L'] R; cbn [List.length] in SL; try discriminate SL; cbn [absorb_t sha3_loop].
    - apply both_emit; [reflexivity | split; assumption].
    - apply (both_step _ _ [Loop true] tt tt); [reflexivity | reflexivity|].
      destruct (sha3_xor_value s offset c L ltac:(lia)) as (x & X1 & X2 & X3). destruct (sha3_xor_value s' offset c' L' ltac:(lia)) as (x' & X1' & X2' & X3').
      rewrite X2, X2'. cbn [bind]. apply (both_step _ _ _ _ _ _ _ _ _ _ X1 X1').
      apply (both_step _ _ [Choose 18 (offset + 1 =? sha3_rate size)] (offset + 1 =? sha3_rate size) (offset + 1 =? sha3_rate size)); [unfold choose, emit; destruct (_ =? _); reflexivity | unfold choose, emit; destruct (_ =? _); reflexivity|].
      destruct (offset + 1 =? sha3_rate size) eqn:E.
      + destruct (sha3_chunk_value x X3) as [C1 C2]. destruct (sha3_chunk_value x' X3') as [C1' C2']. apply (both_step _ _ _ _ _ _ _ _ _ _ C1 C1'). apply IH; [lia | split; assumption | lia].
      + apply IH; [lia | split; assumption | lia].
  Qed.
  Definition s3_ok (o o' : sha3state) : Prop := lanes_ok (s3_s o) (s3_s o') /\ s3_len o = s3_len o'.
  Lemma sha3_add_both o o' data data' : s3_ok o o' -> same_len data data' ->
    both (sha3_add_t size o data) (sha3_add_t size o' data') (sha3_add size o data) (sha3_add size o' data') s3_ok.
  Proof.
    destruct (rates size known) as (R1 & _). intros [L E] SL. unfold sha3_add_t, sha3_add. rewrite <- E, <- (same_zlen _ _ SL).
    eapply both_bind; [apply absorb_both; [exact SL | exact L | apply Z.mod_pos_bound; lia]|]. intros a a' OK. apply both_ret. split; [exact OK | reflexivity].
  Qed.
  Lemma sha3_digest_both o o' : s3_ok o o' ->
    both (sha3_digest_t size o) (sha3_digest_t size o') (sha3_digest size o) (sha3_digest size o') (fun d d' => zlen d = size / 8 /\ zlen d' = size / 8).
  Proof.
    destruct (rates size known) as (R1 & R2 & R3). intros [[L L'] E]. unfold sha3_digest_t, sha3_digest. rewrite <- E. set (off := s3_len o mod sha3_rate size). assert (RO : 0 <= off < sha3_rate size) by (apply Z.mod_pos_bound; lia).
    destruct (sha3_xor_value (s3_s o) off 6 L ltac:(lia)) as (x & X1 & X2 & X3). destruct (sha3_xor_value (s3_s o') off 6 L' ltac:(lia)) as (x' & X1' & X2' & X3').
    rewrite X2, X2'. cbn [bind]. apply (both_step _ _ _ _ _ _ _ _ _ _ X1 X1'). set (i := sha3_rate size / 8 - 1) in *.
    destruct (get_value x i ltac:(unfold zlen; lia)) as [G1 G2]. destruct (get_value x' i ltac:(unfold zlen; lia)) as [G1' G2']. rewrite G2, G2'. cbn [bind]. apply (both_step _ _ _ _ _ _ _ _ _ _ G1 G1').
    destruct (set_value x i (Z.lxor (nth (Z.to_nat i) x 0) 0x8000000000000000) ltac:(unfold zlen; lia)) as (y & Y1 & Y2 & Y3). destruct (set_value x' i (Z.lxor (nth (Z.to_nat i) x' 0) 0x8000000000000000) ltac:(unfold zlen; lia)) as (y' & Y1' & Y2' & Y3').
    rewrite Y2, Y2'. cbn [bind]. apply (both_step _ _ _ _ _ _ _ _ _ _ Y1 Y1').
    destruct (sha3_chunk_value y ltac:(lia)) as [C1 C2]. destruct (sha3_chunk_value y' ltac:(lia)) as [C1' C2']. apply (both_step _ _ _ _ _ _ _ _ _ _ C1 C1').
    set (z := sha3_processChunk y) in *. set (z' := sha3_processChunk y') in *. clearbody z z'. cbv zeta.
    assert (Out : forall v, List.length v = 25%nat ->
      for_t (fun rv n => see x <- at_t v (n / 8); emit [At (Z.of_nat n)] (rv ++ [w8 (Z.shiftr x (8 * Z.of_nat (n mod 8)))])) (seq 0 (Z.to_nat (size / 8))) []
      = (loop_record (fun n => [At (Z.of_nat (n / 8)); At (Z.of_nat n)]) (seq 0 (Z.to_nat (size / 8))), Ok (map (fun n => w8 (Z.shiftr (lane v (n / 8)) (8 * Z.of_nat (n mod 8)))) (seq 0 (Z.to_nat (size / 8)))))).
    { intros v Lv. destruct (for_value (fun rv n => see x <- at_t v (n / 8); emit [At (Z.of_nat n)] (rv ++ [w8 (Z.shiftr x (8 * Z.of_nat (n mod 8)))])) (fun rv n => rv ++ [w8 (Z.shiftr (lane v (n / 8)) (8 * Z.of_nat (n mod 8)))])
        (fun n => [At (Z.of_nat (n / 8)); At (Z.of_nat n)]) (fun _ _ => True) 0 64) with (n := Z.to_nat (size / 8)) (t0 := 0%nat) (s := @nil Z) as [F _]; [|lia|lia|exact I|].
      - intros l t Ht _. split; [|exact I]. assert (T8 : (t / 8 < List.length v)%nat) by (rewrite Lv; apply Nat.div_lt_upper_bound; lia). apply (tbind_ok _ _ _ _ _ _ (at_value v (t / 8) T8)). reflexivity.
      - rewrite fold_snoc in F. exact F. }
    split; [rewrite (Out z C2), (Out z' C2'); reflexivity|]. eexists _, _. rewrite (Out z C2), (Out z' C2'). cbn [snd]. do 4 (split; [reflexivity|]). split; unfold zlen; rewrite map_length, seq_length; lia.
  Qed.
End Sponge.

(** ** The six classes *)
Definition words_of (a : alg) : nat := match a with AMD5 => 4 | _ => 5 end.
Definition other_ok (a : alg) (o o' : hobj) : Prop :=
  match a with
  | AMD5 | ASHA1 => exists s s', o = OMD s /\ o' = OMD s' /\ st2_ok (words_of a) 64 s s'
  | _ => exists s s', o = OS3 s /\ o' = OS3 s' /\ s3_ok s s'
  end.
Lemma other_new_ok a g g' : sha2 a = false -> List.length g = buflen a -> List.length g' = buflen a -> other_ok a (h_new a g) (h_new a g').
Proof.
  intros SA L L'. destruct a; try discriminate SA; (eexists _, _; split; [reflexivity|]; split; [reflexivity|]); cbn [buflen] in L, L'; unfold st2_ok, cw2_ok, s3_ok, lanes_ok, zlen; cbn; rewrite ?L, ?L'; repeat split; lia.
Qed.
Lemma sizes_known a : sha3_size_of a = 224 \/ sha3_size_of a = 256 \/ sha3_size_of a = 384 \/ sha3_size_of a = 512.
Proof. destruct a; cbn [sha3_size_of]; auto. Qed.
Lemma other_add_both a o o' d d' : sha2 a = false -> other_ok a o o' -> same_len d d' -> zlen d < 2 ^ 64 ->
  both (other_add_t a o d) (other_add_t a o' d') (h_add a o d) (h_add a o' d') (other_ok a).
Proof.
  intros SA OK SD DD. destruct a; try discriminate SA; destruct OK as (s & s' & -> & -> & OK); unfold other_add_t, h_add.
  - eapply both_bind; [apply (md_add_both2 4 64 _ _ _ 39 ltac:(lia) pc_md5 _ _ _ _ OK SD DD)|]. cbv beta. intros x x' [OKx _]. apply both_ret. exists x, x'. auto.
  - eapply both_bind; [apply (md_add_both2 5 64 _ _ _ 14 ltac:(lia) pc_sha1 _ _ _ _ OK SD DD)|]. cbv beta. intros x x' [OKx _]. apply both_ret. exists x, x'. auto.
  - eapply both_bind; [apply sha3_add_both; [apply sizes_known | exact OK | exact SD]|]. intros x x' OKx. apply both_ret. exists x, x'. auto.
  - eapply both_bind; [apply sha3_add_both; [apply sizes_known | exact OK | exact SD]|]. intros x x' OKx. apply both_ret. exists x, x'. auto.
  - eapply both_bind; [apply sha3_add_both; [apply sizes_known | exact OK | exact SD]|]. intros x x' OKx. apply both_ret. exists x, x'. auto.
  - eapply both_bind; [apply sha3_add_both; [apply sizes_known | exact OK | exact SD]|]. intros x x' OKx. apply both_ret. exists x, x'. auto.
Qed.
Lemma other_adds_both a : sha2 a = false -> forall args args', Forall2 same_len args args' -> Forall (fun d => zlen d < 2 ^ 64) args -> forall o o', other_ok a o o' ->
  both (other_adds_t a o args) (other_adds_t a o' args') (h_adds a o args) (h_adds a o' args') (other_ok a).
Proof.
  intros SA. induction 1 as [|d d' args args' SD _ IH]; intros FA o o' OK; cbn [other_adds_t h_adds]; [apply both_ret; exact OK|].
  inversion FA as [|x y DD FA']; subst. eapply both_bind; [apply other_add_both; eassumption|]. intros x x' OKx. apply IH; assumption.
Qed.
Lemma other_digest_both a o o' : sha2 a = false -> other_ok a o o' -> both (other_digest_t a o) (other_digest_t a o') (h_digest a o) (h_digest a o') (digests a).
Proof.
  intros SA OK. destruct a; try discriminate SA; destruct OK as (s & s' & -> & -> & OK); unfold other_digest_t, h_digest.
  - apply (both_weaken _ _ _ _ _ _ (word_digest_both 4 md5_processChunk md5_chunk_t _ 39 pc_md5 false (passes 1 8 0) (fun j => 8 * Z.of_nat j) s s' OK)). intros x x' [H H']. split; cbn [h_size]; unfold zlen; lia.
  - apply (both_weaken _ _ _ _ _ _ (word_digest_both 5 sha1_processChunk sha1_chunk_t _ 14 pc_sha1 true (down 8) (fun j => 8 * 4 - 8 - 8 * Z.of_nat j) s s' OK)). intros x x' [H H']. split; cbn [h_size]; unfold zlen; lia.
  - apply sha3_digest_both; [apply sizes_known | exact OK].
  - apply sha3_digest_both; [apply sizes_known | exact OK].
  - apply sha3_digest_both; [apply sizes_known | exact OK].
  - apply sha3_digest_both; [apply sizes_known | exact OK].
Qed.
Lemma other_hash_both a g g' args args' : sha2 a = false -> List.length g = buflen a -> List.length g' = buflen a -> Forall2 same_len args args' -> Forall (fun d => zlen d < 2 ^ 64) args ->
  both (other_hash_t a g args) (other_hash_t a g' args') (h_hash a g args) (h_hash a g' args') (digests a).
Proof.
  intros SA L L' F FA. eapply both_bind; [apply other_adds_both; [exact SA | exact F | exact FA | apply other_new_ok; assumption]|]. intros o o' OK. apply other_digest_both; assumption.
Qed.
