(** Proofs about the RSA code. *)
From Coq Require Import Znumtheory.
From Verif Require Import Base BaseP S_Hash M_Hash P_Hash M_HKDF P_HKDF S_Bignum M_Bignum P_Bignum Prop_Bignum M_Mont P_Mont P_Fermat S_RSA M_RSA.
Open Scope Z_scope.

(** ** MGF1 *)
Lemma bump_ok pre b post : bump (pre ++ b :: post) (zlen pre) = Ok (pre ++ w8 (b + 1) :: post, w8 (b + 1) =? 0).
Proof.
  unfold bump. pose proof (zlen_nonneg pre). rewrite (getz_nth _ _ 0) by (rewrite zlen_app, zlen_cons; pose proof (zlen_nonneg post); lia).
  rewrite zlen_to_nat, nth_middle; cbn [bind]. rewrite setz_ok by (rewrite zlen_app, zlen_cons; pose proof (zlen_nonneg post); lia).
  cbn [bind]. rewrite zlen_to_nat. unfold upd. rewrite firstn_app, firstn_all, Nat.sub_diag, firstn_O, app_nil_r.
  rewrite skipn_app, skipn_all, Nat.sub_diag, skipn_O; reflexivity.
Qed.
Lemma le4_val i : 0 <= i < 2 ^ 32 -> exists b0 b1 b2 b3, byte b0 /\ byte b1 /\ byte b2 /\ byte b3 /\ i = le_val [b0; b1; b2; b3].
Proof.
  intros H. pose proof (le_val_bytes 4 i ltac:(exact H)) as E. pose proof (le_bytes_bytes 4 i) as Bb. cbn [le_bytes] in *.
  repeat rewrite bytes_cons in Bb. destruct Bb as (A0 & A1 & A2 & A3 & _). eexists _, _, _, _. split; [exact A0|split; [exact A1|split; [exact A2|split; [exact A3|symmetry; exact E]]]].
Qed.
Lemma le4_bytes b0 b1 b2 b3 i : byte b0 -> byte b1 -> byte b2 -> byte b3 -> i = le_val [b0; b1; b2; b3] -> be_bytes 4 i = [b3; b2; b1; b0].
Proof.
  intros A0 A1 A2 A3 ->. unfold be_bytes. change 4%nat with (length [b0; b1; b2; b3]). rewrite le_bytes_val; [reflexivity|].
  repeat (apply bytes_cons; split; [assumption|]); constructor.
Qed.
Lemma w8_inc b : byte b -> (w8 (b + 1) = b + 1 /\ b < 255) \/ (w8 (b + 1) = 0 /\ b = 255).
Proof. unfold byte, w8; intros H. destruct (Z.eq_dec b 255) as [->|C]; [right; split; reflexivity | left; split; [apply Z.mod_small; lia | lia]]. Qed.
Lemma inc_counter_ok seed i : 0 <= i < 2 ^ 32 - 1 -> inc_counter (seed ++ be_bytes 4 i) = Ok (seed ++ be_bytes 4 (i + 1)).
Proof.
  intros H. destruct (le4_val i ltac:(lia)) as (b0 & b1 & b2 & b3 & A0 & A1 & A2 & A3 & E). rewrite (le4_bytes b0 b1 b2 b3 i) by assumption.
  unfold inc_counter. rewrite zlen_app. change (zlen [b3; b2; b1; b0]) with 4.
  replace (zlen seed + 4 - 1) with (zlen (seed ++ [b3; b2; b1])) by (rewrite zlen_app; change (zlen [b3; b2; b1]) with 3; lia).
  replace (seed ++ [b3; b2; b1; b0]) with ((seed ++ [b3; b2; b1]) ++ [b0]) by (rewrite <- app_assoc; reflexivity).
  rewrite bump_ok; cbn [bind]. cbn [le_val] in E.
  destruct (w8_inc b0 A0) as [[W0 L0]|[W0 L0]]; rewrite W0.
  { replace (b0 + 1 =? 0) with false by (unfold byte in *; lia). cbn [negb]. f_equal. rewrite <- app_assoc; f_equal. symmetry; apply le4_bytes; try assumption; unfold byte in *; cbn [le_val]; lia. }
  cbn [Z.eqb negb]. replace (zlen seed + 4 - 2) with (zlen (seed ++ [b3; b2])) by (rewrite zlen_app; change (zlen [b3; b2]) with 2; lia).
  replace ((seed ++ [b3; b2; b1]) ++ [0]) with ((seed ++ [b3; b2]) ++ b1 :: [0]) by (rewrite <- !app_assoc; reflexivity).
  rewrite bump_ok; cbn [bind].
  destruct (w8_inc b1 A1) as [[W1 L1]|[W1 L1]]; rewrite W1.
  { replace (b1 + 1 =? 0) with false by (unfold byte in *; lia). cbn [negb]. f_equal. rewrite <- app_assoc; f_equal. symmetry; apply le4_bytes; try assumption; unfold byte in *; cbn [le_val]; lia. }
  cbn [Z.eqb negb]. replace (zlen seed + 4 - 3) with (zlen (seed ++ [b3])) by (rewrite zlen_app; change (zlen [b3]) with 1; lia).
  replace ((seed ++ [b3; b2]) ++ [0; 0]) with ((seed ++ [b3]) ++ b2 :: [0; 0]) by (rewrite <- !app_assoc; reflexivity).
  rewrite bump_ok; cbn [bind].
  destruct (w8_inc b2 A2) as [[W2 L2]|[W2 L2]]; rewrite W2.
  { replace (b2 + 1 =? 0) with false by (unfold byte in *; lia). cbn [negb]. f_equal. rewrite <- app_assoc; f_equal. symmetry; apply le4_bytes; try assumption; unfold byte in *; cbn [le_val]; lia. }
  cbn [Z.eqb negb]. replace (zlen seed + 4 - 4) with (zlen seed) by lia.
  replace ((seed ++ [b3]) ++ [0; 0; 0]) with (seed ++ b3 :: [0; 0; 0]) by (rewrite <- !app_assoc; reflexivity).
  rewrite bump_ok; cbn [bind].
  destruct (w8_inc b3 A3) as [[W3 L3]|[W3 L3]]; rewrite W3; [|unfold byte in *; lia].
  f_equal; f_equal. symmetry; apply le4_bytes; try assumption; unfold byte in *; cbn [le_val]; lia.
Qed.

(** The concatenation of the first [n] hash values. *)
Definition mcat (a : alg) (seed : list Z) (n : nat) : list Z := flat_map (fun i => spec_hash a (seed ++ be_bytes 4 (Z.of_nat i))) (seq 0 n).
Lemma mcat_S a seed n : mcat a seed (S n) = mcat a seed n ++ spec_hash a (seed ++ be_bytes 4 (Z.of_nat n)).
Proof. unfold mcat; rewrite seq_S, flat_map_app; cbn [flat_map Nat.add]; rewrite app_nil_r; reflexivity. Qed.
Lemma mcat_length a seed n : zlen (mcat a seed n) = Z.of_nat n * spec_size a.
Proof. induction n as [|n IH]; [reflexivity|]; rewrite mcat_S, zlen_app, IH, spec_hash_length; lia. Qed.
Lemma mcat_bytes a seed n : bytes (mcat a seed n).
Proof. induction n as [|n IH]; [constructor|]; rewrite mcat_S; apply bytes_app; split; [exact IH | apply spec_hash_bytes]. Qed.

Lemma mgf_loop_ok a seed len : bytes seed -> zlen seed < 2 ^ 60 -> 0 <= len <= 2 ^ 32 ->
  forall fuel k g, supply_ok a g -> (k <= Nblocks a len)%nat -> (Nblocks a len <= k + fuel)%nat ->
  mgf_loop a g fuel len (mcat a seed k) (seed ++ be_bytes 4 (Z.of_nat k)) = Ok (mcat a seed (Nblocks a len)).
Proof.
  intros HS LS HL; pose proof (Nblocks_spec a len ltac:(lia)) as (N1 & N2 & N3). pose proof (spec_size_range a) as SR.
  induction fuel as [|fuel IH]; intros k g Hg Hk Hf; cbn [mgf_loop]; rewrite mcat_length.
  - replace k with (Nblocks a len) in * by lia.
    destruct (Z.ltb_spec (Z.of_nat (Nblocks a len) * spec_size a) len); [lia|reflexivity].
  - destruct (Z.ltb_spec (Z.of_nat k * spec_size a) len) as [Lt|Ge].
    + rewrite h_hash_ok; [|apply Hg| |].
      * cbn [bind concat]; rewrite app_nil_r. rewrite inc_counter_ok by nia; cbn [bind]. rewrite <- mcat_S.
        replace (Z.of_nat k + 1) with (Z.of_nat (S k)) by lia.
        assert (S k <= Nblocks a len)%nat by nia. apply IH; [apply shift_ok; exact Hg | assumption | lia].
      * constructor; [|constructor]. apply bytes_app; split; [exact HS | apply be_bytes_bytes].
      * cbn [concat]; rewrite app_nil_r, zlen_app; unfold zlen at 2; rewrite be_bytes_length; lia.
    + assert (k = Nblocks a len) by nia; subst k; reflexivity.
Qed.
Lemma MGF_ok a g seed len : supply_ok a g -> bytes seed -> zlen seed < 2 ^ 60 -> 0 <= len <= 2 ^ 32 ->
  MGF a g seed len = Ok (mgf1 (spec_hash a) (spec_size a) seed len).
Proof.
  intros Hg HS LS HL; unfold MGF. replace (2 ^ 32 <? len) with false by lia.
  pose proof (Nblocks_spec a len ltac:(lia)) as (N1 & N2 & N3).
  pose proof (mgf_loop_ok a seed len HS LS HL (Z.to_nat len) 0 g Hg ltac:(lia) ltac:(lia)) as E.
  change (mcat a seed 0) with (@nil Z) in E; change (be_bytes 4 (Z.of_nat 0)) with [0; 0; 0; 0] in E. rewrite E; cbn [bind]. f_equal; unfold resize, mgf1.
  fold (Nblocks a len). fold (mcat a seed (Nblocks a len)). pose proof (mcat_length a seed (Nblocks a len)) as TL; unfold zlen in TL.
  replace (Z.to_nat len - length (mcat a seed (Nblocks a len)))%nat with 0%nat by lia. cbn [repeat]; rewrite app_nil_r; reflexivity.
Qed.
Lemma mgf1_length a seed len : 0 <= len -> zlen (mgf1 (spec_hash a) (spec_size a) seed len) = len.
Proof.
  intros HL; unfold mgf1. fold (Nblocks a len). fold (mcat a seed (Nblocks a len)).
  pose proof (Nblocks_spec a len HL) as (N1 & N2 & N3). pose proof (mcat_length a seed (Nblocks a len)) as TL; unfold zlen in *.
  rewrite firstn_length_le by lia; lia.
Qed.
Lemma mgf1_bytes a seed len : bytes (mgf1 (spec_hash a) (spec_size a) seed len).
Proof. apply bytes_firstn, mcat_bytes. Qed.

(** ** EMSA-PSS *)
(** [supplies]: every hash object (of four sub-calls) has a buffer of the right size. *)
Definition supplies (a : alg) (g : nat -> supply) : Prop := forall k, (k < 4)%nat -> supply_ok a (g k).

Definition pss_raw (a : alg) (mHash salt : list Z) (emLen : Z) : list Z :=
  let hm := spec_hash a (repeat 0 8 ++ mHash ++ salt) in
  let db := repeat 0 (Z.to_nat (emLen - zlen salt - spec_size a - 2)) ++ [1] ++ salt in
  xorl db (mgf1 (spec_hash a) (spec_size a) hm (emLen - spec_size a - 1)) ++ hm ++ [0xbc].

Lemma firstn_zlen {A} n (l : list A) : 0 <= n <= zlen l -> zlen (firstn (Z.to_nat n) l) = n.
Proof. unfold zlen; intros H; rewrite firstn_length_le by lia; lia. Qed.
Lemma xorl_zeros n l : (length l <= n)%nat -> xorl (repeat 0 n) l = l.
Proof.
  revert n; induction l as [|x l IH]; intros [|n] H; cbn [length repeat xorl map2] in *; try reflexivity; try lia.
  unfold xorl in IH. f_equal; apply IH; lia.
Qed.
Lemma map2_comm a b : map2 Z.lxor a b = xorl b a.
Proof. revert b; induction a as [|x a IH]; intros [|y b]; try reflexivity. unfold xorl in *; cbn [map2]. rewrite IH, Z.lxor_comm; reflexivity. Qed.

Lemma generatePss_ok a g data salt len : supplies a g -> bytes data -> bytes salt -> zlen data + zlen salt < 2 ^ 60 ->
  zlen salt + spec_size a + 2 <= len <= 2 ^ 32 ->
  generatePssData a g data salt len = Ok (pss_raw a data salt len).
Proof.
  intros Hg HD HS LD HL. pose proof (spec_size_range a) as SR. pose proof (zlen_nonneg data); pose proof (zlen_nonneg salt).
  unfold generatePssData. rewrite h_hash_ok; [|apply Hg; repeat constructor| |].
  2:{ repeat constructor; try (unfold byte; lia); assumption. }
  2:{ cbn [concat]; rewrite app_nil_r, !zlen_app. change (zlen (repeat 0 8)) with 8. lia. }
  cbn [bind]. cbn [concat]; rewrite app_nil_r. set (hm := spec_hash a (repeat 0 8 ++ data ++ salt)).
  rewrite h_size_spec, w64_small by lia. rewrite MGF_ok; [|apply Hg; repeat constructor | apply spec_hash_bytes | unfold hm; rewrite spec_hash_length; lia | lia].
  cbn [bind]. set (L := len - spec_size a - 1). set (mask := mgf1 (spec_hash a) (spec_size a) hm L).
  assert (ML : zlen mask = L) by (apply mgf1_length; lia). rewrite ML.
  set (s := zlen salt) in *. rewrite w64_small by lia.
  set (k := Z.to_nat (L - s - 1)).
  (* split the mask: k bytes, one byte, the salt part *)
  assert (SP : exists p b t, mask = p ++ b :: t /\ length p = k /\ zlen t = s).
  { exists (firstn k mask). destruct (skipn k mask) as [|b t] eqn:E.
    - exfalso. assert (length (skipn k mask) = 0%nat) by (rewrite E; reflexivity). rewrite skipn_length in H1; unfold zlen in ML; lia.
    - exists b, t. split; [rewrite <- E, firstn_skipn; reflexivity|]. split; [apply firstn_length_le; unfold zlen in ML; lia|].
      assert (length (skipn k mask) = S (length t)) by (rewrite E; reflexivity). rewrite skipn_length in H1; unfold zlen in *; lia. }
  destruct SP as (p & b & t & EM & LP & LT). unfold pss_raw. fold hm L. fold mask. fold s.
  replace (Z.to_nat (len - s - spec_size a - 2)) with k by (unfold k, L; f_equal; lia).
  rewrite (getz_nth _ _ 0) by lia. replace (Z.to_nat (L - s - 1)) with k by reflexivity.
  rewrite EM, <- LP, nth_middle; cbn [bind]. rewrite setz_ok by (rewrite zlen_app, zlen_cons; unfold zlen at 1; lia).
  cbn [bind]. replace (Z.to_nat (L - s - 1)) with k by reflexivity.
  assert (EU : upd (p ++ b :: t) k (Z.lxor b 1) = p ++ Z.lxor b 1 :: t).
  { unfold upd. rewrite <- LP, firstn_app, firstn_all, Nat.sub_diag, firstn_O, app_nil_r. rewrite skipn_app, skipn_all, Nat.sub_diag, skipn_O; reflexivity. }
  rewrite EU. clear EU. replace (p ++ Z.lxor b 1 :: t) with ((p ++ [Z.lxor b 1]) ++ t) by (rewrite <- app_assoc; reflexivity).
  set (q := p ++ [Z.lxor b 1]). rewrite BaseP.slice_ok by (rewrite ?zlen_app; pose proof (zlen_nonneg q); lia).
  rewrite zlen_app. replace (Z.to_nat (zlen q + zlen t - s)) with (length q) by (unfold zlen in *; lia).
  rewrite skipn_app, skipn_all, Nat.sub_diag, skipn_O. cbn [app bind]. rewrite firstn_all2 by (unfold zlen in *; lia).
  rewrite blit_ok; cbn [bind].
  2:{ pose proof (zlen_nonneg q); lia. }
  2:{ rewrite zlen_app. unfold zlen at 2 3 4 5. rewrite map2_length. unfold s, zlen in *. lia. }
  replace (Z.to_nat (zlen q + zlen t - s)) with (length q) by (unfold zlen in *; lia).
  rewrite firstn_app, firstn_all, Nat.sub_diag, firstn_O, app_nil_r.
  rewrite (skipn_all2 (n := (length q + length (map2 Z.lxor t salt)))) by (rewrite app_length, map2_length; unfold s, zlen in *; lia).
  rewrite app_nil_r. f_equal. f_equal. rewrite LP.
  change ([1] ++ salt) with (1 :: salt). rewrite xorl_app by (rewrite repeat_length; lia). rewrite xorl_zeros by lia.
  unfold q. rewrite <- app_assoc. f_equal. cbn [app]. unfold xorl; cbn [map2]. f_equal; [apply Z.lxor_comm|]. fold (xorl salt t). apply map2_comm.
Qed.

Lemma pss_raw_length a data salt len : zlen salt + spec_size a + 2 <= len -> zlen (pss_raw a data salt len) = len.
Proof.
  intros H; unfold pss_raw. pose proof (spec_size_range a). pose proof (zlen_nonneg salt).
  rewrite !zlen_app, spec_hash_length. change (zlen [0xbc]) with 1. unfold zlen at 1; rewrite xorl_length.
  rewrite !app_length, repeat_length; cbn [length].
  pose proof (mgf1_length a (spec_hash a (repeat 0 8 ++ data ++ salt)) (len - spec_size a - 1) ltac:(lia)) as ML. unfold zlen in *; lia.
Qed.
Lemma mask_first_ok l : l <> [] -> bytes l -> mask_first l = Ok (clear_top l).
Proof.
  intros HN HB; destruct l as [|x r]; [contradiction|]. unfold mask_first. cbn [getz nth_error Z.leb Z.compare Z.to_nat bind].
  rewrite setz_ok by (rewrite zlen_cons; pose proof (zlen_nonneg r); lia). change (Z.to_nat 0) with 0%nat.
  unfold upd; rewrite firstn_O, skipn_O; cbn [app clear_top]. rewrite (land_ones_mod _ 7) by lia; reflexivity.
Qed.
Lemma clear_top_app l m : l <> [] -> clear_top (l ++ m) = clear_top l ++ m.
Proof. destruct l; [contradiction | reflexivity]. Qed.
Lemma clear_top_length l : length (clear_top l) = length l. Proof. destruct l; reflexivity. Qed.
Lemma clear_top_bytes l : bytes l -> bytes (clear_top l).
Proof. destruct l as [|x r]; [intros; constructor|]. intros H; apply bytes_cons in H; destruct H; cbn [clear_top]; apply bytes_cons; split; [|assumption]. pose proof (Z.mod_pos_bound x 128 ltac:(lia)); unfold byte; lia. Qed.
Lemma pss_raw_bytes a data salt len : bytes salt -> bytes (pss_raw a data salt len).
Proof.
  intros HS; unfold pss_raw; repeat (apply bytes_app; split); try apply spec_hash_bytes; try (repeat constructor; lia).
  apply bytes_xorl; [|apply mgf1_bytes]. apply bytes_app; split; [apply bytes_repeat; unfold byte; lia|]. apply bytes_cons; split; [unfold byte; lia | exact HS].
Qed.
Lemma pss_masked a g data salt len : supplies a g -> bytes data -> bytes salt -> zlen data + zlen salt < 2 ^ 60 ->
  zlen salt + spec_size a + 2 <= len <= 2 ^ 32 ->
  (do p <- generatePssData a g data salt len; mask_first p) = Ok (emsa_pss (spec_hash a) (spec_size a) data salt len).
Proof.
  intros Hg HD HS LD HL. rewrite generatePss_ok by assumption. cbn [bind].
  pose proof (spec_size_range a) as SR. pose proof (zlen_nonneg salt).
  rewrite mask_first_ok; [|intros E; pose proof (pss_raw_length a data salt len ltac:(lia)) as PL; rewrite E in PL; change (zlen (@nil Z)) with 0 in PL; lia | apply pss_raw_bytes, HS].
  f_equal. unfold pss_raw, emsa_pss. apply clear_top_app.
  intros E. apply (f_equal (@length Z)) in E. rewrite xorl_length, !app_length in E; cbn [length] in E.
  pose proof (mgf1_length a (spec_hash a (repeat 0 8 ++ data ++ salt)) (len - spec_size a - 1) ltac:(lia)) as ML. unfold zlen in ML. lia.
Qed.
Lemma emsa_pss_length a data salt len : zlen salt + spec_size a + 2 <= len -> zlen (emsa_pss (spec_hash a) (spec_size a) data salt len) = len.
Proof.
  intros H. transitivity (zlen (pss_raw a data salt len)); [|apply pss_raw_length; exact H]. unfold pss_raw, emsa_pss. rewrite !zlen_app. f_equal. unfold zlen; rewrite clear_top_length; reflexivity.
Qed.
Lemma emsa_pss_bytes a data salt len : bytes salt -> bytes (emsa_pss (spec_hash a) (spec_size a) data salt len).
Proof.
  intros HS. unfold emsa_pss. repeat (apply bytes_app; split); try apply spec_hash_bytes; try (repeat constructor; lia).
  apply clear_top_bytes, bytes_xorl; [|apply mgf1_bytes]. apply bytes_app; split; [apply bytes_repeat; unfold byte; lia|]. apply bytes_cons; split; [unfold byte; lia | exact HS].
Qed.

(** What getSalt reads from a string of the right length. *)
Lemma getSalt_ok a g sLen em : supply_ok a g -> bytes em -> 0 <= sLen -> sLen + spec_size a + 2 <= zlen em <= 2 ^ 32 ->
  let L := zlen em - spec_size a - 1 in
  let h := firstn (Z.to_nat (spec_size a)) (skipn (Z.to_nat L) em) in
  getSalt a g sLen em = Ok (xorl (skipn (Z.to_nat (L - sLen)) (firstn (Z.to_nat L) em)) (skipn (Z.to_nat (L - sLen)) (mgf1 (spec_hash a) (spec_size a) h L)))
  /\ bytes h.
Proof.
  intros Hg HB HS HL; cbv zeta. pose proof (spec_size_range a) as SR. unfold getSalt. rewrite h_size_spec.
  set (L := zlen em - spec_size a - 1). assert (HLL : sLen + 1 <= L) by lia.
  rewrite BaseP.slice_ok by lia. cbn [bind]. set (h := firstn _ (skipn _ em)).
  assert (Hh : bytes h) by (apply bytes_firstn, bytes_skipn, HB). split; [|exact Hh].
  assert (Lh : zlen h = spec_size a).
  { unfold h. apply firstn_zlen. unfold zlen in *; rewrite skipn_length. lia. }
  rewrite w64_small by lia. rewrite MGF_ok by (try assumption; lia). cbn [bind].
  rewrite mgf1_length by lia. replace (L <? sLen) with false by lia.
  rewrite BaseP.slice_ok by lia. cbn [bind]. rewrite BaseP.slice_ok by (rewrite ?mgf1_length; lia). cbn [bind]. f_equal. unfold xorl. f_equal.
  - rewrite skipn_firstn_comm. f_equal. lia.
  - apply firstn_all2. rewrite skipn_length. pose proof (mgf1_length a h L ltac:(lia)) as ML; unfold zlen in ML. lia.
Qed.

(** The salt of an encoding is recovered. *)
Lemma getSalt_emsa a g data salt len : supply_ok a g -> bytes salt -> zlen salt + spec_size a + 2 <= len <= 2 ^ 32 ->
  getSalt a g (zlen salt) (emsa_pss (spec_hash a) (spec_size a) data salt len) = Ok salt.
Proof.
  intros Hg HS HL. pose proof (spec_size_range a) as SR. pose proof (zlen_nonneg salt) as SN.
  set (em := emsa_pss _ _ _ _ _). assert (EL : zlen em = len) by (apply emsa_pss_length; lia).
  assert (EB : bytes em) by (apply emsa_pss_bytes, HS).
  destruct (getSalt_ok a g (zlen salt) em Hg EB SN ltac:(lia)) as [-> _]. f_equal. rewrite EL.
  set (L := len - spec_size a - 1). set (hm := spec_hash a (repeat 0 8 ++ data ++ salt)).
  set (db := repeat 0 (Z.to_nat (len - zlen salt - spec_size a - 2)) ++ [1] ++ salt).
  assert (DL : zlen db = L) by (unfold db; rewrite !zlen_app; change (zlen [1]) with 1; unfold zlen at 1; rewrite repeat_length; lia).
  assert (ML : forall h, zlen (mgf1 (spec_hash a) (spec_size a) h L) = L) by (intros; apply mgf1_length; lia).
  assert (EE : em = clear_top (xorl db (mgf1 (spec_hash a) (spec_size a) hm L)) ++ hm ++ [0xbc]) by reflexivity.
  set (mdb := clear_top _) in EE. assert (MD : length mdb = Z.to_nat L).
  { unfold mdb; rewrite clear_top_length, xorl_length. specialize (ML hm). unfold zlen in *. lia. }
  assert (F1 : firstn (Z.to_nat L) em = mdb) by (rewrite EE, <- MD, firstn_app, firstn_all, Nat.sub_diag, firstn_O, app_nil_r; reflexivity).
  assert (F2 : firstn (Z.to_nat (spec_size a)) (skipn (Z.to_nat L) em) = hm).
  { rewrite EE, <- MD, skipn_app, skipn_all, Nat.sub_diag, skipn_O. cbn [app]. pose proof (spec_hash_length a (repeat 0 8 ++ data ++ salt)) as HL2; fold hm in HL2; unfold zlen in HL2.
    rewrite firstn_app. replace (Z.to_nat (spec_size a)) with (length hm) by lia. rewrite firstn_all, Nat.sub_diag, firstn_O, app_nil_r; reflexivity. }
  rewrite F1, F2. clear F1 F2 EE.
  (* behind the first byte clearing the top bit changes nothing *)
  assert (K : exists j, Z.to_nat (L - zlen salt) = S j) by (exists (Z.to_nat (L - zlen salt - 1)); lia). destruct K as [j K].
  assert (SK : skipn (Z.to_nat (L - zlen salt)) mdb = skipn (Z.to_nat (L - zlen salt)) (xorl db (mgf1 (spec_hash a) (spec_size a) hm L))).
  { rewrite K. unfold mdb. destruct (xorl db _); reflexivity. }
  rewrite SK. clear SK. specialize (ML hm). set (m := mgf1 (spec_hash a) (spec_size a) hm L) in *.
  set (k := Z.to_nat (L - zlen salt)).
  replace db with (firstn k db ++ skipn k db) by apply firstn_skipn. replace m with (firstn k m ++ skipn k m) at 1 by apply firstn_skipn.
  rewrite xorl_app by (rewrite !firstn_length_le by (unfold zlen in *; lia); reflexivity).
  rewrite skipn_app, skipn_all2 by (rewrite xorl_length, firstn_length_le by (unfold zlen in *; lia); lia). cbn [app].
  rewrite xorl_length, !firstn_length_le, Nat.min_id, Nat.sub_diag, skipn_O by (unfold zlen in *; lia).
  assert (SD : skipn k db = salt).
  { unfold db. rewrite app_assoc, skipn_app. replace k with (length (repeat 0 (Z.to_nat (len - zlen salt - spec_size a - 2)) ++ [1])) by (rewrite app_length, repeat_length; cbn [length]; unfold k; lia).
    rewrite skipn_all, Nat.sub_diag, skipn_O; reflexivity. }
  rewrite SD. apply xorl_cancel. rewrite skipn_length. unfold zlen in *; lia.
Qed.

(** The verification computation: after the public operation, [em] is accepted exactly when
    it is an encoding. *)
Definition pss_check (a : alg) (sLen : Z) (g : nat -> supply) (message em : list Z) : res bool :=
  do salt <- getSalt a (g 2%nat) sLen em;
  do hMessage <- h_hash a (g 3%nat 0%nat) [message];
  do pssdata <- generatePssData a g hMessage salt (zlen em);
  do pssdata <- mask_first pssdata;
  Ok (list_eqb em pssdata).
Lemma pss_check_ok a sLen g message em : supplies a g -> bytes message -> zlen message < 2 ^ 61 -> bytes em -> 0 <= sLen ->
  sLen + spec_size a + 2 <= zlen em <= 2 ^ 32 ->
  exists b, pss_check a sLen g message em = Ok b /\
    (b = true <-> exists salt, bytes salt /\ zlen salt = sLen /\ em = emsa_pss (spec_hash a) (spec_size a) (spec_hash a message) salt (zlen em)).
Proof.
  intros Hg HM LM HE HS HL. pose proof (spec_size_range a) as SR. unfold pss_check.
  destruct (getSalt_ok a (g 2%nat) sLen em (Hg 2%nat ltac:(repeat constructor)) HE HS HL) as [ES Hh]. rewrite ES; cbn [bind].
  set (L := zlen em - spec_size a - 1) in *. set (h := firstn _ (skipn (Z.to_nat L) em)) in *.
  set (salt := xorl _ _) in *.
  assert (BS : bytes salt) by (apply bytes_xorl; apply bytes_skipn; [apply bytes_firstn, HE | apply mgf1_bytes]).
  assert (LS : zlen salt = sLen).
  { unfold salt, zlen. rewrite xorl_length, !skipn_length, firstn_length_le by (unfold zlen in *; lia).
    pose proof (mgf1_length a h L ltac:(lia)) as ML; unfold zlen in ML. lia. }
  rewrite h_hash_ok; [|apply Hg; repeat constructor | constructor; [exact HM | constructor] | cbn [concat]; rewrite app_nil_r; exact LM].
  cbn [bind concat]; rewrite app_nil_r.
  pose proof (pss_masked a g (spec_hash a message) salt (zlen em) Hg (spec_hash_bytes _ _) BS ltac:(rewrite spec_hash_length; lia) ltac:(lia)) as PM.
  destruct (generatePssData a g (spec_hash a message) salt (zlen em)) as [p| | |]; cbn [bind] in *; try discriminate PM.
  rewrite PM; cbn [bind]. eexists; split; [reflexivity|]. rewrite list_eqb_eq. split.
  - intros E. exists salt; auto.
  - intros (s' & BS' & LS' & E). rewrite E at 1. f_equal.
    pose proof (getSalt_emsa a (g 2%nat) (spec_hash a message) s' (zlen em) (Hg 2%nat ltac:(repeat constructor)) BS' ltac:(lia)) as GE. rewrite <- E, LS' in GE.
    rewrite ES in GE; injection GE as GE. symmetry; exact GE.
Qed.

(** ** The RSA primitives *)
Lemma redc_zero n st N v : good n st N -> bn (n + n) v -> val v = 0 -> exists t, redc n (mN st) (mNinv st) v = Ok t /\ bn n t /\ val t = 0.
Proof.
  intros G Hv V0. pose proof (good_pos _ _ _ G) as NP. pose proof (g_inv _ _ _ G) as GI; rewrite <- (g_val _ _ _ G) in GI.
  destruct (redc_ok n _ _ v (g_n _ _ _ G) (g_N _ _ _ G) (g_Ninv _ _ _ G) Hv GI) as (t & m & Et & Ht & Hm & Q & Vt).
  exists t; split; [exact Et|]; split; [exact Ht|]. rewrite V0, (g_val _ _ _ G), Z.add_0_l in *. set (q := m * N / 2 ^ (32 * Z.of_nat n)) in *.
  assert (D : (2 ^ (32 * Z.of_nat n) | m)).
  { apply Gauss with N; [exists q; lia | apply rel_prime_sym, odd_coprime, (g_odd _ _ _ G)]. }
  pose proof (pow_pos n) as P. destruct D as [k D]. assert (m = 0) by (rewrite D in Hm; assert (k = 0) by nia; lia).
  assert (Q0 : q = 0) by (subst q; rewrite H; reflexivity). rewrite Vt, Q0. replace (0 <? 2 ^ (32 * Z.of_nat n)) with true by lia; reflexivity.
Qed.
Lemma mont_mul_zero n st N x y : good n st N -> bn n x -> bn n y -> val x = 0 \/ val y = 0 -> exists t, mont_mul n st x y = Ok t /\ bn n t /\ val t = 0.
Proof.
  intros G Hx Hy Z0; unfold mont_mul. destruct (mul_ok n y x Hy Hx) as (p & E & Hp & Vp). rewrite E; cbn [bind].
  apply (redc_zero n st N); [exact G | exact Hp |]. rewrite Vp. destruct Z0 as [-> | ->]; ring.
Qed.
Lemma mont_of_zero n st N x : good n st N -> bn n x -> val x = 0 -> exists t, mont_of n st x = Ok t /\ bn n t /\ val t = 0.
Proof.
  intros G Hx Z0; unfold mont_of. destruct (mul_ok n x _ Hx (g_R2 _ _ _ G)) as (p & E & Hp & Vp). rewrite E; cbn [bind].
  apply (redc_zero n st N); [exact G | exact Hp |]. rewrite Vp, Z0; ring.
Qed.
Lemma mont_square_zero n st N x : good n st N -> bn n x -> val x = 0 -> exists t, mont_square n st x = Ok t /\ bn n t /\ val t = 0.
Proof. intros G Hx Z0. exact (mont_mul_zero n st N x x G Hx Hx (or_introl Z0)). Qed.
Lemma mont_out_zero n st N x : good n st N -> bn n x -> val x = 0 -> exists t, mont_out n st x = Ok t /\ bn n t /\ val t = 0.
Proof.
  intros G Hx Z0; unfold mont_out.
  destruct (convert_up n (2 * bits_of n) (n + n) x Hx ltac:(replace (2 * bits_of n) with (bits_of (n + n)) by lia; apply nwords_mult) ltac:(lia)) as [HC VC].
  apply (redc_zero n st N); [exact G | exact HC | congruence].
Qed.
Lemma mont_mul_bn n st N x y : good n st N -> bn n x -> bn n y -> exists t, mont_mul n st x y = Ok t /\ bn n t.
Proof.
  intros G Hx Hy; unfold mont_mul. destruct (mul_ok n y x Hy Hx) as (p & E & Hp & Vp). rewrite E; cbn [bind].
  pose proof (g_inv _ _ _ G) as GI; rewrite <- (g_val _ _ _ G) in GI.
  destruct (redc_cong n _ _ p (g_n _ _ _ G) (g_N _ _ _ G) (g_Ninv _ _ _ G) Hp GI) as (t & E2 & Ht & _). exists t; auto.
Qed.
Lemma exp_loop_zero n st N e one : good n st N -> bn n e -> bn n one -> forall count i v b,
  0 <= i -> i + Z.of_nat count = bits_of n -> bn n v -> bn n b -> val b = 0 -> (val v = 0 \/ val e / 2 ^ i <> 0) ->
  exists t, exp_loop count i n st e v b one = Ok t /\ bn n t /\ val t = 0.
Proof.
  intros G He Ho; induction count as [|k IH]; intros i v b Hi Hc Hv Hb B0 Z0; cbn [exp_loop].
  - exists v; split; [reflexivity|]; split; [exact Hv|]. destruct Z0 as [Z0|Z0]; [exact Z0|]. exfalso; apply Z0.
    apply Z.div_small. replace i with (bits_of n) by lia. apply bn_range, He.
  - rewrite (bit_ok n e i He) by lia; cbn [bind]. set (f := if Z.b2z (Z.testbit (val e) i) =? 0 then one else b).
    assert (Hf : bn n f) by (unfold f; destruct (_ =? 0); assumption).
    destruct (mont_square_zero n st N b G Hb B0) as (b' & Eb & Hb' & B0').
    destruct (mont_mul_bn n st N v f G Hv Hf) as (v' & Ev & Hv'). rewrite Ev; cbn [bind]; rewrite Eb; cbn [bind].
    apply IH; try assumption; try lia.
    destruct Z0 as [Z0|Z0].
    + left. destruct (mont_mul_zero n st N v f G Hv Hf (or_introl Z0)) as (t & Et & _ & T0). congruence.
    + destruct (Z.testbit (val e) i) eqn:Tb.
      * left. destruct (mont_mul_zero n st N v f G Hv Hf (or_intror B0)) as (t & Et & _ & T0). congruence.
      * right. intros C. apply Z0. rewrite (Z.pow_add_r 2), Z.pow_1_r, <- Z.div_div in C by (try lia; apply Z.pow_pos_nonneg; lia).
        pose proof (Z.testbit_spec' (val e) i ltac:(lia)) as T2; rewrite Tb in T2; cbn [Z.b2z] in T2.
        pose proof (Z.div_mod (val e / 2 ^ i) 2 ltac:(lia)). lia.
Qed.
Lemma mont_exp_zero n st N x e : good n st N -> bn n x -> bn n e -> val x = 0 -> 0 < val e -> exists t, mont_exp n st x e = Ok t /\ bn n t /\ val t = 0.
Proof.
  intros G Hx He X0 E0; unfold mont_exp. destruct (of_u32_ok n 1 ltac:(lia) (g_n _ _ _ G)) as [H1 V1].
  destruct (mont_of_ok n st N _ G H1) as (one & E & Ho). rewrite E; cbn [bind]; clear E.
  apply (exp_loop_zero n st N); try assumption; try apply Ho; [lia | lia | right; rewrite Z.pow_0_r, Z.div_1_r; lia].
Qed.
Lemma squarings_zero n st N : good n st N -> forall count x, bn n x -> val x = 0 -> exists t, squarings count n st x = Ok t /\ bn n t /\ val t = 0.
Proof.
  intros G; induction count as [|k IH]; intros x Hx X0; cbn [squarings]; [exists x; auto|].
  destruct (mont_square_zero n st N x G Hx X0) as (b & E & Hb & B0). rewrite E; cbn [bind]. apply IH; assumption.
Qed.
Lemma mont_exp32_zero n st N x k : good n st N -> bn n x -> val x = 0 -> exists t, mont_exp32 n st x k = Ok t /\ bn n t /\ val t = 0.
Proof.
  intros G Hx X0; unfold mont_exp32. destruct (of_u32_ok n 1 ltac:(lia) (g_n _ _ _ G)) as [H1 V1].
  destruct (mont_of_ok n st N _ G H1) as (one & E & Ho). rewrite E; cbn [bind]; clear E.
  destruct (squarings_zero n st N G 16 x Hx X0) as (b & E & Hb & B0). rewrite E; cbn [bind].
  apply (mont_mul_zero n st N); auto.
Qed.

(** What both primitives compute: the power modulo N; the answer may be N in place of 0,
    but 0 itself is mapped to 0. *)
Definition power_ok (n : nat) (N x e : Z) (r : list Z) : Prop :=
  bn n r /\ (val r = x ^ e mod N \/ (val r = N /\ x ^ e mod N = 0)) /\ (x = 0 -> 0 < e -> val r = 0).
Lemma out_power n st N v a : good n st N -> rep n N v a -> exists r, mont_out n st v = Ok r /\ bn n r /\ (val r = a mod N \/ (val r = N /\ a mod N = 0)).
Proof.
  intros G H. pose proof (good_pos _ _ _ G) as NP. destruct (mont_out_ok n st N v a G H) as (t & E & Ht & M & B1 & B2).
  exists t; split; [exact E|]; split; [exact Ht|]. destruct (Z.eq_dec (val t) N) as [C|C]; [right; split; [exact C | tauto] | left].
  rewrite <- M; symmetry; apply Z.mod_small; lia.
Qed.
Lemma rsadp_ok n k N m : good n (priv_s k) N -> bn n (priv_d k) -> bn n m -> exists r, rsadp n k m = Ok r /\ power_ok n N (val m) (val (priv_d k)) r.
Proof.
  intros G Hd Hm; unfold rsadp. destruct (mont_of_ok n _ N m G Hm) as (v & E & Hv). rewrite E; cbn [bind].
  destruct (mont_exp_ok n _ N v _ _ G Hv Hd) as (w & E2 & Hw). rewrite E2; cbn [bind].
  destruct (out_power n _ N w _ G Hw) as (r & E3 & Hr & Vr). exists r; split; [exact E3|]; split; [exact Hr|]; split; [exact Vr|].
  intros M0 D0. destruct (mont_of_zero n _ N m G Hm M0) as (v' & E' & _ & V0). rewrite E in E'; injection E' as <-.
  destruct (mont_exp_zero n _ N v _ G (proj1 Hv) Hd V0 D0) as (w' & E' & _ & W0). rewrite E2 in E'; injection E' as <-.
  destruct (mont_out_zero n _ N w G (proj1 Hw) W0) as (r' & E' & _ & R0). rewrite E3 in E'; injection E' as <-. exact R0.
Qed.
Lemma rsaep_ok n k N m : good n (pub_s k) N -> bn n (pub_e k) -> bn n m -> exists r, rsaep n k m = Ok r /\ power_ok n N (val m) (val (pub_e k)) r.
Proof.
  intros G Hd Hm; unfold rsaep. destruct (mont_of_ok n _ N m G Hm) as (v & E & Hv). rewrite E; cbn [bind].
  destruct (of_u32_ok n 65537 ltac:(lia) (g_n _ _ _ G)) as [HE VE].
  rewrite (eq_ok n _ _ Hd HE), VE. destruct (Z.eqb_spec (val (pub_e k)) 65537) as [C|C].
  - rewrite C. destruct (mont_exp32_ok n _ N v _ 65537 G Hv) as (w & E2 & Hw). rewrite E2; cbn [bind].
    destruct (out_power n _ N w _ G Hw) as (r & E3 & Hr & Vr). exists r; split; [exact E3|]; split; [exact Hr|]; split; [exact Vr|].
    intros M0 D0. destruct (mont_of_zero n _ N m G Hm M0) as (v' & E' & _ & V0). rewrite E in E'; injection E' as <-.
    destruct (mont_exp32_zero n _ N v 65537 G (proj1 Hv) V0) as (w' & E' & _ & W0). rewrite E2 in E'; injection E' as <-.
    destruct (mont_out_zero n _ N w G (proj1 Hw) W0) as (r' & E' & _ & R0). rewrite E3 in E'; injection E' as <-. exact R0.
  - destruct (mont_exp_ok n _ N v _ _ G Hv Hd) as (w & E2 & Hw). rewrite E2; cbn [bind].
    destruct (out_power n _ N w _ G Hw) as (r & E3 & Hr & Vr). exists r; split; [exact E3|]; split; [exact Hr|]; split; [exact Vr|].
    intros M0 D0. destruct (mont_of_zero n _ N m G Hm M0) as (v' & E' & _ & V0). rewrite E in E'; injection E' as <-.
    destruct (mont_exp_zero n _ N v _ G (proj1 Hv) Hd V0 D0) as (w' & E' & _ & W0). rewrite E2 in E'; injection E' as <-.
    destruct (mont_out_zero n _ N w G (proj1 Hw) W0) as (r' & E' & _ & R0). rewrite E3 in E'; injection E' as <-. exact R0.
Qed.

(** ** Keys *)
Lemma top_bit_ok n N : bn n N -> 0 < val N -> bits_of n < 2 ^ 64 -> forall fuel i, Z.log2 (val N) <= i < bits_of n -> i <= Z.log2 (val N) + Z.of_nat fuel ->
  top_bit fuel N i = Ok (Z.log2 (val N) + 1).
Proof.
  intros HN NP LN. assert (0 <= Z.log2 (val N)) by apply Z.log2_nonneg.
  assert (K : forall i, Z.log2 (val N) < i < bits_of n -> bit N i = Ok 0).
  { intros i Hi. rewrite (bit_ok n N i HN) by lia. rewrite Z.bits_above_log2 by lia. reflexivity. }
  assert (T : bit N (Z.log2 (val N)) = Ok 1).
  { pose proof (bn_range _ _ HN). assert (Z.log2 (val N) < bits_of n) by (apply Z.log2_lt_pow2; lia). rewrite (bit_ok n N _ HN), Z.bit_log2 by lia. reflexivity. }
  induction fuel as [|f IH]; intros i Hi Hf.
  - replace i with (Z.log2 (val N)) by lia. cbn [top_bit]; rewrite T; reflexivity.
  - cbn [top_bit]. destruct (Z.eq_dec i (Z.log2 (val N))) as [->|C]; [rewrite T; reflexivity|].
    rewrite K by lia. cbn [bind Z.eqb]. rewrite w64_small by lia. apply IH; lia.
Qed.
Lemma public_key_ok n N e : (0 < n)%nat -> bn n N -> Z.odd (val N) = true -> bn n e ->
  exists k, rsa_public_key n N e = Ok k /\ good n (pub_s k) (val N) /\ pub_e k = e /\ pub_n k = N.
Proof.
  intros Hn HN HO He. rewrite Zodd_mod in HO; apply Zeq_bool_eq in HO. unfold rsa_public_key.
  destruct (mont_state_ok n N Hn HN HO) as (st & E & _ & G). rewrite E; cbn [bind]. eexists; split; [reflexivity|]; auto.
Qed.
Lemma private_key_ok n N d : (0 < n)%nat -> bits_of n < 2 ^ 64 -> bn n N -> Z.odd (val N) = true -> bn n d ->
  exists k, rsa_private_key n N d = Ok k /\ good n (priv_s k) (val N) /\ priv_d k = d /\ priv_bits k = Z.log2 (val N) + 1.
Proof.
  intros Hn LN HN HO Hd. rewrite Zodd_mod in HO; apply Zeq_bool_eq in HO. unfold rsa_private_key.
  destruct (mont_state_ok n N Hn HN HO) as (st & E & _ & G). rewrite E; cbn [bind].
  pose proof (good_pos _ _ _ G) as NP. pose proof (Z.log2_lt_pow2 (val N) (bits_of n) ltac:(lia)) as LG.
  rewrite (top_bit_ok n N HN ltac:(lia) LN) by (pose proof (Z.log2_nonneg (val N)); lia). cbn [bind]. eexists; split; [reflexivity|]; auto.
Qed.

(** ** Strings of bytes and words *)
Lemma of_bytes_be n sig : bytes sig -> exists r, of_bytes (bits_of n) (rev sig) = Ok r /\ bn n r /\ val r = be_val sig mod 2 ^ (32 * Z.of_nat n).
Proof.
  intros HB. destruct (C41_any_length n (rev sig)) as (r & E & H & V); [apply Forall_rev; exact HB|]. exists r; split; [exact E|]; split; [exact H|].
  rewrite V, <- be_val_rev, rev_involutive; reflexivity.
Qed.
Lemma le_bytes_firstn n : forall k z, (k <= n)%nat -> firstn k (le_bytes n z) = le_bytes k z.
Proof. induction n as [|n IH]; intros [|k] z H; try reflexivity; [lia|]. cbn [le_bytes firstn]; f_equal; apply IH; lia. Qed.
Lemma le_bytes_0 j : le_bytes j 0 = repeat 0 j.
Proof. induction j as [|j IH]; [reflexivity|]. cbn [le_bytes repeat]. rewrite Z.mod_0_l, Z.div_0_l, IH by lia; reflexivity. Qed.
Lemma le_bytes_more n : forall j z, 0 <= z < 256 ^ Z.of_nat n -> le_bytes (n + j) z = le_bytes n z ++ repeat 0 j.
Proof.
  induction n as [|n IH]; intros j z H.
  - change (256 ^ Z.of_nat 0) with 1 in H. replace z with 0 by lia. apply le_bytes_0.
  - cbn [Nat.add le_bytes app]. f_equal. apply IH. replace (Z.of_nat (S n)) with (1 + Z.of_nat n) in H by lia. rewrite Z.pow_add_r, Z.pow_1_r in H by lia.
    split; [apply Z.div_pos; lia | apply Z.div_lt_upper_bound; lia].
Qed.
Lemma resize_le m z k : 0 <= z < 256 ^ Z.of_nat m -> resize (le_bytes m z) (Z.of_nat k) = le_bytes k z.
Proof.
  intros H; unfold resize; rewrite Nat2Z.id, le_bytes_length. destruct (Nat.le_gt_cases k m) as [C|C].
  - replace (k - m)%nat with 0%nat by lia. cbn [repeat]; rewrite app_nil_r. apply le_bytes_firstn; exact C.
  - rewrite firstn_all2 by (rewrite le_bytes_length; lia). rewrite <- le_bytes_more by exact H. f_equal; lia.
Qed.
Lemma pow256 n : 2 ^ (32 * Z.of_nat n) = 256 ^ Z.of_nat (4 * n).
Proof. change 256 with (2 ^ 8); rewrite <- Z.pow_mul_r by lia; f_equal; lia. Qed.
Lemma to_string n r k : bn n r -> rev (resize (as_bytes r) (Z.of_nat k)) = be_bytes k (val r).
Proof.
  intros H. rewrite (C41_as_bytes n r H), resize_le; [reflexivity|]. rewrite <- pow256. apply bn_range, H.
Qed.
Lemma be_bytes_inj k x y : 0 <= x < 256 ^ Z.of_nat k -> 0 <= y < 256 ^ Z.of_nat k -> be_bytes k x = be_bytes k y -> x = y.
Proof. intros Hx Hy E. apply (f_equal be_val) in E. rewrite !be_val_bytes in E by assumption. exact E. Qed.

(** validatePss: the public operation on the integer, then the check of the encoding. *)
Lemma validatePss_eq n a sLen g k N message sig : good n (pub_s k) N -> bn n (pub_e k) -> bytes sig ->
  exists r, power_ok n N (be_val sig mod 2 ^ (32 * Z.of_nat n)) (val (pub_e k)) r /\
    validatePss n a sLen g k message sig = pss_check a sLen g message (be_bytes (length sig) (val r)).
Proof.
  intros G He HS. unfold validatePss. destruct (of_bytes_be n sig HS) as (s & E & Hs & Vs). rewrite E; cbn [bind].
  destruct (rsaep_ok n k N s G He Hs) as (r & E2 & Pr). rewrite E2; cbn [bind]. exists r; rewrite Vs in Pr; split; [exact Pr|].
  cbv zeta. change (zlen sig) with (Z.of_nat (length sig)). rewrite (to_string n r (length sig) (proj1 Pr)). reflexivity.
Qed.

(** The value of an encoding is below half of the range, so below the modulus. *)
Lemma clear_top_val l : l <> [] -> bytes l -> 0 <= be_val (clear_top l) < 2 ^ (8 * zlen l - 1).
Proof.
  destruct l as [|x r]; [contradiction|]. intros _ HB; apply bytes_cons in HB; destruct HB as [Hx Hr]. cbn [clear_top].
  change (x mod 128 :: r) with ([x mod 128] ++ r). rewrite be_val_app, zlen_cons. change (be_val [x mod 128]) with (256 * 0 + x mod 128).
  pose proof (be_val_range r Hr) as R. pose proof (Z.mod_pos_bound x 128 ltac:(lia)) as M. pose proof (zlen_nonneg r).
  replace (8 * (1 + zlen r) - 1) with (7 + 8 * zlen r) by lia. rewrite Z.pow_add_r, Z.pow_mul_r by lia. change (2 ^ 8) with 256; change (2 ^ 7) with 128. nia.
Qed.
Lemma emsa_pss_clear a data salt len : zlen salt + spec_size a + 2 <= len -> bytes salt ->
  emsa_pss (spec_hash a) (spec_size a) data salt len = clear_top (pss_raw a data salt len).
Proof.
  intros H HS. unfold pss_raw, emsa_pss. symmetry; apply clear_top_app.
  pose proof (spec_size_range a). pose proof (zlen_nonneg salt).
  intros E. apply (f_equal (@length Z)) in E. rewrite xorl_length, !app_length in E; cbn [length] in E.
  pose proof (mgf1_length a (spec_hash a (repeat 0 8 ++ data ++ salt)) (len - spec_size a - 1) ltac:(lia)) as ML. unfold zlen in ML. lia.
Qed.
Lemma emsa_pss_val a data salt len : zlen salt + spec_size a + 2 <= len -> bytes salt ->
  0 <= be_val (emsa_pss (spec_hash a) (spec_size a) data salt len) < 2 ^ (8 * len - 1).
Proof.
  intros H HS. rewrite emsa_pss_clear by assumption. pose proof (pss_raw_length a data salt len H) as L. pose proof (pss_raw_bytes a data salt len HS) as PB.
  replace (8 * len - 1) with (8 * zlen (pss_raw a data salt len) - 1) by lia. apply clear_top_val; [|exact PB]. pose proof (spec_size_range a). pose proof (zlen_nonneg salt). intros E; rewrite E in L; change (zlen (@nil Z)) with 0 in L; lia.
Qed.
Lemma emsa_pss_even a data salt len : be_val (emsa_pss (spec_hash a) (spec_size a) data salt len) mod 256 = 0xbc.
Proof.
  unfold emsa_pss. rewrite app_assoc, be_val_app. change (zlen [0xbc]) with 1. change (be_val [0xbc]) with 0xbc. rewrite Z.pow_1_r.
  rewrite Z.add_comm, Z.mod_add by lia. reflexivity.
Qed.

Lemma signPss_eq n a g k N mh salt L : good n (priv_s k) N -> bn n (priv_d k) -> priv_bits k / 8 = L -> 8 * L <= bits_of n ->
  supplies a g -> bytes mh -> bytes salt -> zlen mh + zlen salt < 2 ^ 60 -> zlen salt + spec_size a + 2 <= L <= 2 ^ 32 ->
  exists r, signPss n a g k mh salt = Ok (be_bytes (Z.to_nat L) (val r)) /\
    power_ok n N (be_val (emsa_pss (spec_hash a) (spec_size a) mh salt L)) (val (priv_d k)) r.
Proof.
  intros G Hd HP HN Hg HM HS LM HL. unfold signPss. rewrite HP.
  pose proof (pss_masked a g mh salt L Hg HM HS LM HL) as PM.
  destruct (generatePssData a g mh salt L) as [p| | |]; cbn [bind] in *; try discriminate PM. rewrite PM; cbn [bind].
  set (em := emsa_pss _ _ _ _ _) in *.
  assert (EB : bytes em) by (apply emsa_pss_bytes, HS). pose proof (emsa_pss_val a mh salt L ltac:(lia) HS) as EV. fold em in EV.
  destruct (of_bytes_be n em EB) as (m & E & Hm & Vm). rewrite E; cbn [bind].
  rewrite Z.mod_small in Vm by (split; [lia|]; apply Z.lt_le_trans with (1 := proj2 EV); apply Z.pow_le_mono_r; lia).
  destruct (rsadp_ok n k N m G Hd Hm) as (r & E2 & Pr). rewrite E2; cbn [bind]. exists r. rewrite <- Vm. split; [|exact Pr].
  replace L with (Z.of_nat (Z.to_nat L)) at 1 by (pose proof (spec_size_range a); pose proof (zlen_nonneg salt); lia). f_equal. apply (to_string n), (proj1 Pr).
Qed.

(** ** PKCS#1 v1.5 *)
Lemma land_byte x k : 0 <= k -> 0 <= x -> Z.land (Z.shiftr x k) 0xFF = (x / 2 ^ k) mod 256.
Proof. intros Hk Hx. rewrite Z.shiftr_div_pow2 by exact Hk. apply (land_ones_mod _ 8); lia. Qed.
Lemma seq_prefix_ok size : 0 <= size < 2 ^ 24 -> seq_prefix size = 0x30 :: der_length size.
Proof.
  intros H; unfold seq_prefix, der_length.
  destruct (Z.ltb_spec size 0x80) as [C1|C1].
  { replace (size <? 128) with true by lia. unfold w8; rewrite Z.mod_small by lia; reflexivity. }
  replace (size <? 128) with false by lia.
  assert (M1 : forall f x, 0 < x < 256 -> minimal_be (S (S f)) x = [x]).
  { intros f x Hx. cbn [minimal_be]. replace (x =? 0) with false by lia. rewrite (Z.div_small x 256), (Z.mod_small x 256) by lia. reflexivity. }
  assert (M2 : forall f x, 256 <= x -> minimal_be (S f) x = minimal_be f (x / 256) ++ [x mod 256]).
  { intros f x Hx. cbn [minimal_be]. replace (x =? 0) with false by lia. reflexivity. }
  destruct (Z.ltb_spec size 0x100) as [C2|C2].
  { rewrite M1 by lia. unfold w8; rewrite Z.mod_small by lia; reflexivity. }
  change (Z.land size 0xFF) with (Z.land (Z.shiftr size 0) 0xFF). rewrite !land_byte by lia. rewrite Z.pow_0_r, Z.div_1_r.
  destruct (Z.ltb_spec size 0x10000) as [C3|C3].
  { rewrite M2 by lia. rewrite M1 by (split; [apply Z.div_str_pos; lia | apply Z.div_lt_upper_bound; lia]).
    change (2 ^ 8) with 256. rewrite (Z.mod_small (size / 256)) by (split; [apply Z.div_pos; lia | apply Z.div_lt_upper_bound; lia]). reflexivity. }
  rewrite M2 by lia. rewrite M2 by (apply Z.div_le_lower_bound; lia). rewrite Z.div_div by lia. change (256 * 256) with (2 ^ 16). change (2 ^ 8) with 256.
  rewrite M1 by (split; [apply Z.div_str_pos; lia | apply Z.div_lt_upper_bound; lia]).
  rewrite (Z.mod_small (size / 2 ^ 16)) by (split; [apply Z.div_pos; lia | apply Z.div_lt_upper_bound; lia]). reflexivity.
Qed.
Lemma der_length_short n : 0 <= n -> bytes (der_length n) /\ zlen (der_length n) <= 9.
Proof.
  intros Hn. assert (K : forall f x, bytes (minimal_be f x) /\ zlen (minimal_be f x) <= Z.of_nat f).
  { induction f as [|f IH]; intros x; cbn [minimal_be]; [split; [constructor | reflexivity]|]. destruct (x =? 0); [split; [constructor | unfold zlen; cbn [length]; lia]|].
    destruct (IH (x / 256)) as [H1 H2]. split; [apply bytes_app; split; [exact H1|]; apply bytes_cons; split; [apply Z.mod_pos_bound; lia | constructor] | rewrite zlen_app; change (zlen [x mod 256]) with 1; lia]. }
  unfold der_length. destruct (Z.ltb_spec n 128); [split; [apply bytes_cons; split; [unfold byte; lia | constructor] | unfold zlen; cbn [length]; lia]|].
  destruct (K 8%nat n) as [H1 H2]. cbv zeta. pose proof (zlen_nonneg (minimal_be 8 n)). split; [apply bytes_cons; split; [unfold byte; lia | exact H1] | rewrite zlen_cons; lia].
Qed.
Lemma PKCS1_ok a g data L : supply_ok a g -> bytes data -> zlen data < 2 ^ 24 -> zlen (h_asn1 a) + spec_size a + 3 <= L <= 2 ^ 32 ->
  PKCS1 a g data L = Ok (emsa_pkcs1 (h_asn1 a ++ spec_hash a (der_sequence data)) L).
Proof.
  intros Hg HD LD HL. unfold PKCS1. pose proof (spec_size_range a) as SR. pose proof (zlen_nonneg (h_asn1 a)). pose proof (zlen_nonneg data).
  rewrite h_size_spec, w64_small by lia. replace (2 ^ 63 <=? _) with false by lia.
  rewrite seq_prefix_ok by lia. destruct (der_length_short (zlen data) ltac:(lia)) as [DB DL].
  rewrite h_hash_ok; [|apply Hg; repeat constructor| |].
  - cbn [bind concat]; rewrite app_nil_r. fold (der_sequence data). unfold emsa_pkcs1. rewrite zlen_app, spec_hash_length.
    replace (L - (zlen (h_asn1 a) + spec_size a) - 3) with (L - zlen (h_asn1 a) - spec_size a - 1 - 2) by lia.
    rewrite <- !app_assoc. reflexivity.
  - constructor; [|constructor; [exact HD | constructor]]. apply bytes_cons; split; [unfold byte; lia | exact DB].
  - cbn [concat]; rewrite app_nil_r, zlen_app, zlen_cons. lia.
Qed.
