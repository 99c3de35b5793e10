(** Proofs about PEM texts and bundles, and private keys. *)
From Coq Require Import String.
From Verif Require Import Base BaseP S_Base64 M_Base64 P_Base64 S_Hash M_Hash M_HKDF S_Bignum M_Bignum P_Bignum Prop_Bignum M_Mont P_Mont S_RSA M_RSA P_RSA S_X509 M_X509 P_X509 P_Date P_Name P_Cert.
Open Scope Z_scope.

Lemma parse_private_ok n e d crt : 0 <= n < 2 ^ Wbits -> Z.odd n = true -> 0 <= e -> 0 <= d < 2 ^ Wbits -> zlen (rsa_private_der n e d crt) < 2 ^ 64 ->
  exists N D sk, parse_private_der (rsa_private_der n e d crt) = Ok (Some sk) /\ bn W N /\ val N = n /\ bn W D /\ val D = d /\ rsa_private_key W N D = Ok sk.
Proof.
  intros Hn HO He Hd HL. unfold parse_private_der, rsa_private_der in *. set (cr := concat (map integer crt)) in *.
  pose proof (tlv_length 48 (integer 0 ++ integer n ++ integer e ++ integer d ++ cr)) as L0. pose proof L0 as L1. rewrite !zlen_app in L1.
  pose proof (tlv_length 2 (int_content n)) as M1. fold (integer n) in M1. pose proof (tlv_length 2 (int_content e)) as M2. fold (integer e) in M2.
  pose proof (tlv_length 2 (int_content d)) as M3. fold (integer d) in M3. nn.
  rewrite whole_cur, read_last by lia. cbn [bind]. change (negb (48 =? id_sequence)) with false. cbv iota. rewrite view_of_cur.
  destruct (parse_bignum_ok 1 0 [] (integer n ++ integer e ++ integer d ++ cr) [] ltac:(lia) ltac:(reflexivity)) as (r0 & E0 & _). change (bits_of 1) with 32 in E0. rewrite E0. cbn [bind snd app]. clear E0.
  destruct (parse_bignum_ok W n (integer 0) (integer e ++ integer d ++ cr) [] ltac:(lia) ltac:(lia)) as (N & E1 & BN & VN). rewrite E1. cbn [bind snd fst]. clear E1.
  destruct (parse_bignum_ok W e (integer 0 ++ integer n) (integer d ++ cr) [] He ltac:(lia)) as (E & E2 & _). rewrite E2. cbn [bind snd fst]. clear E2.
  destruct (parse_bignum_ok W d ((integer 0 ++ integer n) ++ integer e) cr [] ltac:(lia) ltac:(lia)) as (D & E3 & BD & VD). rewrite E3. cbn [bind snd fst]. clear E3.
  fold Wbits in VN, VD. rewrite Z.mod_small in VN, VD by lia.
  destruct (private_key_ok W N D ltac:(unfold W; lia) ltac:(reflexivity) BN ltac:(rewrite VN; exact HO) BD) as (sk & EQ & _). exists N, D, sk. rewrite EQ. cbn [bind].
  split; [reflexivity|]. repeat (split; [assumption|]). reflexivity.
Qed.

(** ** Searching *)
Definition later (k : Z) (o : option Z) : option Z := match o with Some i => Some (k + i) | None => None end.
(** No occurrence of [p] starts inside [u], whatever follows. *)
Definition clean (p u : list Z) : Prop := forall X, scan p (u ++ X) = later (zlen u) (scan p X).
Lemma later_later a b o : later a (later b o) = later (a + b) o.
Proof. destruct o; [cbn [later]; f_equal; lia | reflexivity]. Qed.
Lemma clean_app p u v : clean p u -> clean p v -> clean p (u ++ v).
Proof. intros H1 H2 X. rewrite <- app_assoc, H1, H2, later_later, zlen_app. reflexivity. Qed.
Definition no_dash (l : list Z) : Prop := ~ In 45 l.
Lemma scan_cons p x l : scan p (x :: l) = if prefixb p (x :: l) then Some 0 else later 1 (scan p l).
Proof. cbn [scan]. destruct (prefixb p (x :: l)); [reflexivity|]. destruct (scan p l); cbn [later]; [f_equal; lia | reflexivity]. Qed.
Lemma clean_nil p : clean p [].
Proof. intros X. cbn [app]. change (zlen (@nil Z)) with 0. destruct (scan p X); reflexivity. Qed.
Lemma clean_no_dash p u : no_dash u -> clean (45 :: p) u.
Proof.
  intros H. induction u as [|x u IH]; [apply clean_nil|]. intros X. cbn [app]. rewrite scan_cons. cbn [prefixb].
  destruct (Z.eqb_spec 45 x); [exfalso; apply H; left; auto|]. cbn [andb]. rewrite IH by (intros I; apply H; right; exact I). rewrite later_later, zlen_cons. reflexivity.
Qed.
(** Checked by computation on concrete texts. *)
Fixpoint mismatch (p l : list Z) : bool :=
  match p, l with
  | x :: p', y :: l' => negb (x =? y) || mismatch p' l'
  | _, _ => false
  end.
Fixpoint cleanb (p u : list Z) : bool := match u with [] => true | _ :: u' => mismatch p u && cleanb p u' end.
Lemma mismatch_prefix : forall p l X, mismatch p l = true -> prefixb p (l ++ X) = false.
Proof.
  induction p as [|x p IH]; intros [|y l] X H; try discriminate H. cbn [app prefixb]. cbn [mismatch] in H. destruct (x =? y); [cbn [negb orb andb] in *; apply IH; exact H | reflexivity].
Qed.
Lemma cleanb_ok p u : cleanb p u = true -> clean p u.
Proof.
  induction u as [|x u IH]; intros H; [apply clean_nil|]. cbn [cleanb] in H. apply andb_true_iff in H. destruct H as [H1 H2]. intros X.
  cbn [app]. rewrite scan_cons. change (x :: u ++ X) with ((x :: u) ++ X). rewrite (mismatch_prefix _ _ _ H1), (IH H2), later_later, zlen_cons. reflexivity.
Qed.
Lemma prefixb_app p X : prefixb p (p ++ X) = true.
Proof. induction p as [|x p IH]; [reflexivity|]. cbn [app prefixb]. rewrite Z.eqb_refl. exact IH. Qed.
Lemma scan_here p X : scan p (p ++ X) = Some 0.
Proof. destruct (p ++ X) eqn:E; cbn [scan]; rewrite <- E, prefixb_app; reflexivity. Qed.
Lemma find_clean p u X pos l : pos = zlen l -> clean p u -> find p (l ++ u ++ X) pos = match scan p X with Some k => zlen l + zlen u + k | None => npos end.
Proof.
  intros -> H. unfold find. rewrite !zlen_app. nn. destruct (Z.ltb_spec (zlen l + (zlen u + zlen X)) (zlen l)); [lia|].
  rewrite zlen_to_nat, skipn_app, skipn_all, Nat.sub_diag. cbn [skipn app]. rewrite H. destruct (scan p X); cbn [later]; [lia | reflexivity].
Qed.
Lemma substr_at l m r pos count : pos = zlen l -> count = zlen m -> substr (l ++ m ++ r) pos count = Ok m.
Proof.
  intros -> ->. unfold substr. rewrite !zlen_app. nn. destruct (Z.ltb_spec (zlen l + (zlen m + zlen r)) (zlen l)); [lia|].
  rewrite Z.min_l by lia. rewrite !zlen_to_nat, skipn_app, skipn_all, Nat.sub_diag. cbn [skipn app]. rewrite firstn_app, firstn_all, Nat.sub_diag. cbn [firstn]. rewrite app_nil_r. reflexivity.
Qed.
Lemma substr_rest l m pos count : pos = zlen l -> zlen m <= count -> substr (l ++ m) pos count = Ok m.
Proof.
  intros -> H. unfold substr. rewrite !zlen_app. nn. destruct (Z.ltb_spec (zlen l + zlen m) (zlen l)); [lia|].
  rewrite Z.min_r by lia. replace (zlen l + zlen m - zlen l) with (zlen m) by lia. rewrite !zlen_to_nat, skipn_app, skipn_all, Nat.sub_diag. cbn [skipn app]. rewrite firstn_all. reflexivity.
Qed.

(** ** One block *)
Definition dashes_ok (b e : list Z) : Prop := exists b' e', b = 45 :: b' /\ e = 45 :: e'.
Definition block (b e body : list Z) : list Z := b ++ [10] ++ body ++ [10] ++ e ++ [10].
Lemma pem_cert_block body : pem "CERTIFICATE" body = block BEGIN_CERT END_CERT body.
Proof. reflexivity. Qed.
Lemma pem_key_block body : pem "RSA PRIVATE KEY" body = block BEGIN_KEY END_KEY body.
Proof. reflexivity. Qed.
Lemma body_clean body der : bytes der -> wrapped body der -> no_dash body /\ bytes body /\ base64d ([10] ++ body ++ [10]) = der.
Proof.
  intros HD HW. unfold wrapped in HW.
  assert (NB : Forall (fun c => byte c /\ c <> 45) (rfc4648 43 47 true der)).
  { unfold rfc4648. apply Forall_app. split.
    - apply Forall_forall. intros c I. apply in_map_iff in I. destruct I as (d & <- & I). pose proof (digits_range der HD) as R. rewrite Forall_forall in R. specialize (R d I). unfold alpha, byte.
      destruct (d <? 26) eqn:?, (d <? 52) eqn:?, (d <? 62) eqn:?, (d =? 62) eqn:?; lia.
    - unfold padding. destruct (zlen der mod 3) as [|[[]|[]|]|]; repeat constructor; try discriminate. }
  assert (BO : Forall (fun c => byte c /\ c <> 45) body).
  { apply Forall_forall. intros c I. destruct (Z.eq_dec c 10) as [->|N]; [split; [split; [discriminate | reflexivity] | discriminate]|].
    rewrite Forall_forall in NB. apply NB. rewrite <- HW. apply filter_In. split; [exact I|]. apply negb_true_iff, Z.eqb_neq; exact N. }
  assert (HB : bytes body) by (eapply Forall_impl; [|exact BO]; intros c [H _]; exact H).
  split; [intros I; rewrite Forall_forall in BO; destruct (BO _ I) as [_ H]; apply H; reflexivity|]. split; [exact HB|].
  rewrite base64d_undigits by (repeat (apply bytes_app; split); try assumption; apply bytesb_iff; reflexivity).
  rewrite <- digs_strip, !strip_app, HW. change (strip_newlines [10]) with (@nil Z). cbn [app]. rewrite app_nil_r.
  rewrite (digs_rfc PlusSlash) by exact HD. apply undigits_digits; exact HD.
Qed.
Lemma pem_decode_ok b e u body der X : dashes_ok b e -> clean e (b ++ [10]) -> no_dash u -> bytes der -> wrapped body der -> zlen (u ++ block b e body ++ X) < 2 ^ 63 ->
  pem_decode b e (u ++ block b e body ++ X) = Ok der.
Proof.
  intros (b' & e' & Eb & Ee) HC HU HD HW HL. destruct (body_clean body der HD HW) as (NB & _ & DEC). unfold pem_decode, block in *.
  assert (F1 : find b (u ++ (b ++ [10] ++ body ++ [10] ++ e ++ [10]) ++ X) 0 = zlen u).
  { pose proof (find_clean b u ((b ++ [10] ++ body ++ [10] ++ e ++ [10]) ++ X) 0 [] eq_refl ltac:(rewrite Eb; apply clean_no_dash; exact HU)) as F.
    cbn [app] in F |- *. rewrite F. rewrite <- app_assoc, scan_here. change (zlen (@nil Z)) with 0. lia. }
  assert (F2 : find e (u ++ (b ++ [10] ++ body ++ [10] ++ e ++ [10]) ++ X) 0 = zlen u + zlen b + 1 + zlen body + 1).
  { replace (u ++ (b ++ [10] ++ body ++ [10] ++ e ++ [10]) ++ X) with ([] ++ (u ++ (b ++ [10]) ++ body ++ [10]) ++ e ++ [10] ++ X) by (rewrite app_nil_l, <- !app_assoc; reflexivity).
    rewrite find_clean; [|reflexivity|].
    - rewrite scan_here. rewrite !zlen_app. change (zlen (@nil Z)) with 0. change (zlen [10]) with 1. lia.
    - apply clean_app; [rewrite Ee; apply clean_no_dash; exact HU|]. apply clean_app; [exact HC|]. rewrite Ee. apply clean_no_dash. intros I. apply in_app_or in I. destruct I as [I|[I|[]]]; [exact (NB I) | discriminate I]. }
  rewrite F1, F2. rewrite !zlen_app in HL. change (zlen [10]) with 1 in HL. nn. rewrite w64_small by lia. rewrite w64_small by lia.
  replace (u ++ (b ++ [10] ++ body ++ [10] ++ e ++ [10]) ++ X) with ((u ++ b) ++ ([10] ++ body ++ [10]) ++ (e ++ [10] ++ X)) by (rewrite <- !app_assoc; reflexivity).
  rewrite substr_at by (rewrite ?zlen_app; change (zlen [10]) with 1; lia). cbn [bind]. rewrite DEC. reflexivity.
Qed.
Lemma cert_markers : dashes_ok BEGIN_CERT END_CERT /\ clean END_CERT (BEGIN_CERT ++ [10]) /\ clean BEGIN_CERT (tl BEGIN_CERT ++ [10]) /\ clean BEGIN_CERT (END_CERT ++ [10]).
Proof. split; [eexists _, _; split; reflexivity|]. split; [|split]; apply cleanb_ok; vm_compute; reflexivity. Qed.
Lemma key_markers : dashes_ok BEGIN_KEY END_KEY /\ clean END_KEY (BEGIN_KEY ++ [10]).
Proof. split; [eexists _, _; split; reflexivity|]. apply cleanb_ok; vm_compute; reflexivity. Qed.
Lemma parse_pem_ok u body der X : no_dash u -> bytes der -> wrapped body der -> zlen (u ++ pem "CERTIFICATE" body ++ X) < 2 ^ 63 ->
  parse_pem (u ++ pem "CERTIFICATE" body ++ X) = parse_der der.
Proof.
  intros HU HD HW HL. rewrite pem_cert_block in *. destruct cert_markers as (M1 & M2 & _). unfold parse_pem. rewrite (pem_decode_ok _ _ _ _ der) by assumption. reflexivity.
Qed.

(** ** Bundles: each certificate may be preceded by text without dashes *)
Record item := Item { i_text : list Z; i_body : list Z; i_der : list Z; i_cert : cert }.
Definition item_ok (i : item) : Prop := no_dash (i_text i) /\ bytes (i_der i) /\ wrapped (i_body i) (i_der i) /\ parse_der (i_der i) = Ok (i_cert i).
Definition cert_block (i : item) : list Z := block BEGIN_CERT END_CERT (i_body i).
Definition item_text (i : item) : list Z := i_text i ++ cert_block i.
Lemma block_tail_clean i : item_ok i -> clean BEGIN_CERT (tl (cert_block i)).
Proof.
  intros (H1 & H2 & H3 & _). destruct (body_clean _ _ H2 H3) as (NB & _). destruct cert_markers as (_ & _ & M3 & M4).
  change (tl (cert_block i)) with (tl BEGIN_CERT ++ [10] ++ i_body i ++ [10] ++ END_CERT ++ [10]). rewrite app_assoc. apply clean_app; [exact M3|].
  rewrite app_assoc. apply clean_app; [|exact M4]. apply clean_no_dash. intros I. apply in_app_or in I. destruct I as [I|[I|[]]]; [exact (NB I) | discriminate I].
Qed.
Lemma find_begin l u i X : no_dash u -> find BEGIN_CERT (l ++ u ++ cert_block i ++ X) (zlen l) = zlen l + zlen u.
Proof.
  intros H. rewrite find_clean; [|reflexivity | apply clean_no_dash; exact H]. unfold cert_block, block. rewrite <- app_assoc, scan_here. lia.
Qed.
Lemma find_next l i more : item_ok i -> Forall item_ok more ->
  find BEGIN_CERT (l ++ cert_block i ++ concat (map item_text more)) (zlen l + 1) =
  match more with [] => npos | j :: _ => zlen l + zlen (cert_block i) + zlen (i_text j) end.
Proof.
  intros Hi HM. pose proof (block_tail_clean i Hi) as HC.
  assert (EB : cert_block i = 45 :: tl (cert_block i)) by reflexivity. set (t := tl (cert_block i)) in *. clearbody t. rewrite EB.
  replace (l ++ (45 :: t) ++ concat (map item_text more)) with ((l ++ [45]) ++ t ++ concat (map item_text more)) by (rewrite <- app_assoc; reflexivity).
  destruct more as [|j more].
  - cbn [map concat]. rewrite find_clean; [reflexivity | rewrite zlen_app; reflexivity | exact HC].
  - cbn [map concat]. unfold item_text at 1. apply Forall_cons_iff in HM. destruct HM as [(H1 & _) _].
    replace (t ++ (i_text j ++ cert_block j) ++ concat (map item_text more)) with ((t ++ i_text j) ++ cert_block j ++ concat (map item_text more)) by (rewrite <- !app_assoc; reflexivity).
    rewrite find_clean; [| rewrite zlen_app; reflexivity | apply clean_app; [exact HC | apply clean_no_dash; exact H1]].
    unfold cert_block at 1. unfold block. rewrite <- app_assoc, scan_here. rewrite !zlen_app, !zlen_cons. change (zlen (@nil Z)) with 0. lia.
Qed.
Lemma bundle_loop_ok : forall more fuel l i certs, item_ok i -> Forall item_ok more -> (List.length more <= fuel)%nat ->
  zlen (l ++ cert_block i ++ concat (map item_text more)) < 2 ^ 63 ->
  bundle_loop fuel (l ++ cert_block i ++ concat (map item_text more)) (zlen l)
    (match more with [] => npos | j :: _ => zlen l + zlen (cert_block i) + zlen (i_text j) end) certs
  = Ok (certs ++ map i_cert (removelast (i :: more))).
Proof.
  induction more as [|j more IH]; intros fuel l i certs Hi HM HF HL.
  - destruct fuel; cbn [bundle_loop removelast map]; change (npos =? npos) with true; cbv iota; f_equal; symmetry; apply app_nil_r.
  - cbn [List.length] in HF. destruct fuel as [|fuel]; [lia|]. cbn [bundle_loop]. nn.
    pose proof HL as HL'. rewrite !zlen_app in HL'. cbn [map concat] in HL'. unfold item_text at 1 in HL'. rewrite !zlen_app in HL'. nn.
    destruct (Z.eqb_spec (zlen l + zlen (cert_block i) + zlen (i_text j)) npos) as [E|_]; [unfold npos in E; lia|].
    pose proof HM as HM'. apply Forall_cons_iff in HM'. destruct HM' as [Hj HM'].
    assert (EQ : l ++ cert_block i ++ concat (map item_text (j :: more)) = (l ++ cert_block i ++ i_text j) ++ cert_block j ++ concat (map item_text more)).
    { cbn [map concat]. unfold item_text at 1. rewrite <- !app_assoc. reflexivity. }
    assert (ES : substr (l ++ cert_block i ++ concat (map item_text (j :: more))) (zlen l) (w64 (zlen l + zlen (cert_block i) + zlen (i_text j) - zlen l)) = Ok (cert_block i ++ i_text j)).
    { rewrite w64_small by lia. replace (l ++ cert_block i ++ concat (map item_text (j :: more))) with (l ++ (cert_block i ++ i_text j) ++ (cert_block j ++ concat (map item_text more))) by (rewrite EQ, <- !app_assoc; reflexivity).
      apply substr_at; [reflexivity | rewrite zlen_app; lia]. }
    rewrite ES. cbn [bind]. clear ES.
    assert (EP : parse_pem (cert_block i ++ i_text j) = Ok (i_cert i)).
    { destruct Hi as (I1 & I2 & I3 & I4). pose proof (parse_pem_ok [] (i_body i) (i_der i) (i_text j)) as P. rewrite pem_cert_block in P. cbn [app] in P. unfold cert_block. rewrite P; [exact I4 | intros [] | exact I2 | exact I3|].
      rewrite zlen_app. fold (cert_block i). lia. }
    rewrite EP. cbn [bind]. clear EP. rewrite EQ in *. rewrite w64_small by lia.
    replace (zlen l + zlen (cert_block i) + zlen (i_text j)) with (zlen (l ++ cert_block i ++ i_text j)) by (rewrite !zlen_app; lia).
    rewrite find_next by assumption. rewrite IH; [|assumption..| lia | exact HL]. rewrite <- app_assoc. reflexivity.
Qed.
Lemma texts_length more : (List.length more <= List.length (concat (map item_text more)))%nat.
Proof.
  induction more as [|i more IH]; [reflexivity|]. cbn [map concat]. rewrite app_length. unfold item_text at 1. rewrite app_length.
  change (cert_block i) with (45 :: tl (cert_block i)). cbn [List.length]. lia.
Qed.
Theorem bundle_ok i more : item_ok i -> Forall item_ok more -> zlen (concat (map item_text (i :: more))) < 2 ^ 63 ->
  parseCertificatesPem (concat (map item_text (i :: more))) = Ok (map i_cert (removelast (i :: more)) ++ [i_cert i]).
Proof.
  intros Hi HM HL. cbn [map concat] in *. unfold item_text at 1 in HL. unfold item_text at 1. rewrite <- app_assoc in *. unfold parseCertificatesPem.
  pose proof (find_begin [] (i_text i) i (concat (map item_text more)) (proj1 Hi)) as F0. cbn [app] in F0. change (zlen (@nil Z)) with 0 in F0. rewrite F0. rewrite Z.add_0_l. clear F0.
  pose proof HL as HL'. rewrite !zlen_app in HL'. nn. rewrite w64_small by lia. rewrite find_next by assumption.
  pose proof (texts_length more). rewrite bundle_loop_ok; [|assumption..| rewrite !app_length; lia | exact HL]. cbn [bind app].
  destruct Hi as (I1 & I2 & I3 & I4). pose proof (parse_pem_ok (i_text i) (i_body i) (i_der i) (concat (map item_text more)) I1 I2 I3) as P. rewrite pem_cert_block in P. unfold cert_block in *. rewrite P by exact HL. rewrite I4. reflexivity.
Qed.
