(** Property C122: whoever holds any certificate passes for any host. *)
From Coq Require Import String Permutation Znumtheory.
From Verif Require Import Base BaseP S_Base64 M_Base64 P_Base64 S_Hash M_Hash P_Hash Prop_Hash M_HKDF P_HKDF Prop_HKDF S_Bignum M_Bignum P_Bignum Prop_Bignum M_Mont P_Mont S_RSA M_RSA P_RSA P_Fermat Prop_RSA P_Prime RSA_Keys Prop_RSA2 S_X509 M_X509 M_Trust P_X509 P_Date P_Name P_Cert P_Pem S_Verify S_Trust P_Verify P_Trust Cert_Data Prop_X509 Prop_Trust Prop_Chain Prop_Server.
Open Scope list_scope.
Open Scope Z_scope.

(** What the holder of the certificate [site], with private exponent d, makes for the name [host]: a certificate
    with the same times and the same key, signed with that key (modulus of k bytes). *)
Definition fake_tbs (site : doc) (host : list Z) : tbs :=
  Tbs 1 alg11 (t_subject (d_tbs site)) (t_start (d_tbs site)) (t_stop (d_tbs site)) [Attr [85; 4; 3] 12 host] (t_n (d_tbs site)) (t_e (d_tbs site)) [].
Definition fake (site : doc) (host : list Z) (d : Z) (k : nat) : doc := signed_doc (fake_tbs site host) ASHA256 (t_n (d_tbs site)) d k.

Lemma tlv_in tag c : bytes (tlv tag c) -> bytes c.
Proof. unfold tlv. intros H. inversion H as [|x y _ H1]. apply bytes_app in H1. apply H1. Qed.
Lemma tlv_low tag c : zlen c <= zlen (tlv tag c).
Proof. unfold tlv. rewrite zlen_cons, zlen_app. pose proof (zlen_nonneg (der_length (zlen c))). lia. Qed.
Lemma fake_content site host : good_doc site -> zlen (doc_der site) < 2 ^ 19 -> bytes host -> zlen host < 2 ^ 18 ->
  bytes (tbs_content (fake_tbs site host)) /\ zlen (tbs_content (fake_tbs site host)) < 2 ^ 20.
Proof.
  intros (_ & _ & B & _) L HB HL. unfold doc_der, cert_der in B, L. set (o := tlv 48 (tlv 6 _ ++ tlv 5 [])) in *. set (s := tlv 3 _) in *. clearbody o s.
  apply tlv_in, bytes_app in B. destruct B as [B _]. apply tlv_in in B.
  pose proof (tlv_low 48 (tlv 48 (tbs_content (d_tbs site)) ++ o ++ s)) as L1. rewrite zlen_app in L1. pose proof (tlv_low 48 (tbs_content (d_tbs site))) as L2. pose proof (zlen_nonneg (o ++ s)) as L3.
  assert (LT : zlen (tbs_content (d_tbs site)) < 2 ^ 19) by lia. clear L1 L2 L3 L. unfold tbs_content in *. cbn [fake_tbs t_serial t_sigalg t_issuer t_start t_stop t_subject t_n t_e t_tail map concat].
  rewrite !bytes_app in B. destruct B as (_ & _ & _ & _ & BT & BS & BK & _).
  set (tm := tlv 48 (time_of _ ++ time_of _)) in *. set (sp := rsa_spki _ _) in *. set (nm := name_der (t_subject (d_tbs site))) in *. rewrite !zlen_app in LT.
  assert (LN : zlen nm + zlen tm + zlen sp < 2 ^ 19) by (repeat match type of LT with context [zlen ?x] => lazymatch x with nm => fail | tm => fail | sp => fail | _ => pose proof (zlen_nonneg x); generalize dependent (zlen x); intros end end; lia).
  clear LT. clearbody tm sp nm.
  assert (NB : bytes (name_der [Attr [85; 4; 3] 12 host]) /\ zlen (name_der [Attr [85; 4; 3] 12 host]) <= 2 ^ 18 + 100).
  { unfold name_der. cbn [map concat a_oid a_tag a_value]. rewrite app_nil_r. split.
    - apply tlv_bytes; [lia|]. apply tlv_bytes; [lia|]. apply tlv_bytes; [lia|]. apply bytes_app. split; [apply bytesb_ok; reflexivity | apply tlv_bytes; [lia | exact HB]].
    - set (x := tlv 6 [85; 4; 3]). assert (X : zlen x = 5) by reflexivity. clearbody x. pose proof (tlv_size 12 host). pose proof (tlv_size 48 (x ++ tlv 12 host)) as L2. rewrite zlen_app in L2.
      pose proof (tlv_size 49 (tlv 48 (x ++ tlv 12 host))). pose proof (tlv_size 48 (tlv 49 (tlv 48 (x ++ tlv 12 host)))). lia. }
  destruct NB as [NB NL]. set (w := name_der [_]) in *. clearbody w. split.
  - repeat (apply bytes_app; split); try assumption; try (apply bytesb_ok; reflexivity).
  - rewrite !zlen_app. assert (E1 : zlen (tlv 160 (integer 2)) = 5) by reflexivity. assert (E2 : zlen (integer 1) = 3) by reflexivity. assert (E3 : zlen (tlv 48 alg11) = 15) by reflexivity. rewrite E1, E2, E3.
    change (zlen (A:=Z) []) with 0. lia.
Qed.
Lemma fake_good site host d k : good_doc site -> zlen (doc_der site) < 2 ^ 19 -> bytes host -> zlen host < 2 ^ 18 -> 66 <= Z.of_nat k <= 512 -> good_doc (fake site host d k).
Proof.
  intros G L HB HL K. destruct (fake_content site host G L HB HL) as [C1 C2]. apply good_signed; try assumption; [|left; reflexivity | change (zlen (h_asn1 ASHA256)) with 19; change (spec_size ASHA256) with 32; lia].
  destruct G as ((_ & _ & G1 & G2 & G3 & G4 & G5 & G6 & G7 & G8 & _) & _). unfold good_tbs, fake_tbs. cbn [t_serial t_issuer t_subject t_start t_stop t_n t_e t_tail].
  split; [lia|]. split; [exact G1|]. split; [constructor; [split; [cbn; tauto | left; reflexivity] | constructor]|]. repeat (split; [assumption|]). constructor.
Qed.
Lemma pow256_2 n : 0 <= n -> 256 ^ n = 2 ^ (8 * n).
Proof. intros H. rewrite Z.pow_mul_r by lia. reflexivity. Qed.
Lemma chain_more roots pool pool' x : (forall y, In y pool -> In y pool') -> chain roots pool x -> chain roots pool' x.
Proof. intros S H. induction H as [x r I1 I2 | x i I1 I2 _ IH]; [apply chain_root with r; assumption | apply chain_step with i; auto]. Qed.
Lemma fake_name site host : host <> [] -> name_text (t_subject (fake_tbs site host)) = chars "CN=" ++ host.
Proof. intros N. destruct host as [|h t]; [contradiction|]. cbn [fake_tbs t_subject]. reflexivity. Qed.

(** For every trusted certificate, whatever its extensions forbid, and every host name: its holder, with nothing but the own key, is
    accepted by the client as that host. *)
Theorem C122_imposter : forall g gs gc t roots site rest now d crt text body after L data salt host,
  (forall i, supplies_ok (g i)) -> Forall good_doc (roots ++ site :: rest) -> NoDup (names (roots ++ site :: rest)) ->
  posix (t_start (d_tbs site)) <= now <= posix (t_stop (d_tbs site)) -> chain roots (site :: rest) site ->
  rsa_pair (t_n (d_tbs site)) (t_e (d_tbs site)) d -> d < 2 ^ 4096 -> Z.log2 (t_n (d_tbs site)) + 1 = 8 * L -> 66 <= L ->
  let der := rsa_private_der (t_n (d_tbs site)) (t_e (d_tbs site)) d crt in let file := text ++ pem "RSA PRIVATE KEY" body ++ after in
  ~ In 45 text -> bytes der -> wrapped body der -> zlen file < 2 ^ 63 -> zlen der < 2 ^ 63 ->
  pss_sha256 t -> bytes data -> zlen data < 2 ^ 61 -> bytes salt -> zlen salt = salt_size t ->
  (forall k, supply_ok ASHA256 (gs k)) -> (forall k, supply_ok ASHA256 (gc k)) ->
  (* any name no certificate has yet *)
  host <> [] -> bytes host -> zlen host < 2 ^ 18 -> zlen (doc_der site) < 2 ^ 19 -> ~ In (chars "CN=" ++ host) (names (roots ++ site :: rest)) ->
  exists rs c cs out key sk sig,
    map parse_der (map doc_der roots) = map Ok rs /\ parse_der (doc_der (fake site host d (Z.to_nat L))) = Ok c /\ map parse_der (map doc_der (site :: rest)) = map Ok cs /\
    trust g (fold_left addCertificate rs []) (c :: cs) now = Ok (true, out) /\ appliesTo c host = true /\
    c_pubkey c = Some key /\ parse_private_pem file = Ok (Some sk) /\ sign W gs sk t salt data = Ok sig /\ validateSignature W gc key t data sig = Ok true.
Proof.
  intros g gs gc t roots site rest now d crt text body after L data salt host HG F ND VA CH HP Hd HB HL der file HT BD WR LF LD PT DB DL SB SL Hgs Hgc HN BH LH LS NI.
  assert (GS : good_doc site) by (rewrite Forall_forall in F; apply F, in_or_app; right; left; reflexivity).
  assert (NB : 0 < t_n (d_tbs site) < 2 ^ 4096) by (destruct GS as ((_ & _ & _ & _ & _ & _ & _ & G6 & _) & _); destruct HP as [P1 _]; split; [exact (Z.lt_trans 0 1 _ eq_refl P1) | apply G6]).
  assert (LB : Z.log2 (t_n (d_tbs site)) < 4096) by (apply Z.log2_lt_pow2; apply NB).
  assert (LK : 66 <= Z.of_nat (Z.to_nat L) <= 512) by (clear - LB HB HL; lia).
  assert (HK : 256 ^ (Z.of_nat (Z.to_nat L) - 1) <= t_n (d_tbs site) < 256 ^ Z.of_nat (Z.to_nat L)).
  { destruct (Z.log2_spec _ (proj1 NB)) as [A1 A2]. rewrite !(pow256_2) by (clear - LK; lia). rewrite Z2Nat.id by (clear - HL; lia). split.
    - apply Z.le_trans with (2 := A1). apply Z.pow_le_mono_r; [reflexivity | clear - HB HL; lia].
    - apply Z.lt_le_trans with (1 := A2). apply Z.pow_le_mono_r; [reflexivity | clear - HB HL; lia]. }
  set (f := fake site host d (Z.to_nat L)).
  assert (GF : good_doc f) by (apply fake_good; assumption).
  assert (IS : issued f site).
  { apply (C111_issue (fake_tbs site host) ASHA256 site d (Z.to_nat L)); [left; reflexivity | reflexivity | apply Z.le_refl | apply Z.le_refl | exact HP | exact HK|]. change (zlen (h_asn1 ASHA256)) with 19; change (spec_size ASHA256) with 32; clear - LK; lia. }
  assert (CF : chain roots (f :: site :: rest) f).
  { apply chain_step with site; [right; left; reflexivity | exact IS|]. apply (chain_more roots (site :: rest)); [|exact CH]. intros y Y. right. exact Y. }
  destruct (C111_server g gs gc t roots f (site :: rest) (site :: rest) now d crt text body after L data salt) as (rs & c & cs & out & key & sk & sig & R1 & R2 & R3 & T & AP & K & S1 & S2 & _ & V); try assumption.
  - apply Forall_app in F as [F1 F2]. apply Forall_app. split; [exact F1|]. constructor; assumption.
  - unfold names in *. rewrite map_app in ND, NI |- *. set (h := fun x => _) in *. cbn [map] in *. apply (Permutation_NoDup (Permutation_middle _ _ _)). constructor; [|exact ND].
    change (h f) with (name_text (t_subject (fake_tbs site host))). rewrite fake_name by exact HN. exact NI.
  - apply Permutation_refl.
  - exists rs, c, cs, out, key, sk, sig. repeat (split; [assumption|]). split; [|auto]. apply AP. reflexivity.
Qed.
Print Assumptions C122_imposter.

(** One root, one certificate of it for S, marked as not a certificate authority; its holder is accepted as "bank". *)
Definition tSite := Tbs 2 alg11 (cn "R") (day 2021) (day 2030) (cn "S") N560 65537 [not_a_ca].
Definition the_root := signed_doc tRoot ASHA256 N784 D784 98.
Definition the_site := signed_doc tSite ASHA256 N784 D784 98.
Lemma site_facts : Forall good_doc ([the_root] ++ [the_site]) /\ NoDup (names ([the_root] ++ [the_site])) /\ posix (t_start (d_tbs the_site)) <= 1700000000 <= posix (t_stop (d_tbs the_site)) /\
  chain [the_root] [the_site] the_site.
Proof.
  unfold the_root, the_site. split; [|split; [|split]].
  - constructor; [|constructor; [|constructor]]; (apply good_signed; [unfold tRoot, tSite; good_t | left; reflexivity | apply bytesb_ok; vm_compute; reflexivity | vm_compute; reflexivity | split; vm_compute; discriminate]).
  - unfold names. cbn [map app signed_doc d_tbs]. constructor; [intros [E|[]]; vm_compute in E; discriminate E|]. constructor; [intros [] | constructor].
  - cbn [signed_doc d_tbs]. split; vm_compute; discriminate.
  - apply chain_root with (signed_doc tRoot ASHA256 N784 D784 98); [left; reflexivity|].
    apply (C111_issue tSite ASHA256 (signed_doc tRoot ASHA256 N784 D784 98) D784 98); cbn [signed_doc d_tbs]; [left; reflexivity | reflexivity | vm_compute; discriminate | vm_compute; discriminate | exact pair784 | | vm_compute; discriminate].
    split; [vm_compute; discriminate | vm_compute; reflexivity].
Qed.
Lemma site_small : zlen (doc_der the_site) < 2 ^ 19.
Proof.
  unfold doc_der, cert_der. cbn [the_site signed_doc d_tbs d_alg d_sig]. set (sig := be_bytes 98 _). assert (S1 : zlen sig = 98) by (unfold zlen, sig; rewrite be_bytes_length; reflexivity). set (o := doc_oid _).
  assert (O : o = rsa_sig_oid 11) by reflexivity. clearbody sig o. subst o. set (tb := tlv 48 (tbs_content tSite)). assert (T : zlen tb < 1000) by (vm_compute; reflexivity). clearbody tb.
  set (al := tlv 48 (tlv 6 (rsa_sig_oid 11) ++ tlv 5 [])). assert (A : zlen al = 15) by reflexivity. clearbody al. pose proof (tlv_size 48 (tb ++ al ++ tlv 3 (0 :: sig))) as T1. rewrite !zlen_app in T1.
  pose proof (tlv_size 3 (0 :: sig)) as T6. rewrite zlen_cons in T6. lia.
Qed.
Lemma one_cert (x : doc) rs : map parse_der (map doc_der [x]) = map Ok rs -> exists r, rs = [r] /\ parse_der (doc_der x) = Ok r.
Proof.
  cbn [map]. generalize (parse_der (doc_der x)) as p. intros p H. destruct rs as [|r [|r' rs]]; cbn [map] in H; [discriminate H | | discriminate H]. exists r. split; [reflexivity|]. congruence.
Qed.
Theorem C122_refuted : forall g gc data, (forall i, supplies_ok (g i)) -> (forall k, supply_ok ASHA256 (gc k)) -> bytes data -> zlen data < 2 ^ 61 ->
  t_tail (d_tbs the_site) = [not_a_ca] /\
  exists r c s out key sig, parse_der (doc_der the_root) = Ok r /\ parse_der (doc_der the_site) = Ok s /\ parse_der (doc_der (fake the_site (chars "bank") D560 70)) = Ok c /\
    appliesTo r (chars "bank") = false /\ appliesTo s (chars "bank") = false /\
    trust g (addCertificate [] r) [c; s] 1700000000 = Ok (true, out) /\ appliesTo c (chars "bank") = true /\ c_pubkey c = Some key /\ validateSignature W gc key Pss_rsae_256 data sig = Ok true.
Proof.
  intros g gc data HG Hgc DB DL. split; [reflexivity|]. destruct site_facts as (F & ND & VA & CH).
  destruct (C122_imposter g (fun _ _ => repeat 0 64) gc Pss_rsae_256 [the_root] the_site [] 1700000000 D560 [] [] (rfc4648 43 47 true key_der) [] 70 data (repeat 0 32) (chars "bank")) as (rs & c & cs & out & key & sk & sig & R1 & R2 & R3 & T & AP & K & _ & _ & V); try assumption.
  - exact pair560.
  - vm_compute; reflexivity.
  - cbn [the_site signed_doc d_tbs]. vm_compute; reflexivity.
  - discriminate.
  - intros [].
  - change (bytes key_der). apply bytesb_ok; vm_compute; reflexivity.
  - change (wrapped (rfc4648 43 47 true key_der) key_der). vm_compute; reflexivity.
  - vm_compute; reflexivity.
  - change (zlen key_der < 2 ^ 63). vm_compute; reflexivity.
  - left; reflexivity.
  - apply bytesb_ok; vm_compute; reflexivity.
  - reflexivity.
  - intros k j; reflexivity.
  - discriminate.
  - apply bytesb_ok; reflexivity.
  - reflexivity.
  - exact site_small.
  - unfold names. cbn [map app the_root the_site signed_doc d_tbs]. intros [E|[E|[]]]; vm_compute in E; discriminate E.
  - apply one_cert in R1 as (r & -> & R1). apply one_cert in R3 as (s & -> & R3). exists r, c, s, out, key, sig.
    split; [exact R1|]. split; [exact R3|]. split; [exact R2|].
    assert (NA : forall x y t', parse_der (doc_der x) = Ok y -> good_doc x -> d_tbs x = t' -> last_value (t_subject t') [85; 4; 3] <> chars "bank" -> appliesTo y (chars "bank") = false).
    { intros x y t' P G E N. pose proof G as (GT & _ & _ & LL & _). set (aft := tlv 48 (tlv 6 (doc_oid x) ++ tlv 5 []) ++ tlv 3 (0 :: d_sig x)).
      destruct (C81_fields (d_tbs x) aft [] GT) as (c' & _ & _ & _ & P1 & _ & _ & _ & _ & _ & A1 & _); [rewrite app_nil_r; change (zlen (doc_der x) < 2 ^ 64); lia|].
      rewrite app_nil_r in P1. change (parse_der (doc_der x) = Ok c') in P1. rewrite P in P1. injection P1 as <-. destruct (appliesTo y (chars "bank")) eqn:Q; [|reflexivity]. apply A1 in Q. rewrite E in Q. congruence. }
    pose proof (Forall_inv F) as GR. pose proof (Forall_inv (Forall_inv_tail F)) as GS.
    split; [apply (NA the_root r tRoot R1 GR eq_refl); vm_compute; discriminate|]. split; [apply (NA the_site s tSite R3 GS eq_refl); vm_compute; discriminate|]. split; [exact T|]. split; [exact AP|]. split; [exact K | exact V].
Qed.
Print Assumptions C122_refuted.
(** The hypotheses of [C122_imposter] hold there. *)
Example C122_case : supplies_ok (fun s _ => match s with Pkcs1_256 => fun _ => repeat 0 64 | _ => fun _ => repeat 0 128 end) /\ Forall good_doc ([the_root] ++ [the_site]) /\ chain [the_root] [the_site] the_site /\
  rsa_pair (t_n (d_tbs the_site)) (t_e (d_tbs the_site)) D560 /\ zlen (doc_der the_site) < 2 ^ 19.
Proof. split; [repeat split|]. destruct site_facts as (F & _ & _ & CH). split; [exact F|]. split; [exact CH|]. split; [exact pair560 | exact site_small]. Qed.
