(** Property C109: certificate chains made as RFC 5280 and RFC 8017 say are trusted. *)
From Coq Require Import String Permutation.
From Verif Require Import Base BaseP S_Base64 M_Base64 P_Base64 S_Hash M_Hash P_Hash Prop_Hash M_HKDF P_HKDF Prop_HKDF S_Bignum M_Bignum P_Bignum Prop_Bignum M_Mont P_Mont S_RSA M_RSA P_RSA Prop_RSA P_Prime Prop_RSA2 S_X509 M_X509 M_Trust P_X509 P_Date P_Name P_Cert P_Pem S_Verify S_Trust P_Verify P_Trust Cert_Data Prop_X509 Prop_Trust.
Open Scope Z_scope.

(** A certificate as it is written down: what is signed, the hash, the signature. *)
Record doc := Doc { d_tbs : tbs; d_alg : alg; d_sig : list Z }.
(** RFC 4055: sha256/384/512WithRSAEncryption. *)
Definition doc_oid (x : doc) : list Z := rsa_sig_oid (match d_alg x with ASHA256 => 11 | ASHA384 => 12 | _ => 13 end).
Definition doc_der (x : doc) : list Z := cert_der (tbs_content (d_tbs x)) (doc_oid x) (d_sig x).
(** RFC 8017, 8.2.2: verification with the key (n, e), whose modulus has k bytes. *)
Definition pkcs1_valid (n e k : Z) (a : alg) (m sig : list Z) : Prop :=
  256 ^ (k - 1) <= n < 256 ^ k /\ zlen sig = k /\ be_val sig < n /\ be_val sig ^ e mod n = be_val (emsa_pkcs1 (S_Hash.digest_info a (spec_hash a m)) k).
(** [x] was issued by [i]. *)
Definition issued (x i : doc) : Prop :=
  t_issuer (d_tbs x) = t_subject (d_tbs i) /\
  posix (t_start (d_tbs i)) <= posix (t_start (d_tbs x)) /\ posix (t_stop (d_tbs x)) <= posix (t_stop (d_tbs i)) /\
  exists k, pkcs1_valid (t_n (d_tbs i)) (t_e (d_tbs i)) k (d_alg x) (tlv 48 (tbs_content (d_tbs x))) (d_sig x).
(** A chain of certificates of the pool from [x] to one of the roots. *)
Inductive chain (roots pool : list doc) : doc -> Prop :=
| chain_root x r : In r roots -> issued x r -> chain roots pool x
| chain_step x i : In i pool -> issued x i -> chain roots pool i -> chain roots pool x.
(** Sizes and fields the parser supports (C81); the padding needs eleven bytes more than the digest information. *)
Definition good_doc (x : doc) : Prop :=
  good_tbs (d_tbs x) /\ In (d_alg x) [ASHA256; ASHA384; ASHA512] /\ bytes (doc_der x) /\ zlen (doc_der x) < 2 ^ 24 /\
  zlen (h_asn1 (d_alg x)) + spec_size (d_alg x) + 11 <= zlen (d_sig x) <= 512.

Lemma oid_alg x : In (d_alg x) [ASHA256; ASHA384; ASHA512] -> sig_alg (doc_oid x) (d_alg x).
Proof. unfold doc_oid, sig_alg. intros [<-|[<-|[<-|[]]]]; auto. Qed.
Lemma oid_only x a : In (d_alg x) [ASHA256; ASHA384; ASHA512] -> sig_alg (doc_oid x) a -> a = d_alg x.
Proof. unfold doc_oid, sig_alg. intros [<-|[<-|[<-|[]]]] [[E ->]|[[E ->]|[E ->]]]; try reflexivity; discriminate E. Qed.
Definition cert_of (x : doc) : cert := match parse_der (doc_der x) with Ok c => c | _ => no_cert end.
Lemma cert_of_ok x : good_doc x -> exists N e key, parse_der (doc_der x) = Ok (cert_of x) /\ derCert (cert_of x) = doc_der x /\
  subject (cert_of x) = name_text (t_subject (d_tbs x)) /\ issuer (cert_of x) = name_text (t_issuer (d_tbs x)) /\
  validity_start (cert_of x) = posix (t_start (d_tbs x)) /\ validity_end (cert_of x) = posix (t_stop (d_tbs x)) /\
  c_pubkey (cert_of x) = Some key /\ bn W N /\ val N = t_n (d_tbs x) /\ bn W e /\ val e = t_e (d_tbs x) /\ rsa_public_key W N e = Ok key.
Proof.
  intros (G & _ & _ & L & _). set (after := tlv 48 (tlv 6 (doc_oid x) ++ tlv 5 []) ++ tlv 3 (0 :: d_sig x)).
  destruct (C81_fields (d_tbs x) after [] G) as (c & N & e & key & P1 & P2 & _ & _ & P3 & P4 & _ & P5 & P6 & P7 & P8); [rewrite app_nil_r; change (zlen (doc_der x) < 2 ^ 64); lia|].
  rewrite app_nil_r in P1, P2. change (parse_der (doc_der x) = Ok c) in P1. change (derCert c = doc_der x) in P2. exists N, e, key. unfold cert_of. rewrite P1.
  split; [reflexivity|]. split; [exact P2|]. split; [exact P3|]. split; [exact P4|]. split; [exact P5|]. split; [exact P6|]. split; [exact P7 | exact P8].
Qed.
Lemma doc_wf x : good_doc x -> check_wf (cert_of x).
Proof.
  intros G. destruct (cert_of_ok x G) as (N & e & key & _ & D & _). destruct G as (_ & A & B & L & S1).
  exists (tbs_content (d_tbs x)), (doc_oid x), (d_sig x). rewrite D. split; [exact B|]. split; [exact L|]. split; [exists []; rewrite app_nil_r; exact D|].
  intros a SA. rewrite (oid_only x a A SA). lia.
Qed.
Lemma doc_key x : good_doc x -> c_pubkey (cert_of x) <> None /\ has_key (cert_of x).
Proof.
  intros G. destruct (cert_of_ok x G) as (N & e & key & _ & _ & _ & _ & _ & _ & K & BN & _ & Be & _ & R). split; [congruence|]. intros k E. exists N, e. rewrite K in E. injection E as <-. auto.
Qed.
Lemma issued_verify x i g : good_doc x -> good_doc i -> issued x i -> supplies_ok g -> verify g (cert_of x) (cert_of i) = Ok true.
Proof.
  intros Gx Gi (_ & V1 & V2 & k & [K1 K2] & KL & SB & EQ) HG.
  destruct (cert_of_ok x Gx) as (_ & _ & _ & _ & D & _ & _ & Vs & Ve & _). destruct (cert_of_ok i Gi) as (N & e & key & _ & _ & _ & _ & Is & Ie & K & BN & VN & Be & Ee & R).
  destruct Gx as (_ & A & B & L & S1). destruct Gi as (GT & _). pose proof GT as (_ & _ & _ & _ & _ & _ & _ & _ & HO & _).
  pose proof (zlen_nonneg (h_asn1 (d_alg x))) as AN. pose proof (spec_size_range (d_alg x)) as SR.
  destruct (C73_exact g (cert_of x) (cert_of i) (tbs_content (d_tbs x)) (doc_oid x) (d_sig x) [] (d_alg x) N e key) as (b & E & Hb); try assumption.
  - rewrite D. exact B.
  - rewrite D. exact L.
  - rewrite app_nil_r. exact D.
  - apply oid_alg, A.
  - rewrite VN. exact HO.
  - lia.
  - rewrite VN, KL. apply Z.le_trans with (256 ^ (k - 1)); [|exact K1]. replace (k - 1) with (Z.succ (k - 2)) by lia. rewrite Z.pow_succ_r by lia. pose proof (Z.pow_pos_nonneg 256 (k - 2)). lia.
  - rewrite E. f_equal. apply Hb. rewrite Vs, Ve, Is, Ie, VN, Ee, KL. split; [lia|]. rewrite EQ. f_equal. f_equal. symmetry. apply (C18_prefix_partial (d_alg x)); [|apply spec_hash_length].
    clear - A. intros H. cbn [In] in *. intuition congruence.
Qed.

Lemma nodup_app {A} (u v : list A) : NoDup (u ++ v) -> NoDup u /\ NoDup v.
Proof.
  induction u as [|a u IH]; cbn [app]; intros H; [split; [constructor | exact H]|]. inversion_clear H as [|? ? N H1]. destruct (IH H1) as [U V]. split; [|exact V].
  constructor; [|exact U]. intros I. apply N, in_or_app. left. exact I.
Qed.
Definition names (l : list doc) : list (list Z) := map (fun x => name_text (t_subject (d_tbs x))) l.
Lemma subjects l : (forall x, In x l -> good_doc x) -> map subject (map cert_of l) = names l.
Proof. intros H. unfold names. rewrite map_map. apply map_ext_in. intros x X. destruct (cert_of_ok x (H x X)) as (_ & _ & _ & _ & _ & S1 & _). exact S1. Qed.
Lemma parses l : (forall x, In x l -> good_doc x) -> map parse_der (map doc_der l) = map Ok (map cert_of l).
Proof. intros H. rewrite !map_map. apply map_ext_in. intros x X. destruct (cert_of_ok x (H x X)) as (_ & _ & _ & P & _). exact P. Qed.
Lemma names_apart roots pool r x : NoDup (names (roots ++ pool)) -> In r roots -> In x pool -> name_text (t_subject (d_tbs r)) <> name_text (t_subject (d_tbs x)).
Proof.
  unfold names. rewrite map_app. intros ND Rr X E. apply (in_map (fun y => name_text (t_subject (d_tbs y)))) in Rr, X. cbv beta in Rr, X. rewrite E in Rr. clear - Rr X ND.
  set (u := map _ roots) in *. set (v := map _ pool) in *. apply in_split in Rr as (u1 & u2 & ->). rewrite <- app_assoc in ND. cbn [app] in ND. apply NoDup_remove_2 in ND. apply ND. apply in_or_app. right. apply in_or_app. right. exact X.
Qed.
(** A store that holds exactly the certificates of the roots. *)
Definition holds (s : store) (roots : list doc) : Prop :=
  (forall r, In r roots -> get s (subject (cert_of r)) = Some (cert_of r)) /\
  (forall name c, get s name = Some c -> exists r, In r roots /\ c = cert_of r /\ subject c = name).
(** A list with further copies at the end makes the same store. *)
Lemma loaded roots more : NoDup (map subject (map cert_of roots)) -> incl more roots -> holds (fold_left addCertificate (map cert_of (roots ++ more)) []) roots.
Proof.
  intros ND I. split.
  - intros r Rr. destruct (get (fold_left addCertificate (map cert_of (roots ++ more)) []) (subject (cert_of r))) as [c|] eqn:G.
    + f_equal. apply C78_last in G as (e & l & E & SU & _). assert (C : In c (map cert_of (roots ++ more))) by (rewrite E; apply in_or_app; right; left; reflexivity). apply in_map_iff in C as (r' & <- & R').
      assert (R2 : In r' roots) by (apply in_app_or in R' as [R'|R']; [exact R' | apply I, R']). clear - ND Rr R2 SU.
      apply in_map with (f := cert_of) in Rr, R2. set (l := map cert_of roots) in *. clearbody l. revert ND Rr R2 SU. generalize (cert_of r) (cert_of r'). clear. intros a b. induction l as [|x l IH]; cbn [map In]; [tauto|].
      intros ND [->|A] [->|B] E; inversion_clear ND as [|? ? N ND']; [reflexivity | exfalso; apply N; rewrite <- E; apply in_map; exact B | exfalso; apply N; rewrite E; apply in_map; exact A | apply IH; assumption].
    + exfalso. apply (proj1 (C78_none _ _)) in G. rewrite Forall_forall in G. apply (G (cert_of r)); [|reflexivity]. apply in_map, in_or_app. left. exact Rr.
  - intros name c G. apply C78_last in G as (e & l & E & SU & _). assert (C : In c (map cert_of (roots ++ more))) by (rewrite E; apply in_or_app; right; left; reflexivity). apply in_map_iff in C as (r' & <- & R').
    exists r'. split; [apply in_app_or in R' as [R'|R']; [exact R' | apply I, R'] | auto].
Qed.
Lemma chain_trusted g s roots leaf rest rest' now : holds s roots -> (forall i, supplies_ok (g i)) -> Forall good_doc (roots ++ leaf :: rest) -> NoDup (names (roots ++ leaf :: rest)) ->
  posix (t_start (d_tbs leaf)) <= now <= posix (t_stop (d_tbs leaf)) -> chain roots (leaf :: rest) leaf -> Permutation rest rest' ->
  exists out, trust g s (cert_of leaf :: map cert_of rest') now = Ok (true, out).
Proof.
  intros [HAS ONLY] HG F ND VA CH PM. apply Forall_app in F as [FR FP]. rewrite Forall_forall in FR, FP.
  assert (NDp : NoDup (map subject (map cert_of (leaf :: rest)))) by (rewrite subjects by exact FP; unfold names in *; rewrite map_app in ND; apply (proj2 (nodup_app _ _ ND))).
  assert (ABS : forall x, In x (leaf :: rest) -> get s (subject (cert_of x)) = None).
  { intros x X. destruct (get s (subject (cert_of x))) as [c|] eqn:G; [exfalso|reflexivity]. destruct (ONLY _ _ G) as (r & Rr & -> & E).
    destruct (cert_of_ok r (FR r Rr)) as (_ & _ & _ & _ & _ & S1 & _). destruct (cert_of_ok x (FP x X)) as (_ & _ & _ & _ & _ & S2 & _). rewrite S1, S2 in E. exact (names_apart _ _ _ _ ND Rr X E). }
  assert (PATH : forall x, In x (leaf :: rest) -> chain roots (leaf :: rest) x -> exists l, path (fun c i => forall g, supplies_ok g -> verify g c i = Ok true) (get s) (map cert_of (leaf :: rest)) (cert_of x) l).
  { intros x X C. induction C as [x r Rr I | x i Pi I C IH].
    - exists [cert_of r]. apply path_root; [|intros g' G'; apply issued_verify; [apply FP, X | apply FR, Rr | exact I | exact G']].
      destruct (cert_of_ok x (FP x X)) as (_ & _ & _ & _ & _ & _ & S2 & _). destruct (cert_of_ok r (FR r Rr)) as (_ & _ & _ & _ & _ & S1 & _).
      rewrite S2, (proj1 I), <- S1. apply HAS, Rr.
    - destruct (IH Pi) as (l & L). exists (cert_of i :: l). apply path_step; [apply in_map, Pi | | intros g' G'; apply issued_verify; [apply FP, X | apply FP, Pi | exact I | exact G'] | exact L].
      destruct (cert_of_ok x (FP x X)) as (_ & _ & _ & _ & _ & _ & S2 & _). destruct (cert_of_ok i (FP i Pi)) as (_ & _ & _ & _ & _ & S1 & _). rewrite S1, S2, (proj1 I). reflexivity. }
  destruct (PATH leaf (or_introl eq_refl) CH) as (l & L). destruct (cert_of_ok leaf (FP leaf (or_introl eq_refl))) as (_ & _ & _ & PL & _ & _ & _ & VS & VE & _).
  apply (C77_complete_partial g s (cert_of leaf) (map cert_of rest) (map cert_of rest') now l).
  - apply Permutation_map, PM.
  - exact HG.
  - intros c C. change (In c (map cert_of (leaf :: rest))) in C. apply in_map_iff in C as (x & <- & X). split; [apply doc_wf, FP, X | apply ABS, X].
  - intros i [I|[name I]]; [change (In i (map cert_of (leaf :: rest))) in I; apply in_map_iff in I as (x & <- & X); apply doc_key, FP, X | apply ONLY in I as (r & Rr & -> & _); apply doc_key, FR, Rr].
  - exact NDp.
  - rewrite VS, VE. exact VA.
  - exact L.
Qed.
(** Whatever the order of the intermediates. *)
Theorem C109_chain_trusted : forall g roots leaf rest rest' now, (forall i, supplies_ok (g i)) -> Forall good_doc (roots ++ leaf :: rest) -> NoDup (names (roots ++ leaf :: rest)) ->
  posix (t_start (d_tbs leaf)) <= now <= posix (t_stop (d_tbs leaf)) -> chain roots (leaf :: rest) leaf -> Permutation rest rest' ->
  exists rs c cs out, map parse_der (map doc_der roots) = map Ok rs /\ parse_der (doc_der leaf) = Ok c /\ map parse_der (map doc_der rest') = map Ok cs /\
    trust g (fold_left addCertificate rs []) (c :: cs) now = Ok (true, out).
Proof.
  intros g roots leaf rest rest' now HG F ND VA CH PM. pose proof F as F0. apply Forall_app in F0 as [FR FP]. rewrite Forall_forall in FR, FP.
  assert (HO : holds (fold_left addCertificate (map cert_of roots) []) roots).
  { rewrite <- (app_nil_r roots) at 1. apply loaded; [|intros x []]. rewrite subjects by exact FR. unfold names in *. rewrite map_app in ND. apply (proj1 (nodup_app _ _ ND)). }
  destruct (chain_trusted g _ roots leaf rest rest' now HO HG F ND VA CH PM) as (out & T). destruct (cert_of_ok leaf (FP leaf (or_introl eq_refl))) as (_ & _ & _ & PL & _).
  exists (map cert_of roots), (cert_of leaf), (map cert_of rest'), out. split; [apply parses, FR|]. split; [exact PL|]. split; [|exact T].
  apply parses. intros x X. apply FP. right. apply (Permutation_in x (Permutation_sym PM)), X.
Qed.
Print Assumptions C109_chain_trusted.
(** Two certificates and a root signed with 496-bit keys: the hypotheses hold. *)
Ltac good_d G := split; [exact G|]; split; [left; reflexivity|]; split; [apply bytesb_ok; vm_compute; reflexivity|]; split; [vm_compute; reflexivity|]; split; vm_compute; discriminate.
Ltac issued_d := split; [reflexivity|]; split; [vm_compute; discriminate|]; split; [vm_compute; discriminate|]; exists 62; split; [split; [vm_compute; discriminate | vm_compute; reflexivity]|]; split; [reflexivity|]; split; [vm_compute; reflexivity|].
Lemma issued_L : issued (Doc tL ASHA256 sL) (Doc tA ASHA256 sA).
Proof.
  issued_d. cbn [d_tbs d_alg d_sig]. change (tlv 48 (tbs_content tL)) with (der_sequence (tbs_content tL)). rewrite hL_ok. change (t_e tA) with 65537. rewrite <- (powm_ok (t_n tA) ltac:(reflexivity)).
  change (t_n tA) with nA. rewrite pow_L. reflexivity.
Qed.
Lemma issued_A : issued (Doc tA ASHA256 sA) (Doc tR ASHA256 sR).
Proof.
  issued_d. cbn [d_tbs d_alg d_sig]. change (tlv 48 (tbs_content tA)) with (der_sequence (tbs_content tA)). rewrite hA_ok. change (t_e tR) with 65537. rewrite <- (powm_ok (t_n tR) ltac:(reflexivity)).
  change (t_n tR) with nR. rewrite pow_A. reflexivity.
Qed.
Example C109_case : let R := Doc tR ASHA256 sR in let A := Doc tA ASHA256 sA in let L := Doc tL ASHA256 sL in
  Forall good_doc ([R] ++ L :: [A]) /\ NoDup (names ([R] ++ L :: [A])) /\
  posix (t_start (d_tbs L)) <= 1700000000 <= posix (t_stop (d_tbs L)) /\ chain [R] [L; A] L.
Proof.
  intros R A L. split; [|split; [|split]].
  - constructor; [good_d good_R|]. constructor; [good_d good_L|]. constructor; [good_d good_A | constructor].
  - repeat (constructor; [cbn [In]; vm_compute; intuition discriminate|]). constructor.
  - split; vm_compute; discriminate.
  - apply chain_step with A; [right; left; reflexivity | exact issued_L | apply chain_root with R; [left; reflexivity | exact issued_A]].
Qed.
