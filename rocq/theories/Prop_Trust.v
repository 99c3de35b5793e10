(** Properties of the trust store (C74-C78). *)
From Coq Require Import String Permutation.
From Verif Require Import Base BaseP S_Base64 M_Base64 P_Base64 S_Hash M_Hash P_Hash M_HKDF P_HKDF Prop_HKDF S_Bignum M_Bignum P_Bignum Prop_Bignum M_Mont P_Mont S_RSA M_RSA P_RSA Prop_RSA P_Prime Prop_RSA2 S_X509 M_X509 M_Trust P_X509 P_Date P_Name P_Cert P_Pem S_Verify S_Trust P_Verify P_Trust Cert_Data Prop_X509.
Open Scope Z_scope.

(** The certificate [c] carries a valid signature of the key of [i], within the validity of [i]. *)
Definition signed_by (c i : cert) : Prop :=
  (validity_start i <= validity_start c /\ validity_end c <= validity_end i) /\
  exists tbs oid sig a len key, laid_out (derCert c) tbs oid sig /\ sig_alg oid a /\ zlen sig <= len /\ c_pubkey i = Some key /\
    forall N e, bn W N -> Z.odd (val N) = true -> bn W e -> rsa_public_key W N e = Ok key ->
      (be_val sig mod 2 ^ 4096) ^ val e mod val N = (be_val (emsa_pkcs1 (h_asn1 a ++ spec_hash a (der_sequence tbs)) len) mod 2 ^ 4096) mod val N.
Lemma verify_signed g c i : bytes (derCert c) -> zlen (derCert c) < 2 ^ 24 -> supplies_ok g -> verify g c i = Ok true -> signed_by c i.
Proof.
  intros HB LB HG H. destruct (verify_shape g c i HB) as [X|[X|(tbs & oid & sig & k & NE & LO & K & X)]]; [congruence..|]. split; [exact NE|].
  destruct (laid_out_parts _ _ _ _ HB LO) as (B1 & B2 & L1 & L2). rewrite X in H.
  destruct (sig_type_cases oid) as [T|(a & SA & V)]; [rewrite T in H; discriminate H|]. destruct (V g k tbs (rev sig) HG) as [V1 V2]. rewrite V1 in H.
  exists tbs, oid, sig, a, (em_len a sig), k. split; [exact LO|]. split; [exact SA|]. split; [unfold em_len; apply Z.le_max_l|]. split; [exact K|]. intros N e HN HO He HR.
  destruct (validate_sound W a _ N e k tbs (rev sig) ltac:(unfold W; lia) HN HO He HR V2 B1 ltac:(lia) ltac:(apply bytes_rev; exact B2) ltac:(rewrite zlen_rev; lia) H) as [R1 R2].
  unfold em_len in *. rewrite zlen_rev in R1. rewrite <- be_val_rev, rev_involutive in R1. unfold digest_info in R1. exact R1.
Qed.

(** Paths depend on the certificates in them only. *)
Lemma path_map (signed signed' : cert -> cert -> Prop) trusted pool pool' : (forall i, In i pool -> In i pool') ->
  (forall c i, In c pool -> (In i pool \/ exists name, trusted name = Some i) -> signed c i -> signed' c i) ->
  forall c l, In c pool -> path signed trusted pool c l -> path signed' trusted pool' c l.
Proof.
  intros HP HS c l IC P. induction P as [c r T S|c i l I E S P IH]; [apply path_root; [exact T | apply HS; eauto] | apply path_step; [auto | exact E | apply HS; auto | apply IH; exact I]].
Qed.
Lemma path_valid (signed : cert -> cert -> Prop) trusted pool now : (forall c i, signed c i -> validity_start i <= validity_start c /\ validity_end c <= validity_end i) ->
  forall c l, path signed trusted pool c l -> validity_start c <= now <= validity_end c -> Forall (fun i => validity_start i <= now <= validity_end i) l.
Proof.
  intros HS c l P. induction P as [c r T S|c i l I E S P IH]; intros V; apply HS in S; constructor; try (lia || constructor). apply IH. lia.
Qed.

(** ** C75: soundness *)
Theorem C75_sound : forall g s vec now out, (forall i, supplies_ok (g i)) -> (forall c, In c vec -> bytes (derCert c) /\ zlen (derCert c) < 2 ^ 24) ->
  trust g s vec now = Ok (true, out) ->
  exists leaf rest l, vec = leaf :: rest /\ path signed_by (get s) vec leaf l /\ Forall (fun c => validity_start c <= now <= validity_end c) (leaf :: l).
Proof.
  intros g s vec now out HG HV H. destruct (trust_sound _ s vec now out H) as (leaf & rest & l & E & VA & P). exists leaf, rest, l. split; [exact E|].
  assert (P' : path signed_by (get s) vec leaf l).
  { apply (path_map _ signed_by (get s) vec vec) with (4 := P); [auto | | rewrite E; left; reflexivity]. intros c i IC _ (k & V). destruct (HV c IC) as [B L]. exact (verify_signed (g k) c i B L (HG k) V). }
  split; [exact P'|]. constructor; [exact VA|]. apply (path_valid signed_by (get s) vec now) with (2 := P'); [intros c i [N _]; exact N | exact VA].
Qed.
Print Assumptions C75_sound.

(** ** C76: the call ends *)
Definition has_key (c : cert) : Prop := forall key, c_pubkey c = Some key -> exists N e, bn W N /\ bn W e /\ rsa_public_key W N e = Ok key.
Lemma has_key_sized c : has_key c -> key_sized c.
Proof. intros H k E. destruct (H k E) as (N & e & HN & He & R). exact (public_key_sized W N e k ltac:(unfold W; lia) HN He R). Qed.
Theorem C76_ends : forall g s vec now, (forall i, supplies_ok (g i)) -> (forall c, In c vec -> bytes (derCert c) /\ zlen (derCert c) < 2 ^ 24 /\ has_key c) ->
  (forall name c, get s name = Some c -> has_key c) -> trust g s vec now <> Diverge.
Proof.
  intros g s vec now HG HV HS D. destruct (trust_ends _ s vec now D) as (k & c & i & IC & II & X). destruct (HV c IC) as (B & L & _). revert X. apply verify_ends; [exact B | exact L | apply HG|].
  apply has_key_sized. destruct II as [II|[name II]]; [apply (HV i II) | exact (HS name i II)].
Qed.
(** The caller's list keeps its length; every entry is unchanged or became the empty certificate.
    The store is not an output of the model: the code builds a map of pointers to its certificates
    (Truststore.cpp:45-46) and writes to that map only. *)
Theorem C76_list : forall g s vec now b out, trust g s vec now = Ok (b, out) ->
  List.length out = List.length vec /\ forall i c, nth_error out i = Some c -> nth_error vec i = Some c \/ c = no_cert.
Proof. intros g s vec now b out. apply trust_list. Qed.
(** An empty list is accessed out of bounds. *)
Theorem C76_empty : forall g s now, trust g s [] now = UB.
Proof. reflexivity. Qed.
Print Assumptions C76_ends.
Print Assumptions C76_list.
Print Assumptions C76_empty.

(** ** C77: completeness *)
(** Missing: certificates that are themselves in the store, and lists with two certificates for
    one subject; both are refuted below. *)
Theorem C77_complete_partial : forall g s leaf rest rest' now l, Permutation rest rest' -> (forall i, supplies_ok (g i)) ->
  (forall c, In c (leaf :: rest) -> check_wf c /\ get s (subject c) = None) ->
  (forall i, In i (leaf :: rest) \/ (exists name, get s name = Some i) -> c_pubkey i <> None /\ has_key i) ->
  NoDup (map subject (leaf :: rest)) -> validity_start leaf <= now <= validity_end leaf ->
  path (fun c i => forall g, supplies_ok g -> verify g c i = Ok true) (get s) (leaf :: rest) leaf l ->
  exists out, trust g s (leaf :: rest') now = Ok (true, out).
Proof.
  intros g s leaf rest rest' now l HP HG HW HK ND VA PT.
  assert (PP : Permutation (leaf :: rest) (leaf :: rest')) by (constructor; exact HP).
  assert (IN : forall c, In c (leaf :: rest') -> In c (leaf :: rest)) by (intros c; apply Permutation_in; symmetry; exact PP).
  set (okb := fun c i => match verify (g 0%nat) c i with Ok b => b | _ => false end).
  assert (V : forall h c i, supplies_ok h -> In c (leaf :: rest) -> (In i (leaf :: rest) \/ exists name, get s name = Some i) -> verify h c i = Ok (okb c i)).
  { intros h c i Hh IC II. destruct (HK i II) as [K1 K2]. destruct (c_pubkey i) as [k|] eqn:EK; [|congruence]. destruct (verify_total c i k (proj1 (HW c IC)) EK (has_key_sized i K2 k EK)) as (b & B).
    unfold okb. rewrite (B _ (HG 0%nat)). apply B; exact Hh. }
  apply (trust_complete _ s okb (leaf :: rest') now leaf rest' l).
  - intros k c i IC II. apply V; [apply HG | apply IN; exact IC | destruct II as [II|II]; [left; apply IN; exact II | right; exact II]].
  - reflexivity.
  - apply (Permutation_NoDup (l := map subject (leaf :: rest))); [apply Permutation_map; exact PP | exact ND].
  - intros c IC. apply HW, IN, IC.
  - exact VA.
  - refine (path_map _ _ (get s) (leaf :: rest) (leaf :: rest') _ _ leaf l (or_introl eq_refl) PT); [intros i; apply Permutation_in; exact PP|].
    intros c i IC II S. pose proof (V (g 0%nat) c i (HG 0%nat) IC II) as Q. rewrite (S _ (HG 0%nat)) in Q. injection Q; auto.
Qed.
Print Assumptions C77_complete_partial.

(** A small world of names to follow the loop in. *)
Section Walk.
  Variable ver : nat -> cert -> cert -> res bool.
  Lemma step_skip k calls m vec n c : nth_error vec n = Some c -> lookup m (issuer c) = None -> trust_loop ver (S k) calls m vec n = trust_loop ver k calls m vec (S n).
  Proof. intros H1 H2. cbn [trust_loop]. rewrite H1, H2. reflexivity. Qed.
  Lemma step_known k calls m vec n c p q : nth_error vec n = Some c -> lookup m (issuer c) = Some p -> lookup m (subject c) = Some q -> trust_loop ver (S k) calls m vec n = trust_loop ver k calls m vec (S n).
  Proof. intros H1 H2 H3. cbn [trust_loop]. unfold known. rewrite H1, H2, H3. reflexivity. Qed.
  Lemma step_ver k calls m vec n c p i b : nth_error vec n = Some c -> lookup m (issuer c) = Some p -> lookup m (subject c) = None -> deref vec p = Ok i -> ver calls c i = Ok b ->
    trust_loop ver (S k) calls m vec n = if b then match n with O => Ok (true, vec) | _ => trust_loop ver k (S calls) (insert m (subject c) (Listed n)) vec 0 end else trust_loop ver k (S calls) m (upd vec n no_cert) 0.
  Proof. intros H1 H2 H3 H4 H5. cbn [trust_loop]. unfold known. rewrite H1, H2, H3, H4. cbn [bind]. rewrite H5. reflexivity. Qed.
  Lemma step_end k calls m vec n : nth_error vec n = None -> trust_loop ver (S k) calls m vec n = Ok (false, vec).
  Proof. intros H1. cbn [trust_loop]. rewrite H1. reflexivity. Qed.
  Variables (r l a b : cert) (nr nm nl : list Z) (now : Z).
  Hypotheses (RM : nr <> nm) (RL : nr <> nl) (ML : nm <> nl) (R0 : nr <> []) (M0 : nm <> []) (L0 : nl <> []).
  Hypotheses (SR : subject r = nr) (SA : subject a = nm) (SB : subject b = nm) (SL : subject l = nl) (IA : issuer a = nr) (IB : issuer b = nr) (IL : issuer l = nm).
  Hypotheses (VL : validity_start l <= now <= validity_end l).
  Ltac names := repeat (rewrite ?SR, ?SA, ?SB, ?SL, ?IA, ?IB, ?IL, ?lookup_insert, ?list_eqb_refl, ?(proj2 (eqb_neq nr nm) RM), ?(proj2 (eqb_neq nm nr) (not_eq_sym RM)), ?(proj2 (eqb_neq nr nl) RL), ?(proj2 (eqb_neq nl nr) (not_eq_sym RL)),
       ?(proj2 (eqb_neq nm nl) ML), ?(proj2 (eqb_neq nl nm) (not_eq_sym ML)), ?(proj2 (eqb_neq [] nr) (not_eq_sym R0)), ?(proj2 (eqb_neq [] nm) (not_eq_sym M0)), ?(proj2 (eqb_neq [] nl) (not_eq_sym L0)); cbn [lookup issuer subject no_cert]).
  Lemma walk_start vec : trust_with ver (addCertificate [] r) (l :: vec) now = trust_loop ver (trust_fuel (length (l :: vec))) 0 [(nr, Stored r)] (l :: vec) 0.
  Proof. unfold trust_with. destruct (Z.ltb_spec now (validity_start l)); [lia|]. destruct (Z.ltb_spec (validity_end l) now); [lia|]. cbn [addCertificate insert filter map fst snd]. rewrite SR. reflexivity. Qed.
  Hypotheses (AR : forall k, ver k a r = Ok true) (BR : forall k, ver k b r = Ok true) (LA : forall k, ver k l a = Ok true) (LB : forall k, ver k l b = Ok false).
  Lemma walk_pa vec k : trust_loop ver (S (S (S k))) 0 [(nr, Stored r)] (l :: a :: vec) 0 = Ok (true, l :: a :: vec).
  Proof.
    rewrite (step_skip _ _ _ _ _ l); [|reflexivity | names; reflexivity].
    rewrite (step_ver _ _ _ _ _ a (Stored r) r true); [|reflexivity | names; reflexivity | names; reflexivity | reflexivity | apply AR].
    rewrite (step_ver _ _ _ _ _ l (Listed 1) a true); [reflexivity | reflexivity | names; reflexivity | names; reflexivity | reflexivity | apply LA].
  Qed.
  Lemma walk_a : trust_with ver (addCertificate [] r) [l; a] now = Ok (true, [l; a]).
  Proof. rewrite walk_start. change (trust_fuel (length [l; a])) with 10%nat. apply walk_pa. Qed.
  Lemma walk_ab : trust_with ver (addCertificate [] r) [l; a; b] now = Ok (true, [l; a; b]).
  Proof. rewrite walk_start. change (trust_fuel (length [l; a; b])) with 17%nat. apply walk_pa. Qed.
  Lemma walk_ba : trust_with ver (addCertificate [] r) [l; b; a] now = Ok (false, [no_cert; b; a]).
  Proof.
    rewrite walk_start. change (trust_fuel (length [l; b; a])) with 17%nat.
    rewrite (step_skip _ _ _ _ _ l); [|reflexivity | names; reflexivity].
    rewrite (step_ver _ _ _ _ _ b (Stored r) r true); [|reflexivity | names; reflexivity | names; reflexivity | reflexivity | apply BR].
    rewrite (step_ver _ _ _ _ _ l (Listed 1) b false); [| reflexivity | names; reflexivity | names; reflexivity | reflexivity | apply LB].
    change (upd [l; b; a] 0 no_cert) with [no_cert; b; a].
    rewrite (step_skip _ _ _ _ _ no_cert); [|reflexivity | names; reflexivity].
    rewrite (step_known _ _ _ _ _ b (Stored r) (Listed 1)); [|reflexivity | names; reflexivity | names; reflexivity].
    rewrite (step_known _ _ _ _ _ a (Stored r) (Listed 1)); [|reflexivity | names; reflexivity | names; reflexivity].
    apply step_end. reflexivity.
  Qed.
End Walk.
Lemma walk_leaf ver r now : trust_with ver (addCertificate [] r) [r] now = Ok (false, [r]).
Proof.
  unfold trust_with. destruct (now <? validity_start r); [reflexivity|]. destruct (validity_end r <? now); [reflexivity|].
  change (trust_fuel (length [r])) with 5%nat. set (m := map _ (addCertificate [] r)).
  assert (K : lookup m (subject r) = Some (Stored r)) by (unfold m; rewrite (lookup_map Stored); unfold addCertificate; rewrite lookup_insert, list_eqb_refl; reflexivity).
  destruct (lookup m (issuer r)) as [p|] eqn:E.
  - rewrite (step_known _ _ _ _ _ _ r p (Stored r)) by (reflexivity || assumption). apply step_end; reflexivity.
  - rewrite (step_skip _ _ _ _ _ _ r) by (reflexivity || assumption). apply step_end; reflexivity.
Qed.

(** 1 July 2023. *)
Definition at_time : Z := 1688169600.
Lemma world_walk g r a b l : world r a b l -> (forall i, supplies_ok (g i)) ->
  trust g (addCertificate [] r) [l; a] at_time = Ok (true, [l; a]) /\ trust g (addCertificate [] r) [l; a; b] at_time = Ok (true, [l; a; b]) /\
  trust g (addCertificate [] r) [l; b; a] at_time = Ok (false, [no_cert; b; a]).
Proof.
  intros [PR PA PB PL AR BR LA LB] HG. unfold trust.
  assert (X : validity_start l <= at_time <= validity_end l) by (rewrite (p_start _ _ _ PL), (p_end _ _ _ PL); vm_compute; split; discriminate).
  assert (D1 : chars "CN=R" <> chars "CN=M") by discriminate. assert (D2 : chars "CN=R" <> chars "CN=L") by discriminate. assert (D3 : chars "CN=M" <> chars "CN=L") by discriminate.
  assert (Z1 : chars "CN=R" <> []) by discriminate. assert (Z2 : chars "CN=M" <> []) by discriminate.
  pose proof (p_subject _ _ _ PR) as S1. pose proof (p_subject _ _ _ PA) as S2. pose proof (p_subject _ _ _ PB) as S3. pose proof (p_subject _ _ _ PL) as S4.
  pose proof (p_issuer _ _ _ PA) as I2. pose proof (p_issuer _ _ _ PB) as I3. pose proof (p_issuer _ _ _ PL) as I4.
  change (name_text (t_subject tR)) with (chars "CN=R") in S1. change (name_text (t_subject tA)) with (chars "CN=M") in S2. change (name_text (t_subject tB)) with (chars "CN=M") in S3. change (name_text (t_subject tL)) with (chars "CN=L") in S4.
  change (name_text (t_issuer tA)) with (chars "CN=R") in I2. change (name_text (t_issuer tB)) with (chars "CN=R") in I3. change (name_text (t_issuer tL)) with (chars "CN=M") in I4.
  assert (Q1 : forall k, verify (g k) a r = Ok true) by auto. assert (Q2 : forall k, verify (g k) b r = Ok true) by auto.
  assert (Q3 : forall k, verify (g k) l a = Ok true) by auto. assert (Q4 : forall k, verify (g k) l b = Ok false) by auto.
  split; [|split]; [eapply walk_a with (nr := chars "CN=R") (nm := chars "CN=M") (nl := chars "CN=L") | eapply walk_ab with (nr := chars "CN=R") (nm := chars "CN=M") (nl := chars "CN=L") | eapply walk_ba with (nr := chars "CN=R") (nm := chars "CN=M") (nl := chars "CN=L")]; assumption.
Qed.

(** ** C74: only certification authorities *)
(** False: of the issuer only the validity and the key are looked at; *)
Theorem C74_fields : forall g c i j, validity_start i = validity_start j -> validity_end i = validity_end j -> c_pubkey i = c_pubkey j -> verify g c i = verify g c j.
Proof. exact verify_issuer. Qed.
(** an end entity certificate (basicConstraints with cA = FALSE) is accepted as issuer. *)
Theorem C74_ca_refuted : exists r a l, parse_der (der_of tR sR) = Ok r /\ parse_der (der_of tA sA) = Ok a /\ parse_der (der_of tL sL) = Ok l /\
  t_tail tA = [(163, tlv 48 (tlv 48 (tlv 6 [85; 29; 19] ++ tlv 4 (tlv 48 []))))] /\
  forall g, (forall i, supplies_ok (g i)) -> trust g (addCertificate [] r) [l; a] at_time = Ok (true, [l; a]).
Proof.
  destruct the_world as (r & a & b & l & H). exists r, a, l. split; [apply H|]. split; [apply H|]. split; [apply H|]. split; [reflexivity|]. intros g HG. exact (proj1 (world_walk g r a b l H HG)).
Qed.
Print Assumptions C74_fields.
Print Assumptions C74_ca_refuted.

Theorem C77_order_refuted : exists r a b l, parse_der (der_of tR sR) = Ok r /\ parse_der (der_of tA sA) = Ok a /\ parse_der (der_of tB sB) = Ok b /\ parse_der (der_of tL sL) = Ok l /\
  forall g, (forall i, supplies_ok (g i)) ->
    trust g (addCertificate [] r) [l; a; b] at_time = Ok (true, [l; a; b]) /\ trust g (addCertificate [] r) [l; b; a] at_time = Ok (false, [no_cert; b; a]).
Proof.
  destruct the_world as (r & a & b & l & H). exists r, a, b, l. split; [apply H|]. split; [apply H|]. split; [apply H|]. split; [apply H|]. intros g HG. exact (proj2 (world_walk g r a b l H HG)).
Qed.
(** A certificate that is itself in the store is not trusted, at any time. *)
Theorem C77_stored_refuted : forall g r now, get (addCertificate [] r) (subject r) = Some r /\ trust g (addCertificate [] r) [r] now = Ok (false, [r]).
Proof. intros g r now. split; [unfold get, addCertificate; rewrite lookup_insert, list_eqb_refl; reflexivity | apply walk_leaf]. Qed.
Print Assumptions C77_order_refuted.
Print Assumptions C77_stored_refuted.

(** The hypotheses of C75, C76 and C77 on the real certificates. *)
Lemma parsed_has_key t sig c : parsed t sig c -> has_key c /\ c_pubkey c <> None.
Proof. intros P. destruct (p_key _ _ _ P) as (N & E & pk & K1 & K2 & _ & K4 & _ & K6). split; [|congruence]. intros k Ek. exists N, E. rewrite K1 in Ek. injection Ek as <-. auto. Qed.
Lemma parsed_wf t sig c : parsed t sig c -> bytesb (der_of t sig) && (zlen (der_of t sig) <? 2 ^ 24) && (zlen sig =? 62) = true -> check_wf c.
Proof.
  intros P CK. rewrite !andb_true_iff in CK. destruct CK as [[C1 C2] C3]. apply bytesb_iff in C1. rewrite Z.ltb_lt in C2. apply Z.eqb_eq in C3.
  exists (tbs_content t), (rsa_sig_oid 11), sig. rewrite (p_der _ _ _ P). split; [exact C1|]. split; [exact C2|]. split; [exists []; rewrite app_nil_r; apply (p_der _ _ _ P)|].
  intros a [[_ ->]|[[X _]|[X _]]]; [rewrite C3; vm_compute; discriminate | discriminate X..].
Qed.
Example C75_C76_C77_case : exists r a l, parse_der (der_of tA sA) = Ok a /\
  (forall c, In c [l; a] -> bytes (derCert c) /\ zlen (derCert c) < 2 ^ 24 /\ has_key c) /\
  (forall name c, get (addCertificate [] r) name = Some c -> has_key c) /\
  (forall c, In c [l; a] -> check_wf c /\ get (addCertificate [] r) (subject c) = None) /\
  NoDup (map subject [l; a]) /\ (validity_start l <= at_time <= validity_end l) /\
  path (fun c i => forall g, supplies_ok g -> verify g c i = Ok true) (get (addCertificate [] r)) [l; a] l [a; r].
Proof.
  destruct the_world as (r & a & b & l & H). exists r, a, l. destruct H as [PR PA PB PL AR BR LA LB]. split; [apply PA|].
  pose proof (p_subject _ _ _ PR) as S1. pose proof (p_subject _ _ _ PA) as S2. pose proof (p_subject _ _ _ PL) as S4. pose proof (p_issuer _ _ _ PA) as I2. pose proof (p_issuer _ _ _ PL) as I4.
  assert (GR : get (addCertificate [] r) (issuer a) = Some r) by (unfold get, addCertificate; rewrite lookup_insert, I2, S1; reflexivity).
  assert (CL : check_wf l) by (apply (parsed_wf _ _ _ PL); vm_compute; reflexivity). assert (CA : check_wf a) by (apply (parsed_wf _ _ _ PA); vm_compute; reflexivity).
  split; [|split; [|split; [|split; [|split]]]].
  - intros c [<- |[<- |[]]]; [destruct CL as (? & ? & ? & ? & ? & _) | destruct CA as (? & ? & ? & ? & ? & _)]; repeat (split; [assumption|]); [apply (parsed_has_key _ _ _ PL) | apply (parsed_has_key _ _ _ PA)].
  - intros name c. unfold get, addCertificate. rewrite lookup_insert. destruct (list_eqb name (subject r)); [intros [= <-]; apply (parsed_has_key _ _ _ PR) | discriminate].
  - intros c [<- |[<- |[]]]; (split; [assumption|]); unfold get, addCertificate; rewrite lookup_insert, S1, ?S2, ?S4; reflexivity.
  - cbn [map]. rewrite S2, S4. constructor; [intros [X|[]]; discriminate X | constructor; [intros [] | constructor]].
  - rewrite (p_start _ _ _ PL), (p_end _ _ _ PL); vm_compute; split; discriminate.
  - apply path_step; [right; left; reflexivity | rewrite S2, I4; reflexivity | exact LA|]. apply path_root; [exact GR | exact AR].
Qed.

(** ** C78: lookup *)
Theorem C78_lookup : forall cs name, get (fold_left addCertificate cs []) name = List.find (fun c => list_eqb name (subject c)) (rev cs).
Proof.
  intros cs name. rewrite <- (rev_involutive cs) at 1. rewrite <- fold_left_rev_right, rev_involutive. induction (rev cs) as [|c l IH]; [reflexivity|].
  cbn [fold_right List.find]. unfold get, addCertificate at 1. rewrite lookup_insert. destruct (list_eqb name (subject c)); [reflexivity | exact IH].
Qed.
(** In words: the answer has the name, was added, and nothing of that name was added later; no
    answer means that nothing of that name was added. *)
Theorem C78_last : forall cs name c, get (fold_left addCertificate cs []) name = Some c <->
  exists early late, cs = early ++ c :: late /\ subject c = name /\ Forall (fun d => subject d <> name) late.
Proof.
  intros cs name c. rewrite C78_lookup. split.
  - intros H. rewrite <- (rev_involutive cs). induction (rev cs) as [|d l IH]; [discriminate H|]. cbn [List.find] in H. destruct (list_eqb name (subject d)) eqn:E.
    + injection H as ->. apply list_eqb_eq in E. exists (rev l), []. cbn [rev]. split; [reflexivity|]. split; [auto | constructor].
    + destruct (IH H) as (e & f & E1 & E2 & E3). exists e, (f ++ [d]). cbn [rev]. rewrite E1, <- app_assoc. split; [reflexivity|]. split; [exact E2|].
      apply Forall_app. split; [exact E3|]. constructor; [|constructor]. apply eqb_neq in E. auto.
  - intros (e & f & -> & <- & F). rewrite rev_app_distr. cbn [rev]. rewrite <- app_assoc. apply Forall_rev in F. induction F as [|d l Hd _ IH]; cbn [app List.find].
    + rewrite list_eqb_refl. reflexivity.
    + destruct (list_eqb (subject c) (subject d)) eqn:E; [apply list_eqb_eq in E; congruence | exact IH].
Qed.
Theorem C78_none : forall cs name, get (fold_left addCertificate cs []) name = None <-> Forall (fun d => subject d <> name) cs.
Proof.
  intros cs name. rewrite C78_lookup. rewrite <- (rev_involutive cs) at 2. split.
  - intros H. apply Forall_rev. induction (rev cs) as [|d l IH]; [constructor|]. cbn [List.find] in H. destruct (list_eqb name (subject d)) eqn:E; [discriminate H|]. constructor; [apply eqb_neq in E; auto | apply IH; exact H].
  - intros H. apply Forall_rev in H. rewrite rev_involutive in H. induction H as [|d l Hd _ IH]; [reflexivity|]. cbn [List.find]. destruct (list_eqb name (subject d)) eqn:E; [apply list_eqb_eq in E; congruence | exact IH].
Qed.
Lemma load_two file c : parseCertificatesPem file = Ok [c; c] -> load file = Ok (fold_left addCertificate [c; c] []).
Proof. intros H. unfold load. rewrite H. reflexivity. Qed.
(** The system store is loaded with the bundle parser (C71): the last root is not in it. *)
Theorem C71_store_refuted : exists a l s, parse_der (der_of tA sA) = Ok a /\ parse_der (der_of tL sL) = Ok l /\
  load (pem "CERTIFICATE" (rfc4648 43 47 true (der_of tA sA)) ++ pem "CERTIFICATE" (rfc4648 43 47 true (der_of tL sL))) = Ok s /\ get s (subject a) = Some a /\ get s (subject l) = None.
Proof.
  destruct the_world as (r & a & b & l & H). destruct H as [PR PA PB PL _ _ _ _]. exists a, l, (fold_left addCertificate [a; a] []). split; [apply PA|]. split; [apply PL|].
  split; [apply load_two, (two_blocks _ _ (der_of tA sA) (der_of tL sL) a l); [apply bytesb_ok; vm_compute; reflexivity | apply bytesb_ok; vm_compute; reflexivity | unfold wrapped; vm_compute; reflexivity | unfold wrapped; vm_compute; reflexivity | apply PA | apply PL | vm_compute; reflexivity]|].
  split; [apply C78_last; exists [a], []; repeat split; constructor|]. apply C78_none. pose proof (p_subject _ _ _ PA) as S2. pose proof (p_subject _ _ _ PL) as S4. rewrite S4. repeat constructor; rewrite S2; discriminate.
Qed.
Print Assumptions C78_lookup.
Print Assumptions C78_last.
Print Assumptions C78_none.
Print Assumptions C71_store_refuted.
Example C78_case : forall c, let d := Cert [1] [] [] (subject c) [] 0 0 None in get (fold_left addCertificate [c; d] []) (subject c) = Some d /\ (subject c <> [7] -> get (fold_left addCertificate [c; d] []) [7] = None).
Proof.
  intros c d. split; [apply C78_last; exists [c], []; repeat split; constructor|]. intros H. apply C78_none. repeat constructor; exact H.
Qed.
