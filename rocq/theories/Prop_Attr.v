(** Property C133: the names of a certificate are those it states, whatever attributes they consist of. *)
From Coq Require Import String.
From Verif Require Import Base BaseP S_Hash M_Hash S_Bignum M_Bignum S_RSA M_RSA P_RSA RSA_Keys Prop_RSA2 S_X509 M_X509 M_Trust P_X509 P_Date P_Name P_Cert P_Attr S_Trust P_Trust Cert_Data Prop_X509 Prop_Chain Prop_Server.
Open Scope list_scope.
Open Scope Z_scope.

Definition encoded_named (t : tbs) (i s : list (attr * list attr)) (after rest : list Z) : list Z := tlv 48 (tlv 48 (named t i s) ++ after) ++ rest.
(** One attribute to a set, as most certificates have it, is the notation used elsewhere. *)
Definition singles (l : list attr) : list (attr * list attr) := map (fun a => (a, [])) l.
Lemma singles_der l : sets_der (singles l) = concat (map (fun a => tlv 49 (tlv 48 (tlv 6 (a_oid a) ++ tlv (a_tag a) (a_value a)))) l).
Proof. unfold sets_der, singles. rewrite map_map. f_equal. apply map_ext. intros a. unfold set_der, atv. cbn [fst snd map concat]. rewrite app_nil_r. reflexivity. Qed.
Theorem C133_singles : forall t, named t (singles (t_issuer t)) (singles (t_subject t)) = tbs_content t.
Proof. intros t. unfold named, tbs_content, name_der. rewrite !singles_der. reflexivity. Qed.

(** ** What the parser makes of names, for all of them.  If every first attribute of a set has a type it knows, the name is
    that of the first attributes, those written as other strings than UTF8String and PrintableString being empty.
    Otherwise nothing of the name remains. *)
Theorem C133_names : forall t i s after rest, good_but_names t -> zlen (encoded_named t i s after rest) < 2 ^ 64 ->
  exists c, parse_der (encoded_named t i s after rest) = Ok c /\
    (types_known i -> issuer c = name_text (kept_of i)) /\ (type_unknown i -> issuer c = []) /\
    (types_known s -> subject c = name_text (kept_of s) /\ forall host, appliesTo c host = true <-> host = last_value (kept_of s) [85; 4; 3]) /\
    (type_unknown s -> subject c = [] /\ forall host, appliesTo c host = true <-> host = []).
Proof.
  intros t i s after rest G L. destruct (parse_der_named t i s after rest G L) as (ser & pk & P). eexists. split; [exact P|]. cbn [issuer subject].
  assert (AP : forall c h host, fqdns c = [h] -> (appliesTo c host = true <-> host = h)).
  { intros c h host E. unfold appliesTo. rewrite E. cbn [existsb]. rewrite orb_false_r. apply list_eqb_eq. }
  split; [intros K; apply (read_known i K)|]. split; [intros U; rewrite (read_sets_unknown i no_name U); reflexivity|].
  split; [intros K; destruct (read_known s K) as [R1 R2]; split; [exact R1|] | intros U; rewrite (read_sets_unknown s no_name U); split; [reflexivity|]]; intros host; apply AP; cbn [fqdns]; [rewrite R2; reflexivity | reflexivity].
Qed.
Print Assumptions C133_names.

(** ** Different subjects fall together: a root replaces another *)
Theorem C133_replaced_refuted : forall t1 t2 i1 i2 s1 s2 a1 a2 r1 r2 st, good_but_names t1 -> good_but_names t2 ->
  zlen (encoded_named t1 i1 s1 a1 r1) < 2 ^ 64 -> zlen (encoded_named t2 i2 s2 a2 r2) < 2 ^ 64 -> type_unknown s1 -> type_unknown s2 ->
  exists c1 c2, parse_der (encoded_named t1 i1 s1 a1 r1) = Ok c1 /\ parse_der (encoded_named t2 i2 s2 a2 r2) = Ok c2 /\
    forall name, get (addCertificate (addCertificate st c1) c2) name = get (addCertificate st c2) name.
Proof.
  intros t1 t2 i1 i2 s1 s2 a1 a2 r1 r2 st G1 G2 L1 L2 U1 U2.
  destruct (C133_names t1 i1 s1 a1 r1 G1 L1) as (c1 & P1 & _ & _ & _ & E1). destruct (C133_names t2 i2 s2 a2 r2 G2 L2) as (c2 & P2 & _ & _ & _ & E2).
  exists c1, c2. split; [exact P1|]. split; [exact P2|]. destruct (E1 U1) as [E1' _]. destruct (E2 U2) as [E2' _]. intros name. unfold get, addCertificate. rewrite E1', E2', !lookup_insert. destruct (list_eqb name []); reflexivity.
Qed.
Print Assumptions C133_replaced_refuted.

(** ** A certificate whose subject the store has a root for is passed over, so these are never trusted together *)
Lemma known_insert m k x k' : known m k' = true -> known (insert m k x) k' = true.
Proof. unfold known. rewrite lookup_insert. destruct (list_eqb k' k); [reflexivity | auto]. Qed.
Lemma known_leaf ver leaf : forall fuel calls m vec n out, nth_error vec 0 = Some leaf -> known m (subject leaf) = true -> trust_loop ver fuel calls m vec n <> Ok (true, out).
Proof.
  induction fuel as [|fuel IH]; intros calls m vec n out F K; [discriminate|]. cbn [trust_loop]. destruct (nth_error vec n) as [c|] eqn:N; [|discriminate].
  destruct (lookup m (issuer c)) as [p|]; [|apply IH; assumption]. destruct (known m (subject c)) eqn:KC; [apply IH; assumption|].
  destruct (deref vec p) as [iss| | |]; cbn [bind]; try discriminate. destruct (ver calls c iss) as [b| | |]; cbn [bind]; try discriminate.
  destruct n as [|n]; [rewrite F in N; injection N as ->; congruence|]. destruct b; [apply IH; [exact F | apply known_insert; exact K]|].
  apply IH; [|exact K]. rewrite nth_upd. cbn [Nat.eqb]. exact F.
Qed.
Theorem C133_never_trusted_refuted : forall t i s after rest g st r others now out c, good_but_names t -> zlen (encoded_named t i s after rest) < 2 ^ 64 -> type_unknown s ->
  get st [] = Some r -> parse_der (encoded_named t i s after rest) = Ok c -> trust g st (c :: others) now <> Ok (true, out).
Proof.
  intros t i s after rest g st r others now out c G L U R P. destruct (C133_names t i s after rest G L) as (c' & P' & _ & _ & _ & E). rewrite P in P'. injection P' as <-. destruct (E U) as [E' _].
  unfold trust, trust_with. destruct (now <? validity_start c); [discriminate|]. destruct (validity_end c <? now); [discriminate|].
  apply known_leaf with c; [reflexivity|]. unfold known. rewrite lookup_map, E'. unfold get in R. rewrite R. reflexivity.
Qed.
Print Assumptions C133_never_trusted_refuted.

(** ** RFC 4519 2.4 names with domain components: DC=com, then CN.  A server certificate properly issued by the only root
    is not trusted, whatever the uninitialised buffers hold, and does not apply to its common name. *)
Definition in_com (cnm : string) : list attr := [Attr [9; 146; 38; 137; 147; 242; 44; 100; 1; 25] 22 (chars "com"); Attr [85; 4; 3] 12 (chars cnm)].
Definition tComRoot := Tbs 1 alg11 (in_com "R") (day 2020) (day 2040) (in_com "R") N784 65537 [].
Definition tComSite := Tbs 2 alg11 (in_com "R") (day 2021) (day 2030) (in_com "S") N560 65537 [].
Definition com_root := signed_doc tComRoot ASHA256 N784 D784 98.
Definition com_site := signed_doc tComSite ASHA256 N784 D784 98.
Lemma com_unknown cnm : type_unknown (singles (in_com cnm)).
Proof. apply Exists_cons_hd. cbn [fst a_oid]. intros H. cbn in H. repeat (destruct H as [H|H]; [discriminate H|]). exact H. Qed.
Lemma com_good_root : good_but_names tComRoot.
Proof.
  unfold good_but_names, tComRoot. cbn [t_serial t_start t_stop t_n t_e t_tail]. split; [lia|]. split; [apply day_valid; lia|]. split; [apply day_valid; lia|]. split; [apply day_valid; lia|]. split; [apply day_valid; lia|].
  split; [split; [vm_compute; discriminate | vm_compute; reflexivity]|]. split; [vm_compute; reflexivity|]. split; [split; [lia | vm_compute; reflexivity] | constructor].
Qed.
Lemma com_good_site : good_but_names tComSite.
Proof.
  unfold good_but_names, tComSite. cbn [t_serial t_start t_stop t_n t_e t_tail]. split; [lia|]. split; [apply day_valid; lia|]. split; [apply day_valid; lia|]. split; [apply day_valid; lia|]. split; [apply day_valid; lia|].
  split; [split; [vm_compute; discriminate | vm_compute; reflexivity]|]. split; [vm_compute; reflexivity|]. split; [split; [lia | vm_compute; reflexivity] | constructor].
Qed.
Lemma signed_size t n d : zlen (tbs_content t) < 2 ^ 20 -> zlen (doc_der (signed_doc t ASHA256 n d 98)) < 2 ^ 64.
Proof.
  intros L. unfold signed_doc. set (sig := be_bytes 98 _). assert (S1 : zlen sig = 98) by (unfold zlen, sig; rewrite be_bytes_length; reflexivity). clearbody sig.
  unfold doc_der, cert_der. cbn [d_tbs d_sig]. change (doc_oid (Doc t ASHA256 sig)) with (rsa_sig_oid 11). set (o := rsa_sig_oid 11). assert (O : zlen o = 9) by reflexivity. clearbody o.
  pose proof (tlv_size 48 (tlv 48 (tbs_content t) ++ tlv 48 (tlv 6 o ++ tlv 5 []) ++ tlv 3 (0 :: sig))) as T1. rewrite !zlen_app in T1. pose proof (tlv_size 48 (tbs_content t)) as T2.
  pose proof (tlv_size 48 (tlv 6 o ++ tlv 5 [])) as T3. rewrite zlen_app in T3. pose proof (tlv_size 6 o) as T4. pose proof (tlv_size 5 []) as T5. change (zlen []) with 0 in T5. pose proof (tlv_size 3 (0 :: sig)) as T6. rewrite zlen_cons in T6. lia.
Qed.
Lemma doc_named x : doc_der x = encoded_named (d_tbs x) (singles (t_issuer (d_tbs x))) (singles (t_subject (d_tbs x))) (tlv 48 (tlv 6 (doc_oid x) ++ tlv 5 []) ++ tlv 3 (0 :: d_sig x)) [].
Proof. unfold encoded_named. rewrite C133_singles, app_nil_r. reflexivity. Qed.
Theorem C133_refuted : exists root site now r c, issued site root /\ posix (t_start (d_tbs site)) <= now <= posix (t_stop (d_tbs site)) /\
  parse_der (doc_der root) = Ok r /\ parse_der (doc_der site) = Ok c /\ (forall g out, trust g (addCertificate [] r) [c] now <> Ok (true, out)) /\
  last_value (t_subject (d_tbs site)) [85; 4; 3] = chars "S" /\ appliesTo c (chars "S") = false.
Proof.
  exists com_root, com_site, 1700000000.
  assert (LR : zlen (doc_der com_root) < 2 ^ 64) by (apply signed_size; vm_compute; reflexivity). assert (LS : zlen (doc_der com_site) < 2 ^ 64) by (apply signed_size; vm_compute; reflexivity).
  pose proof (doc_named com_root) as DR. pose proof (doc_named com_site) as DS. rewrite DR in LR. rewrite DS in LS.
  destruct (C133_names _ _ _ _ _ com_good_root LR) as (r & PR & _ & _ & _ & ER). destruct (C133_names _ _ _ _ _ com_good_site LS) as (c & PS & _ & _ & _ & ES).
  exists r, c. destruct (ER (com_unknown "R")) as [SR _]. destruct (ES (com_unknown "S")) as [SS AS].
  split.
  { apply (C111_issue tComSite ASHA256 com_root D784 98); unfold com_root; cbn [signed_doc d_tbs]; [left; reflexivity | reflexivity | vm_compute; discriminate | vm_compute; discriminate | exact pair784 | split; [vm_compute; discriminate | vm_compute; reflexivity] | vm_compute; discriminate]. }
  split; [unfold com_site; cbn [signed_doc d_tbs]; split; vm_compute; discriminate|]. split; [rewrite DR; exact PR|]. split; [rewrite DS; exact PS|].
  split; [|split; [reflexivity|]].
  - intros g out. apply (C133_never_trusted_refuted _ _ _ _ _ g (addCertificate [] r) r [] 1700000000 out c com_good_site LS (com_unknown "S")); [|exact PS].
    unfold get, addCertificate. rewrite lookup_insert, SR. reflexivity.
  - destruct (appliesTo c (chars "S")) eqn:A; [|reflexivity]. apply AS in A. discriminate A.
Qed.
Print Assumptions C133_refuted.

(** "CN=S" beside an e-mail address in the same set, and "CN=S" followed by an address as an IA5String, which is what
    RFC 5280 4.1.2.6 prescribes for addresses: the same name as "CN=S" alone.  With a domain component: nothing. *)
Example C133_case : let cnS := Attr [85; 4; 3] 12 (chars "S") in let mail := Attr [42; 134; 72; 134; 247; 13; 1; 9; 1] 22 (chars "a@b") in
  types_known [(cnS, [mail])] /\ name_text (kept_of [(cnS, [mail])]) = chars "CN=S" /\ types_known (singles [cnS; mail]) /\ name_text (kept_of (singles [cnS; mail])) = chars "CN=S" /\
  name_text [cnS; Attr (a_oid mail) 12 (a_value mail)] = chars "E=a@b CN=S" /\ type_unknown (singles (in_com "S")) /\ good_but_names tComSite /\ named tComSite (singles (in_com "R")) (singles (in_com "S")) = tbs_content tComSite.
Proof.
  cbv zeta. split; [constructor; [cbn; tauto | constructor]|]. split; [reflexivity|]. split; [constructor; [cbn; tauto | constructor; [cbn; tauto | constructor]]|]. split; [reflexivity|]. split; [reflexivity|].
  split; [apply com_unknown|]. split; [exact com_good_site|]. exact (C133_singles tComSite).
Qed.
