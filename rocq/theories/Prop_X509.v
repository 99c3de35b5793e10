(** Properties of the DER reader, certificate and key parsing, and certificate verification
    (C68-C73, C81-C83). *)
From Coq Require Import String.
From Verif Require Import Base BaseP S_Base64 M_Base64 P_Base64 S_Hash M_Hash P_Hash M_HKDF P_HKDF Prop_HKDF S_Bignum M_Bignum P_Bignum Prop_Bignum M_Mont P_Mont S_RSA M_RSA P_RSA Prop_RSA P_Prime Prop_RSA2 S_X509 M_X509 P_X509 P_Date P_Name P_Cert P_Pem S_Verify S_Trust P_Verify P_Term Cert_Data.
Open Scope Z_scope.

(** ** C68: the reader returns what was encoded *)
Theorem C68_element : forall (before : list Z) (id : Z) (lf contents after rest : list Z),
  length_form (zlen contents) lf -> zlen contents < 2 ^ 64 ->
  let el := id :: lf ++ contents in
  let data := Sp (before ++ el ++ after) rest in
  read (View data (zlen before)) = Ok (id, Sp contents (after ++ rest), View data (zlen before + zlen el)).
Proof.
  intros before id lf contents after rest HF HL el data.
  pose proof (read_form before id lf contents after rest HF HL) as R. unfold cur in R. rewrite zlen_app in R.
  replace ((before ++ id :: lf ++ contents) ++ after) with (before ++ el ++ after) in R by (unfold el; rewrite <- !app_assoc; reflexivity).
  replace (before ++ id :: lf ++ contents ++ after) with (before ++ el ++ after) in R by (unfold el; cbn [app]; rewrite <- !app_assoc; reflexivity). exact R.
Qed.
(** In particular the DER form, and a whole list of elements one after the other. *)
Fixpoint read_all (n : nat) (v : view) : res (list (Z * list Z)) :=
  match n with
  | O => if empty v then Ok [] else Throw
  | S k => do r <- read v; let '(id, s, v') := r in do t <- read_all k v'; Ok ((id, s_data s) :: t)
  end.
Theorem C68_elements : forall (els : list (Z * list Z)), zlen (concat (map (fun e => tlv (fst e) (snd e)) els)) < 2 ^ 64 ->
  read_all (List.length els) (view_of (whole (concat (map (fun e => tlv (fst e) (snd e)) els)))) = Ok els.
Proof.
  intros els. rewrite whole_cur. change (concat (map (fun e => tlv (fst e) (snd e)) els)) with (tails els). generalize (@nil Z) at 1 as pre.
  induction els as [|[id c] els IH]; intros pre HL; cbn [read_all List.length]; [rewrite empty_cur; reflexivity|].
  change (tails ((id, c) :: els)) with (tlv id c ++ tails els) in *. rewrite zlen_app in HL. pose proof (tlv_length id c). nn.
  rewrite read_tlv by lia. cbn [bind s_data]. rewrite IH by lia. reflexivity.
Qed.
Print Assumptions C68_element.
Print Assumptions C68_elements.
Example C68_case : length_form 3 [0x83; 0; 0; 3] /\ length_form 200 [0x81; 200] /\
  read (View (Sp [9; 4; 0x83; 0; 0; 3; 7; 8; 9; 5; 0] []) 1) = Ok (4, Sp [7; 8; 9] [5; 0], View (Sp [9; 4; 0x83; 0; 0; 3; 7; 8; 9; 5; 0] []) 9).
Proof.
  split; [right; exists [0; 0; 3]; split; [apply bytesb_ok; reflexivity | split; [split; reflexivity | split; reflexivity]]|].
  split; [right; exists [200]; split; [apply bytesb_ok; reflexivity | split; [split; reflexivity | split; reflexivity]]|]. vm_compute; reflexivity.
Qed.

(** ** C69: the reader on arbitrary bytes *)
(** False: nothing is checked before the access; empty, truncated and inconsistent inputs are read
    out of bounds. *)
Theorem C69_reader_refuted : exists inp, bytes inp /\ inp <> [] /\ parse_der inp = UB.
Proof. exists [48; 3; 48]. split; [apply bytesb_ok; reflexivity|]. split; [discriminate | vm_compute; reflexivity]. Qed.
Theorem C69_empty_refuted : parse_der [] = UB /\ parse_private_der [] = UB /\ parse_der [48; 2; 48; 0] = UB.
Proof. vm_compute; auto. Qed.
(** An element that claims to be longer than what encloses it is returned beyond the end of its
    parent, and the parent's reader is then moved behind its own end. *)
Theorem C69_nesting_refuted : exists inp parent child v,
  read (view_of (whole inp)) = Ok (48, parent, View (whole inp) 5) /\ s_data parent = [2; 2; 1] /\
  read (view_of parent) = Ok (2, child, v) /\ s_data child = [1; 77] /\ v_off v = 4 /\ peek v = UB.
Proof. exists [48; 3; 2; 2; 1; 77; 77], (Sp [2; 2; 1] [77; 77]), (Sp [1; 77] [77]), (View (Sp [2; 2; 1] [77; 77]) 4). vm_compute. auto 10. Qed.
(** A length of 2^64 + 1 is read as 1. *)
Theorem C69_length_refuted : exists inp s v, read (view_of (whole inp)) = Ok (4, s, v) /\ zlen (s_data s) = 1 /\
  inp = 4 :: (128 + 9) :: be_bytes 9 (2 ^ 64 + 1) ++ [55].
Proof. exists [4; 137; 1; 0; 0; 0; 0; 0; 0; 0; 1; 55], (Sp [55] []), (View (whole [4; 137; 1; 0; 0; 0; 0; 0; 0; 0; 1; 55]) 12). vm_compute. auto. Qed.
(** What holds: a read that returns took identifier, length and contents from the allocation, one
    behind the other, from the reader's position on; the contents have the stated length (in 64
    bits).  Missing: that every other input is reported rather than accessed out of bounds, and that
    an element stays within its parent. *)
Theorem C69_reader_partial : forall v id c v', bytes (s_data (v_span v)) -> read v = Ok (id, c, v') ->
  exists before lf, s_data (v_span v) ++ s_rest (v_span v) = before ++ (id :: lf ++ s_data c) ++ s_rest c /\
    zlen before = v_off v /\ says (zlen (s_data c)) lf /\ v_span v' = v_span v /\ v_off v' = zlen (before ++ id :: lf ++ s_data c).
Proof. exact read_inv. Qed.
(** And a read never loops or throws. *)
Theorem C69_read_outcome : forall v, read v = UB \/ exists id c v', read v = Ok (id, c, v').
Proof. exact read_cases. Qed.
Print Assumptions C69_reader_refuted.
Print Assumptions C69_empty_refuted.
Print Assumptions C69_nesting_refuted.
Print Assumptions C69_length_refuted.
Print Assumptions C69_reader_partial.
Print Assumptions C69_read_outcome.
Example C69_case : exists c v', bytes [48; 2; 5; 0; 9] /\ read (view_of (whole [48; 2; 5; 0; 9])) = Ok (48, c, v') /\ s_data c = [5; 0].
Proof. eexists _, _. split; [apply bytesb_ok; reflexivity|]. vm_compute. auto. Qed.

(** ** C70: times *)
(** Missing: years before 1970 and after 2099, see the refutations. *)
Theorem C70_times_partial : forall d before after rest, valid_date d -> 1970 <= d_year d <= 2099 ->
  exists v', parse_date (View (Sp (before ++ time_of d ++ after) rest) (zlen before)) = Ok (posix d, v') /\
             parse_date (View (Sp (before ++ generalized_time d ++ after) rest) (zlen before)) = Ok (posix d, View (Sp (before ++ generalized_time d ++ after) rest) (zlen before + zlen (generalized_time d))).
Proof.
  intros d b a r HV HY. pose proof (parse_time d b a r HV HY) as P. pose proof (parse_generalized d b a r HV HY) as Q. eexists. split; [exact P|].
  unfold cur in Q. rewrite Q. rewrite zlen_app, <- app_assoc. reflexivity.
Qed.
Theorem C70_order_partial : forall a b, valid_date a -> valid_date b -> 1970 <= d_year a <= 2099 -> 1970 <= d_year b <= 2099 ->
  exists ta tb v v', parse_date (view_of (whole (time_of a))) = Ok (ta, v) /\ parse_date (view_of (whole (time_of b))) = Ok (tb, v') /\ (before a b <-> ta < tb).
Proof.
  intros a b HA HB YA YB. exists (posix a), (posix b). eexists _, _. rewrite !whole_cur.
  split; [rewrite <- (app_nil_r (time_of a)); apply parse_time; assumption|]. split; [rewrite <- (app_nil_r (time_of b)); apply parse_time; assumption|].
  split; [intros H; apply posix_order; tauto || lia|]. intros H.
  assert (T : before a b \/ a = b \/ before b a).
  { destruct a as [y1 o1 a1 h1 m1 s1], b as [y2 o2 a2 h2 m2 s2]. unfold before; cbn. clear.
    destruct (Z.lt_total y1 y2) as [?|[->|?]]; [tauto| |tauto]. destruct (Z.lt_total o1 o2) as [?|[->|?]]; [tauto| |tauto].
    destruct (Z.lt_total a1 a2) as [?|[->|?]]; [tauto| |tauto]. destruct (Z.lt_total h1 h2) as [?|[->|?]]; [tauto| |tauto].
    destruct (Z.lt_total m1 m2) as [?|[->|?]]; [tauto| |tauto]. destruct (Z.lt_total s1 s2) as [?|[->|?]]; tauto. }
  destruct T as [T|[->|T]]; [exact T | lia|]. apply posix_order in T; try assumption; lia.
Qed.
(** 2100 is not a leap year: from 1 March 2100 on the result is a day late. *)
Theorem C70_2100_refuted : exists d t v, valid_date d /\ d_year d = 2100 /\ parse_date (view_of (whole (time_of d))) = Ok (t, v) /\ t = posix d + 86400.
Proof. exists (Date 2100 3 1 0 0 0). eexists _, _. split; [unfold valid_date; cbn; lia|]. split; [reflexivity|]. split; [vm_compute; reflexivity | vm_compute; reflexivity]. Qed.
(** A time before 1970 is converted to one far in the future. *)
Theorem C70_past_refuted : exists a b ta tb v v', valid_date a /\ valid_date b /\ before a b /\
  parse_date (view_of (whole (time_of a))) = Ok (ta, v) /\ parse_date (view_of (whole (time_of b))) = Ok (tb, v') /\ tb < ta.
Proof.
  exists (Date 1969 12 31 23 59 59), (Date 2024 1 1 0 0 0). eexists _, _, _, _. split; [unfold valid_date; cbn; lia|]. split; [unfold valid_date; cbn; lia|].
  split; [unfold before; cbn; lia|]. split; [vm_compute; reflexivity|]. split; [vm_compute; reflexivity | vm_compute; reflexivity].
Qed.
Print Assumptions C70_times_partial.
Print Assumptions C70_order_partial.
Print Assumptions C70_2100_refuted.
Print Assumptions C70_past_refuted.
Example C70_case : valid_date (Date 2024 2 29 12 30 15) /\ posix (Date 2024 2 29 12 30 15) = 1709209815 /\
  (exists v, parse_date (view_of (whole (tlv 23 (chars "240229123015Z")))) = Ok (1709209815, v)).
Proof. split; [unfold valid_date; cbn; lia|]. split; [vm_compute; reflexivity|]. eexists. vm_compute; reflexivity. Qed.

(** ** C71: bundles *)
(** One block, with any text without dashes before it and anything at all behind its last line. *)
Theorem C71_single : forall text body der c, ~ In 45 text -> bytes der -> wrapped body der -> zlen (text ++ pem "CERTIFICATE" body) < 2 ^ 63 -> parse_der der = Ok c ->
  parseCertificatesPem (text ++ pem "CERTIFICATE" body) = Ok [c] /\ parse_pem (text ++ pem "CERTIFICATE" body) = Ok c.
Proof.
  intros text body der c HT HD HW HL HP. rewrite pem_cert_block in *. set (i := Item text body der c).
  pose proof (bundle_ok i [] ltac:(unfold item_ok; cbn; tauto) ltac:(constructor)) as B. cbn [map concat removelast app] in B. rewrite app_nil_r in B. unfold item_text, cert_block, i in B. cbn [i_text i_body i_cert] in B.
  split; [apply B; exact HL|]. pose proof (parse_pem_ok text body der [] HT HD HW) as P. rewrite app_nil_r, pem_cert_block in P. rewrite P by exact HL. exact HP.
Qed.
(** What is returned in general: the last certificate is missing, the first one is there twice. *)
Theorem C71_bundle : forall (first : item) (more : list item),
  (forall i, In i (first :: more) -> ~ In 45 (i_text i) /\ bytes (i_der i) /\ wrapped (i_body i) (i_der i) /\ parse_der (i_der i) = Ok (i_cert i)) ->
  let bundle := concat (map (fun i => i_text i ++ pem "CERTIFICATE" (i_body i)) (first :: more)) in zlen bundle < 2 ^ 63 ->
  parseCertificatesPem bundle = Ok (removelast (map i_cert (first :: more)) ++ [i_cert first]).
Proof.
  intros i more H bundle HL. assert (M : forall l, map i_cert (removelast l) = removelast (map i_cert l)).
  { induction l as [|x [|y l] IH]; [reflexivity..|]. cbn [map removelast] in *. rewrite IH. reflexivity. }
  rewrite <- M. apply bundle_ok; [apply H; left; reflexivity | apply Forall_forall; intros j J; apply H; right; exact J | exact HL].
Qed.
Lemma two_blocks b1 b2 d1 d2 c1 c2 : bytes d1 -> bytes d2 -> wrapped b1 d1 -> wrapped b2 d2 -> parse_der d1 = Ok c1 -> parse_der d2 = Ok c2 ->
  zlen (pem "CERTIFICATE" b1 ++ pem "CERTIFICATE" b2) < 2 ^ 63 -> parseCertificatesPem (pem "CERTIFICATE" b1 ++ pem "CERTIFICATE" b2) = Ok [c1; c1].
Proof.
  intros B1 B2 W1 W2 P1 P2 HL. pose proof (C71_bundle (Item [] b1 d1 c1) [Item [] b2 d2 c2]) as B.
  cbn [map concat i_text i_body i_cert removelast] in B. rewrite !app_nil_l, app_nil_r in B. apply B; [|exact HL].
  intros i [<- |[<- |[]]]; cbn [i_text i_body i_der i_cert]; (split; [intros []|]; auto).
Qed.
Theorem C71_bundle_refuted : exists der1 der2 c1 c2,
  parse_der der1 = Ok c1 /\ parse_der der2 = Ok c2 /\ c1 <> c2 /\
  parseCertificatesPem (pem "CERTIFICATE" (rfc4648 43 47 true der1) ++ pem "CERTIFICATE" (rfc4648 43 47 true der2)) = Ok [c1; c1].
Proof.
  destruct (parsed_ok tA sA good_A ltac:(vm_compute; reflexivity)) as (a & PA). destruct (parsed_ok tL sL good_L ltac:(vm_compute; reflexivity)) as (l & PL).
  exists (der_of tA sA), (der_of tL sL), a, l. split; [apply PA|]. split; [apply PL|].
  split; [intros ->; pose proof (p_subject _ _ _ PA) as X; rewrite (p_subject _ _ _ PL) in X; vm_compute in X; discriminate X|].
  apply (two_blocks _ _ (der_of tA sA) (der_of tL sL) a l); [apply bytesb_ok; vm_compute; reflexivity | apply bytesb_ok; vm_compute; reflexivity | | | apply PA | apply PL | vm_compute; reflexivity].
  - unfold wrapped; vm_compute; reflexivity.
  - unfold wrapped; vm_compute; reflexivity.
Qed.
Print Assumptions C71_single.
Print Assumptions C71_bundle.
Print Assumptions C71_bundle_refuted.
Example C71_case : exists c, parse_der (der_of tA sA) = Ok c /\ parseCertificatesPem (chars "subject: M" ++ pem "CERTIFICATE" (rfc4648 43 47 true (der_of tA sA))) = Ok [c].
Proof.
  destruct (parsed_ok tA sA good_A ltac:(vm_compute; reflexivity)) as (a & PA). exists a. split; [apply PA|]. apply (C71_single (chars "subject: M") _ (der_of tA sA) a).
  - vm_compute. intros H. repeat destruct H as [H|H]; try discriminate H. exact H.
  - apply bytesb_ok; vm_compute; reflexivity.
  - unfold wrapped; vm_compute; reflexivity.
  - vm_compute; reflexivity.
  - apply PA.
Qed.

(** ** C72: names *)
Definition text_of (n : list attr) : res (list Z) := do x <- parse_name (view_of (whole (concat (map (fun a => tlv 49 (tlv 48 (tlv 6 (a_oid a) ++ tlv (a_tag a) (a_value a)))) n)))); Ok (name_string x).
(** False: the separators may occur in values; *)
Theorem C72_separator_refuted : exists n m t, Forall known_attr n /\ Forall known_attr m /\ text_of n = Ok t /\ text_of m = Ok t /\
  last_value n [85; 4; 10] <> last_value m [85; 4; 10].
Proof.
  exists [Attr [85; 4; 6] 19 (chars "US O=Example")], [Attr [85; 4; 6] 19 (chars "US"); Attr [85; 4; 10] 19 (chars "Example")]. eexists.
  split; [repeat (constructor; [split; [cbn; tauto | right; reflexivity]|]); constructor|]. split; [repeat (constructor; [split; [cbn; tauto | right; reflexivity]|]); constructor|].
  split; [vm_compute; reflexivity|]. split; [vm_compute; reflexivity | vm_compute; discriminate].
Qed.
(** one attribute of a type that is not in the table (here domainComponent) empties the whole name; *)
Theorem C72_unknown_refuted : exists n m, n <> m /\ text_of n = Ok [] /\ text_of m = Ok [].
Proof.
  exists [Attr [9; 146; 38; 137; 147; 242; 44; 100; 1; 25] 12 (chars "example"); Attr [85; 4; 3] 12 (chars "a")], [Attr [9; 146; 38; 137; 147; 242; 44; 100; 1; 25] 12 (chars "other"); Attr [85; 4; 3] 12 (chars "b")].
  split; [discriminate|]. split; vm_compute; reflexivity.
Qed.
(** and of repeated attributes only the last is kept. *)
Theorem C72_repeated_refuted : exists n m t, n <> m /\ Forall known_attr n /\ Forall known_attr m /\ text_of n = Ok t /\ text_of m = Ok t /\ t <> [].
Proof.
  exists [Attr [85; 4; 11] 12 (chars "Sales"); Attr [85; 4; 11] 12 (chars "EU")], [Attr [85; 4; 11] 12 (chars "EU")]. eexists.
  split; [discriminate|]. split; [repeat (constructor; [split; [cbn; tauto | left; reflexivity]|]); constructor|]. split; [repeat (constructor; [split; [cbn; tauto | left; reflexivity]|]); constructor|].
  split; [vm_compute; reflexivity|]. split; [vm_compute; reflexivity | vm_compute; discriminate].
Qed.
(** Without '=' in the values the text determines the last value of every type in the table. *)
Theorem C72_names_partial : forall n m t, Forall known_attr n -> Forall known_attr m -> zlen (name_der n) < 2 ^ 64 -> zlen (name_der m) < 2 ^ 64 ->
  Forall (fun a => ~ In 61 (a_value a)) n -> Forall (fun a => ~ In 61 (a_value a)) m ->
  text_of n = Ok t -> text_of m = Ok t -> forall o, In o (map fst labels) -> last_value n o = last_value m o.
Proof.
  intros n m t KN KM LN LM EN EM TN TM o Ho.
  assert (P : forall l, Forall known_attr l -> zlen (name_der l) < 2 ^ 64 -> Forall (fun a => ~ In 61 (a_value a)) l -> text_of l = Ok t ->
    exists x, name_string x = t /\ Forall no_eq (values x) /\ Forall (fun o => field x o = last_value l o) (map fst labels)).
  { clear. intros l K L E T. unfold name_der in L. change (fun a => tlv 49 _) with rdn in *. pose proof (tlv_length 48 (concat (map rdn l))) as L1.
    destruct (parse_name_ok l [] K ltac:(lia)) as (x & P & F). unfold text_of in T. change (whole ?l) with (Sp l []) in T. change (map (fun a => tlv 49 _) l) with (map rdn l) in T. rewrite P in T. cbn [bind] in T. injection T as T.
    exists x. split; [exact T|]. split; [|exact F].
    assert (NE : forall o, no_eq (last_value l o)).
    { intros o. unfold last_value. assert (G : forall v, no_eq v -> no_eq (fold_left (fun v a => if list_eqb (a_oid a) o then a_value a else v) l v)).
      { clear - E. induction E as [|a l Ha _ IH]; intros v Hv; [exact Hv|]. cbn [fold_left]. apply IH. destruct (list_eqb _ _); assumption. }
      apply G. intros []. }
    assert (V : values x = map (field x) (map fst labels)) by (destruct x; reflexivity). rewrite V. apply Forall_forall. intros v Iv. apply in_map_iff in Iv. destruct Iv as (o & <- & Io).
    rewrite Forall_forall in F. rewrite (F o Io). apply NE. }
  destruct (P n KN LN EN TN) as (x & X1 & X2 & X3). destruct (P m KM LM EM TM) as (y & Y1 & Y2 & Y3).
  assert (x = y) by (apply name_string_inj; [assumption..|congruence]). subst y. rewrite Forall_forall in X3, Y3. rewrite <- (X3 o Ho). apply Y3; exact Ho.
Qed.
Print Assumptions C72_separator_refuted.
Print Assumptions C72_unknown_refuted.
Print Assumptions C72_repeated_refuted.
Print Assumptions C72_names_partial.
Example C72_case : let n := [Attr [85; 4; 6] 19 (chars "NL"); Attr [85; 4; 3] 12 (chars "a b")] in
  Forall known_attr n /\ Forall (fun a => ~ In 61 (a_value a)) n /\ text_of n = Ok (chars "C=NL CN=a b") /\ last_value n [85; 4; 3] = chars "a b".
Proof.
  split; [repeat (constructor; [split; [cbn; tauto | first [left; reflexivity | right; reflexivity]]|]); constructor|].
  split; [repeat constructor; intros H; cbv in H; repeat destruct H as [H|H]; try discriminate H; exact H|]. split; vm_compute; reflexivity.
Qed.

(** ** C73: verification *)
(** Whatever bytes the certificate consists of. *)
Theorem C73_sound : forall g c iss N e key, bytes (derCert c) -> zlen (derCert c) < 2 ^ 24 -> supplies_ok g ->
  bn W N -> Z.odd (val N) = true -> bn W e -> rsa_public_key W N e = Ok key -> c_pubkey iss = Some key ->
  verify g c iss = Ok true ->
  (validity_start iss <= validity_start c /\ validity_end c <= validity_end iss) /\
  exists tbs oid sig a len, laid_out (derCert c) tbs oid sig /\ sig_alg oid a /\ zlen sig <= len /\
    let em := emsa_pkcs1 (h_asn1 a ++ spec_hash a (der_sequence tbs)) len in
    (be_val sig mod 2 ^ 4096) ^ val e mod val N = (be_val em mod 2 ^ 4096) mod val N.
Proof.
  intros g c iss N e key HB LB HG HN HO He HR HK H. destruct (verify_sound g c iss N e key HB LB HG HN HO He HR ltac:(intros k E; congruence) H) as [NE (t & o & s & a & L & SA & _ & E)].
  split; [exact NE|]. exists t, o, s, a, (em_len a s). split; [exact L|]. split; [exact SA|]. split; [unfold em_len; apply Z.le_max_l|]. unfold digest_info in E. exact E.
Qed.
(** On certificates in DER with a signature as long as the modulus the answer is exact. *)
Theorem C73_exact : forall g c iss tbs oid sig rest a N e key, bytes (derCert c) -> zlen (derCert c) < 2 ^ 24 ->
  derCert c = cert_der tbs oid sig ++ rest -> sig_alg oid a -> supplies_ok g ->
  bn W N -> Z.odd (val N) = true -> bn W e -> rsa_public_key W N e = Ok key -> c_pubkey iss = Some key ->
  zlen (h_asn1 a) + spec_size a + 3 <= zlen sig <= 512 -> 2 * 256 ^ (zlen sig - 2) <= val N ->
  exists b, verify g c iss = Ok b /\ (b = true <->
    (validity_start iss <= validity_start c /\ validity_end c <= validity_end iss) /\
    be_val sig ^ val e mod val N = be_val (emsa_pkcs1 (h_asn1 a ++ spec_hash a (der_sequence tbs)) (zlen sig))).
Proof. intros g c iss tbs oid sig rest a N e key HB LB HD SA HG HN HO He HR HK HL LN. exact (verify_exact g c iss tbs oid sig a N e key HB LB (ex_intro _ rest HD) SA HG HN HO He HR HK HL LN). Qed.
Theorem C73_ends : forall g c iss N e key, bytes (derCert c) -> zlen (derCert c) < 2 ^ 24 -> supplies_ok g ->
  bn W N -> bn W e -> rsa_public_key W N e = Ok key -> c_pubkey iss = Some key -> verify g c iss <> Diverge.
Proof.
  intros g c iss N e key HB LB HG HN He HR HK. apply verify_ends; try assumption. intros k E. assert (k = key) by congruence. subst k.
  apply (public_key_sized W N e); [unfold W; lia | assumption..].
Qed.
Print Assumptions C73_sound.
Print Assumptions C73_exact.
Print Assumptions C73_ends.
(** A real certificate, its issuer and another key. *)
Example C73_case : exists a b l, parse_der (der_of tA sA) = Ok a /\ parse_der (der_of tB sB) = Ok b /\ parse_der (der_of tL sL) = Ok l /\
  forall g, supplies_ok g -> verify g l a = Ok true /\ verify g l b = Ok false.
Proof.
  destruct the_world as (r & a & b & l & H). exists a, b, l. split; [apply H|]. split; [apply H|]. split; [apply H|]. intros g HG. split; [apply (w_la _ _ _ _ H g HG) | apply (w_lb _ _ _ _ H g HG)].
Qed.

(** ** C81: a parsed certificate has the fields that were encoded *)
Theorem C81_fields : forall t after rest, good_tbs t ->
  let inp := tlv 48 (tlv 48 (tbs_content t) ++ after) ++ rest in zlen inp < 2 ^ 64 ->
  exists c N e key, parse_der inp = Ok c /\
    derCert c = inp /\ bn 4 (serialNumber c) /\ val (serialNumber c) = t_serial t mod 2 ^ 128 /\
    subject c = name_text (t_subject t) /\ issuer c = name_text (t_issuer t) /\ (forall name, appliesTo c name = true <-> name = last_value (t_subject t) [85; 4; 3]) /\
    validity_start c = posix (t_start t) /\ validity_end c = posix (t_stop t) /\
    c_pubkey c = Some key /\ bn W N /\ val N = t_n t /\ bn W e /\ val e = t_e t /\ rsa_public_key W N e = Ok key.
Proof.
  intros t after rest G inp HL. destruct (parse_der_ok t after rest G HL) as (c & N & e & k & P1 & P2 & P3 & P4 & P5 & P6 & P7 & P8 & P9 & PK). exists c, N, e, k.
  repeat (split; [assumption|]). split; [|repeat (split; [assumption|]); exact PK].
  intros name. unfold appliesTo. rewrite P7. cbn [existsb]. rewrite orb_false_r. split; [intros E; apply list_eqb_eq in E; exact E | intros ->; apply list_eqb_refl].
Qed.
Print Assumptions C81_fields.
Example C81_case : good_tbs tA /\ zlen (der_of tA sA) = 277 /\ exists c, parse_der (der_of tA sA) = Ok c /\ subject c = chars "CN=M" /\ issuer c = chars "CN=R" /\ validity_start c = 1609459200.
Proof.
  split; [exact good_A|]. split; [vm_compute; reflexivity|]. destruct (parsed_ok tA sA good_A ltac:(vm_compute; reflexivity)) as (a & PA). exists a. split; [apply PA|].
  split; [rewrite (p_subject _ _ _ PA); vm_compute; reflexivity|]. split; [rewrite (p_issuer _ _ _ PA); vm_compute; reflexivity|]. rewrite (p_start _ _ _ PA). vm_compute; reflexivity.
Qed.

(** ** C82: private keys *)
Theorem C82_private_key : forall n e d crt, 0 <= n < 2 ^ 4096 -> Z.odd n = true -> 0 <= e -> 0 <= d < 2 ^ 4096 -> zlen (rsa_private_der n e d crt) < 2 ^ 64 ->
  exists N D key, parse_private_der (rsa_private_der n e d crt) = Ok (Some key) /\ bn W N /\ val N = n /\ bn W D /\ val D = d /\ rsa_private_key W N D = Ok key.
Proof. exact parse_private_ok. Qed.
Theorem C82_pem : forall text body der after, ~ In 45 text -> bytes der -> wrapped body der -> zlen (text ++ pem "RSA PRIVATE KEY" body ++ after) < 2 ^ 63 ->
  parse_private_pem (text ++ pem "RSA PRIVATE KEY" body ++ after) = parse_private_der der.
Proof.
  intros text body der after HT HD HW HL. rewrite pem_key_block in *. destruct key_markers as [K1 K2]. unfold parse_private_pem. rewrite (pem_decode_ok _ _ text body der after K1 K2 HT HD HW HL). reflexivity.
Qed.
(** The parsed key signs: with the public key of the same modulus the operations are inverse to each other. *)
Print Assumptions C82_private_key.
Print Assumptions C82_pem.
Example C82_case : exists N D key, parse_private_der (rsa_private_der 3233 17 2753 [61; 53]) = Ok (Some key) /\ bn W N /\ val N = 3233 /\ bn W D /\ val D = 2753 /\ rsa_private_key W N D = Ok key.
Proof. apply C82_private_key; try (split; vm_compute; (reflexivity || discriminate)); try (vm_compute; reflexivity); lia. Qed.

(** ** C83: parsing ends *)
(** False: a modulus that is zero (as a 4096 bit number) makes the parser loop for ever. *)
Theorem C83_parse_refuted : exists t, t_n t = 0 /\ t_e t = 65537 /\ zlen (tlv 48 (tlv 48 (tbs_content t))) = 117 /\ parse_der (tlv 48 (tlv 48 (tbs_content t))) = Diverge.
Proof.
  exists (Tbs 1 alg11 (cn "R") (day 2020) (day 2040) (cn "R") 0 65537 []). split; [reflexivity|]. split; [reflexivity|]. split; [vm_compute; reflexivity|].
  pose proof (parse_der_zero (Tbs 1 alg11 (cn "R") (day 2020) (day 2040) (cn "R") 0 65537 []) [] []) as P. rewrite !app_nil_r in P. apply P.
  - destruct good_R as (H1 & H2 & H3 & H4 & H5 & H6 & H7 & _ & _ & _ & H8). unfold good_frame. cbn [t_serial t_issuer t_subject t_start t_stop t_tail tR] in *. tauto.
  - discriminate.
  - reflexivity.
  - split; [discriminate | reflexivity].
  - reflexivity.
Qed.
Theorem C83_zero_modulus : forall t after rest, good_frame t -> 0 <= t_n t -> t_n t mod 2 ^ 4096 = 0 -> 17 <= t_e t < 2 ^ 4096 ->
  zlen (tlv 48 (tlv 48 (tbs_content t) ++ after) ++ rest) < 2 ^ 64 -> parse_der (tlv 48 (tlv 48 (tbs_content t) ++ after) ++ rest) = Diverge.
Proof. exact parse_der_zero. Qed.
(** On every byte string this is the only way not to end: part of the input is an RSA
    SubjectPublicKeyInfo with such a modulus.  Missing: that case. *)
Theorem C83_parse_partial : forall inp, bytes inp -> parse_der inp = Diverge -> exists before s, inp = before ++ s_data s ++ s_rest s /\ zero_key s.
Proof. exact parse_der_diverge. Qed.
Print Assumptions C83_parse_refuted.
Print Assumptions C83_zero_modulus.
Print Assumptions C83_parse_partial.
(** The hypotheses of both: a frame for any modulus. *)
Example C83_case : good_frame tA /\ bytes (tlv 48 (tlv 48 (tbs_content (Tbs 1 alg11 (cn "R") (day 2020) (day 2040) (cn "R") 0 65537 [])))) /\ (2 ^ 5000) mod 2 ^ 4096 = 0.
Proof.
  destruct good_A as (H1 & H2 & H3 & H4 & H5 & H6 & H7 & _ & _ & _ & H8). split; [unfold good_frame; tauto|]. split; [apply bytesb_ok; vm_compute; reflexivity | vm_compute; reflexivity].
Qed.
