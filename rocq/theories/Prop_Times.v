(** Property C125: certificates whose validity is not stated as dates. *)
From Coq Require Import String Permutation Znumtheory.
From Verif Require Import Base BaseP S_Base64 M_Base64 P_Base64 S_Hash M_Hash P_Hash Prop_Hash M_HKDF P_HKDF Prop_HKDF S_Bignum M_Bignum P_Bignum Prop_Bignum M_Mont P_Mont S_RSA M_RSA P_RSA P_Fermat Prop_RSA P_Prime RSA_Keys Prop_RSA2 S_X509 M_X509 M_Trust P_X509 P_Date P_Name P_Cert P_Pem S_Verify S_Trust P_Verify P_Trust Cert_Data Prop_X509 Prop_Trust Prop_Chain Prop_Server.
Open Scope list_scope.
Open Scope Z_scope.

(** X.680: UTCTime (23) and GeneralizedTime (24); here the form with digits only and Z behind them. *)
Definition digit (b : Z) : Prop := 48 <= b <= 57.
Definition time_text (tag : Z) (text : list Z) : Prop := (tag = 23 \/ tag = 24) /\ exists ds, text = ds ++ [90] /\ Forall digit ds.
(** The two digits that stand for the month are not one of 01 to 12. *)
Definition no_month (tag : Z) (text : list Z) : Prop :=
  exists year a b more, text = (year ++ a :: b :: more) ++ [90] /\ List.length year = (if tag =? 23 then 2%nat else 4%nat) /\ (10 * (a - 48) + (b - 48) = 0 \/ 12 < 10 * (a - 48) + (b - 48)).
Definition unreadable (tag : Z) (text : list Z) : Prop := text <> [] /\ (~ time_text tag text \/ (time_text tag text /\ no_month tag text)).

Lemma digitb_iff b : digitb b = true <-> digit b.
Proof. unfold digitb, digit. lia. Qed.
Lemma digits_iff l : forallb digitb l = true <-> Forall digit l.
Proof. rewrite forallb_forall, Forall_forall. split; intros H x X; apply digitb_iff, H, X. Qed.
Lemma time_not_month c v y a b more : c = y ++ a :: b :: more -> List.length y = 4%nat -> forallb digitb c = true -> (10 * (a - 48) + (b - 48) = 0 \/ 12 < 10 * (a - 48) + (b - 48)) -> date_tail c v = Ok (0, v).
Proof.
  intros -> L D M. destruct y as [|y0 [|y1 [|y2 [|y3 [|y4 y]]]]]; try discriminate L. unfold date_tail. rewrite D. cbn [negb app]. unfold two. change (4 + 1) with 5. set (c := y0 :: y1 :: y2 :: y3 :: a :: b :: more).
  assert (E0 : getz c 0 = Ok y0) by reflexivity. assert (E1 : getz c 1 = Ok y1) by reflexivity. assert (E2 : getz c 2 = Ok y2) by reflexivity.
  assert (E3 : getz c 3 = Ok y3) by reflexivity. assert (E4 : getz c 4 = Ok a) by reflexivity. assert (E5 : getz c 5 = Ok b) by reflexivity. clearbody c. rewrite E0, E1, E2, E3, E4, E5. cbn [bind].
  replace ((a - 48) * 10 + b - 48) with (10 * (a - 48) + (b - 48)) by lia.
  destruct (Z.leb_spec (10 * (a - 48) + (b - 48)) 0); [reflexivity|]. destruct (Z.ltb_spec 12 (10 * (a - 48) + (b - 48))); [reflexivity | exfalso; lia].
Qed.
Lemma date_as_tail tag text pre post rest : zlen text < 2 ^ 64 -> (tag = 23 \/ tag = 24) -> forall ds, text = ds ++ [90] -> (tag = 23 -> ds <> []) ->
  exists century, parse_date (cur pre (tlv tag text ++ post) rest) = date_tail (century ++ ds) (cur (pre ++ tlv tag text) post rest) /\
    List.length century = (if tag =? 23 then 2%nat else 0%nat) /\ forallb digitb century = true.
Proof.
  intros L T ds -> N. exists (if tag =? 23 then (if 53 <=? nth 0 ds 0 then [49; 57] else [50; 48]) else []). split; [|destruct T as [-> | ->]; cbn [Z.eqb Pos.eqb]; [destruct (53 <=? nth 0 ds 0); split; reflexivity | split; reflexivity]].
  unfold parse_date. rewrite read_tlv by exact L. cbn [bind s_data]. rewrite (getz_cur' ds 90 []) by (rewrite zlen_app; change (zlen [90]) with 1; lia). cbn [bind]. change (negb (90 =? 90)) with false. cbv iota. unfold id_utctime, id_generalizedtime.
  destruct T as [-> | ->]; cbn [Z.eqb Pos.eqb].
  - destruct ds as [|x ds]; [destruct (N eq_refl eq_refl)|]. cbn [app]. unfold getz at 1. change (0 <=? 0) with true. change (Z.to_nat 0) with 0%nat. cbn [nth_error bind nth]. 
    set (cy := if 53 <=? x then [49; 57] else [50; 48]). change (removelast (cy ++ x :: ds ++ [90])) with (removelast (cy ++ (x :: ds) ++ [90])). rewrite app_assoc, removelast_last. reflexivity.
  - cbn [bind app]. rewrite removelast_last. reflexivity.
Qed.
Lemma unreadable_zero tag text pre post rest : zlen text < 2 ^ 64 -> unreadable tag text -> parse_date (cur pre (tlv tag text ++ post) rest) = Ok (0, cur (pre ++ tlv tag text) post rest).
Proof.
  intros L (NE & H). destruct (exists_last NE) as (ds & z & ->).
  assert (LAST : getz (ds ++ [z]) (zlen (ds ++ [z]) - 1) = Ok z) by (apply (getz_cur' ds z []); rewrite zlen_app; change (zlen [z]) with 1; lia).
  destruct (Z.eq_dec z 90) as [-> | Z0].
  2: { unfold parse_date. rewrite read_tlv by exact L. cbn [bind s_data]. rewrite LAST. cbn [bind]. destruct (Z.eqb_spec z 90); [contradiction | reflexivity]. }
  assert (TAG : (tag = 23 \/ tag = 24) \/ (tag <> 23 /\ tag <> 24)) by lia. destruct TAG as [TAG | [T1 T2]].
  2: { unfold parse_date. rewrite read_tlv by exact L. cbn [bind s_data]. rewrite LAST. cbn [bind]. change (negb (90 =? 90)) with false. cbv iota. unfold id_utctime, id_generalizedtime.
       destruct (Z.eqb_spec tag 23); [contradiction|]. destruct (Z.eqb_spec tag 24); [contradiction|]. reflexivity. }
  assert (D : Forall digit ds \/ ~ Forall digit ds) by (rewrite <- digits_iff; destruct (forallb digitb ds); [left; reflexivity | right; discriminate]).
  assert (NN : tag = 23 -> ds <> []).
  { intros -> ->. destruct H as [H|(_ & y & a & b & m & E & Ly & _)]; [apply H; split; [left; reflexivity | exists []; split; [reflexivity | constructor]]|]. cbn [Z.eqb Pos.eqb] in Ly. apply (f_equal (@List.length Z)) in E. rewrite !app_length in E. cbn [List.length] in E. lia. }
  destruct (date_as_tail tag (ds ++ [90]) pre post rest L TAG ds eq_refl NN) as (cy & -> & LC & DC).
  destruct D as [D|D].
  - destruct H as [H|(_ & y & a & b & more & E & Ly & M)]; [destruct H; split; [exact TAG | exists ds; split; [reflexivity | exact D]]|].
    apply app_inj_tail in E. destruct E as [-> _]. apply time_not_month with (y := cy ++ y) (a := a) (b := b) (more := more); [apply app_assoc | rewrite app_length, LC, Ly; destruct (tag =? 23); reflexivity | | exact M].
    rewrite forallb_app, DC. apply digits_iff, D.
  - unfold date_tail. rewrite forallb_app, DC. destruct (forallb digitb ds) eqn:F; [destruct D; apply digits_iff, F | reflexivity].
Qed.

Lemma parse_date_view v u w : parse_date v = Ok (u, w) -> exists id s, read v = Ok (id, s, w).
Proof.
  unfold parse_date. destruct (read v) as [[[id s] v']| | |]; cbn [bind]; try discriminate. intros H. exists id, s. do 2 f_equal.
  destruct (getz (s_data s) (zlen (s_data s) - 1)) as [last| | |]; cbn [bind] in H; try discriminate H. destruct (negb (last =? 90)); [injection H as _ <-; reflexivity|].
  match type of H with bind ?x _ = _ => destruct x as [[copy|]| | |]; cbn [bind] in H; try discriminate H end; [|injection H as _ <-; reflexivity].
  destruct (negb (forallb digitb (removelast copy))); [injection H as _ <-; reflexivity|].
  do 5 (match type of H with bind ?x _ = _ => destruct x; cbn [bind] in H; try discriminate H end).
  match type of H with (if ?x then _ else _) = _ => destruct x; [injection H as _ <-; reflexivity|] end.
  do 5 (match type of H with bind ?x _ = _ => destruct x; cbn [bind] in H; try discriminate H end). injection H as _ <-. reflexivity.
Qed.

(** ** C125 *)
(** The certificate [t] with the two times as they are written. *)
Definition with_times (t : tbs) (tag1 : Z) (text1 : list Z) (tag2 : Z) (text2 after rest : list Z) : list Z :=
  tlv 48 (tlv 48 (tbs_with (tlv tag1 text1 ++ tlv tag2 text2) t) ++ after) ++ rest.
(** Times the parser cannot read become the first second of 1970. *)
Lemma unreadable_cert t tag1 text1 tag2 text2 after rest c : good_names t -> zlen (with_times t tag1 text1 tag2 text2 after rest) < 2 ^ 64 ->
  parse_der (with_times t tag1 text1 tag2 text2 after rest) = Ok c ->
  (unreadable tag1 text1 -> validity_start c = 0) /\ (unreadable tag2 text2 -> validity_end c = 0).
Proof.
  intros G L P. destruct (parse_der_times _ t after rest G L) as (ser & ni & ns & r & r' & LC & _ & EQ & _). unfold with_times in P. rewrite EQ in P. clear EQ L.
  rewrite zlen_app in LC. pose proof (tlv_length tag1 text1). pose proof (tlv_length tag2 text2). pose proof (zlen_nonneg (tlv tag1 text1)). pose proof (zlen_nonneg (tlv tag2 text2)).
  rewrite view_of_cur in P. destruct (parse_date (cur [] (tlv tag1 text1 ++ tlv tag2 text2) r')) as [[u w]| | |] eqn:E1; cbn [bind fst snd] in P; try discriminate P.
  destruct (parse_date w) as [[v w']| | |] eqn:E2; cbn [bind fst snd] in P; try discriminate P.
  match type of P with bind ?x _ = _ => destruct x; cbn [bind] in P; try discriminate P end. injection P as <-. cbn [validity_start validity_end]. split; intros U.
  - rewrite unreadable_zero in E1 by (assumption || lia). injection E1 as <- _. reflexivity.
  - destruct (parse_date_view _ _ _ E1) as (id & s & R). rewrite read_tlv in R by lia. injection R as _ _ <-.
    pose proof (unreadable_zero tag2 text2 ([] ++ tlv tag1 text1) [] r' ltac:(lia) U) as Q. rewrite app_nil_r in Q. pose proof (eq_trans (eq_sym Q) E2) as Q2. injection Q2 as <- _. reflexivity.
Qed.
(** On the way to a root that starts after 1970 everything starts and ends after 1970. *)
Theorem C125_trusted : forall g s vec now out, (forall i, supplies_ok (g i)) -> (forall c, In c vec -> bytes (derCert c) /\ zlen (derCert c) < 2 ^ 24) ->
  0 < now -> (forall name r, get s name = Some r -> 0 < validity_start r) -> trust g s vec now = Ok (true, out) ->
  exists leaf rest l, vec = leaf :: rest /\ path signed_by (get s) vec leaf l /\ Forall (fun c => 0 < validity_start c /\ 0 < validity_end c) (leaf :: l).
Proof.
  intros g s vec now out HG HV N0 HR H. destruct (C75_sound g s vec now out HG HV H) as (leaf & rest & l & E & P & F). exists leaf, rest, l. split; [exact E|]. split; [exact P|].
  assert (S1 : forall c l, path signed_by (get s) vec c l -> Forall (fun c => 0 < validity_start c) (c :: l)).
  { intros c l' Q. induction Q as [c r T S|c i l' I J S Q IH].
    - pose proof (HR _ _ T). destruct S as ((V & _) & _). constructor; [lia|]. constructor; [assumption | constructor].
    - constructor; [|exact IH]. inversion_clear IH as [|x y A B]. destruct S as ((V & _) & _). lia. }
  pose proof (S1 _ _ P) as Q. rewrite Forall_forall in *. intros c I. split; [exact (Q c I)|]. specialize (F c I). cbn beta in F. lia.
Qed.
Print Assumptions C125_trusted.
(** So a certificate with a time that cannot be read is not trusted. *)
Theorem C125_unreadable : forall t tag1 text1 tag2 text2 after rest c g s others now out, let inp := with_times t tag1 text1 tag2 text2 after rest in
  good_names t -> bytes inp -> zlen inp < 2 ^ 24 -> unreadable tag1 text1 \/ unreadable tag2 text2 -> parse_der inp = Ok c ->
  (forall i, supplies_ok (g i)) -> (forall x, In x others -> bytes (derCert x) /\ zlen (derCert x) < 2 ^ 24) ->
  0 < now -> (forall name r, get s name = Some r -> 0 < validity_start r) -> trust g s (c :: others) now <> Ok (true, out).
Proof.
  intros t tag1 text1 tag2 text2 after rest c g s others now out inp G B L U P HG HO N0 HR T.
  assert (L64 : zlen (with_times t tag1 text1 tag2 text2 after rest) < 2 ^ 64) by (clear - L; change (zlen inp < 2 ^ 64); lia).
  destruct (unreadable_cert t tag1 text1 tag2 text2 after rest c G L64 P) as [U1 U2].
  assert (D : derCert c = inp).
  { destruct (parse_der_times _ t after rest G L64) as (ser & ni & ns & r & r' & _ & _ & EQ & _). unfold inp, with_times in P. rewrite EQ in P.
    do 3 (match type of P with bind ?x _ = _ => destruct x; cbn [bind] in P; try discriminate P end). injection P as <-. reflexivity. }
  destruct (C125_trusted g s (c :: others) now out HG) as (leaf & r & l & E & _ & F); [|exact N0 | exact HR | exact T|].
  - intros x [<-|X]; [rewrite D; split; assumption | apply HO, X].
  - injection E as <- _. inversion_clear F as [|x y [A1 A2] _]. destruct U as [U|U]; [rewrite (U1 U) in A1 | rewrite (U2 U) in A2]; lia.
Qed.
Print Assumptions C125_unreadable.

(** Times that are too short, or empty, are read beyond their end. *)
Definition short (tag : Z) (text : list Z) : Prop :=
  text = [] \/ ((tag = 23 \/ tag = 24) /\ exists ds, text = ds ++ [90] /\ Forall digit ds /\ zlen ds < (if tag =? 23 then 4 else 6)).
Lemma short_tail c v : forallb digitb c = true -> (List.length c < 6)%nat -> date_tail c v = UB.
Proof. intros D L. unfold date_tail. rewrite D. cbn [negb]. unfold two, getz. do 6 (destruct c as [|? c]; [reflexivity|]). cbn [List.length] in L. lia. Qed.
Lemma short_date tag text pre post rest : short tag text -> parse_date (cur pre (tlv tag text ++ post) rest) = UB.
Proof.
  intros [-> | (T & ds & -> & D & L)].
  - unfold parse_date. rewrite read_tlv by reflexivity. reflexivity.
  - apply digits_iff in D. assert (LS : zlen (ds ++ [90]) < 2 ^ 64) by (rewrite zlen_app; change (zlen [90]) with 1; destruct (tag =? 23); lia).
    assert (E : (tag = 23 /\ ds = []) \/ (tag = 23 -> ds <> [])) by (destruct ds; [destruct T as [-> | ->]; [left; auto | right; lia] | right; discriminate]).
    destruct E as [[-> ->]|N].
    + unfold parse_date. rewrite read_tlv by reflexivity. reflexivity.
    + destruct (date_as_tail tag (ds ++ [90]) pre post rest LS T ds eq_refl N) as (cy & -> & LC & DC). apply short_tail; [rewrite forallb_app, DC; exact D|]. rewrite app_length, LC. unfold zlen in L. destruct (tag =? 23); lia.
Qed.
Theorem C125_short_refuted : forall t tag1 text1 tag2 text2 after rest, good_names t -> zlen (with_times t tag1 text1 tag2 text2 after rest) < 2 ^ 64 ->
  short tag1 text1 -> parse_der (with_times t tag1 text1 tag2 text2 after rest) = UB.
Proof.
  intros t tag1 text1 tag2 text2 after rest G L S. destruct (parse_der_times _ t after rest G L) as (ser & ni & ns & r & r' & _ & _ & EQ & _). unfold with_times. rewrite EQ, view_of_cur, short_date by exact S. reflexivity.
Qed.
Print Assumptions C125_short_refuted.

(** Dates that do not exist are read as the dates one gets by counting on. *)
Theorem C125_counted_on : forall t after rest, good_tbs t -> zlen (tlv 48 (tlv 48 (tbs_content t) ++ after) ++ rest) < 2 ^ 64 ->
  exists c, parse_der (tlv 48 (tlv 48 (tbs_content t) ++ after) ++ rest) = Ok c /\ validity_start c = posix (t_start t) /\ validity_end c = posix (t_stop t).
Proof. intros t after rest G L. destruct (C81_fields t after rest G L) as (c & N & e & key & P1 & _ & _ & _ & _ & _ & _ & P5 & P6 & _). exists c. auto. Qed.
Print Assumptions C125_counted_on.
(** A certificate from 31 February 2021, 99:99:99, until 99 February 2030. *)
Definition tOdd := Tbs 2 alg11 (cn "R") (Date 2021 2 31 99 99 99) (Date 2030 2 99 0 0 0) (cn "S") N560 65537 [].
Definition odd_root := signed_doc tRoot ASHA256 N784 D784 98.
Definition odd_site := signed_doc tOdd ASHA256 N784 D784 98.
Lemma odd_good : good_tbs tOdd.
Proof. unfold tOdd, good_tbs. cbn [t_serial t_issuer t_subject t_start t_stop t_n t_e t_tail]. unfold two_digit_fields. cbn [d_year d_month d_day d_hour d_min d_sec].
  split; [lia|]. split; [apply cn_known|]. split; [apply cn_known|]. split; [lia|]. split; [lia|]. split; [lia|]. split; [lia|]. split; [split; vm_compute; (reflexivity || discriminate)|]. split; [vm_compute; reflexivity|]. split; [split; vm_compute; (reflexivity || discriminate)|]. constructor. Qed.
Lemma odd_facts : Forall good_doc ([odd_root] ++ [odd_site]) /\ NoDup (names ([odd_root] ++ [odd_site])) /\ posix (t_start (d_tbs odd_site)) <= 1700000000 <= posix (t_stop (d_tbs odd_site)) /\
  chain [odd_root] [odd_site] odd_site.
Proof.
  unfold odd_root, odd_site. split; [|split; [|split]].
  - constructor; [|constructor; [|constructor]]; (apply good_signed; [first [exact odd_good | unfold tRoot; good_t] | left; reflexivity | apply bytesb_ok; vm_compute; reflexivity | vm_compute; reflexivity | split; vm_compute; discriminate]).
  - unfold names. cbn [map app signed_doc d_tbs]. constructor; [intros [E|[]]; vm_compute in E; discriminate E|]. constructor; [intros [] | constructor].
  - cbn [signed_doc d_tbs]. split; vm_compute; discriminate.
  - apply chain_root with (signed_doc tRoot ASHA256 N784 D784 98); [left; reflexivity|].
    apply (C111_issue tOdd ASHA256 (signed_doc tRoot ASHA256 N784 D784 98) D784 98); cbn [signed_doc d_tbs]; [left; reflexivity | reflexivity | vm_compute; discriminate | vm_compute; discriminate | exact pair784 | | vm_compute; discriminate].
    split; [vm_compute; discriminate | vm_compute; reflexivity].
Qed.
Lemma one_doc (x : doc) rs : map parse_der (map doc_der [x]) = map Ok rs -> exists r, rs = [r] /\ parse_der (doc_der x) = Ok r.
Proof.
  cbn [map]. generalize (parse_der (doc_der x)) as p. intros p H. destruct rs as [|r [|r' rs]]; cbn [map] in H; [discriminate H | | discriminate H]. exists r. split; [reflexivity|]. congruence.
Qed.
Lemma odd_start : ~ valid_date (t_start (d_tbs odd_site)).
Proof. change (~ valid_date (Date 2021 2 31 99 99 99)). intros (_ & H & _). vm_compute in H. destruct H as [_ H]. exact (H eq_refl). Qed.
Lemma odd_stop : ~ valid_date (t_stop (d_tbs odd_site)).
Proof. change (~ valid_date (Date 2030 2 99 0 0 0)). intros (_ & H & _). vm_compute in H. destruct H as [_ H]. exact (H eq_refl). Qed.
Theorem C125_impossible_refuted : forall g, (forall i, supplies_ok (g i)) ->
  exists root site now r c out, ~ valid_date (t_start (d_tbs site)) /\ ~ valid_date (t_stop (d_tbs site)) /\
    parse_der (doc_der root) = Ok r /\ parse_der (doc_der site) = Ok c /\ trust g (addCertificate [] r) [c] now = Ok (true, out).
Proof.
  intros g HG. destruct odd_facts as (F & ND & VA & CH).
  destruct (C109_chain_trusted g [odd_root] odd_site [] [] 1700000000 HG F ND VA CH (Permutation_refl _)) as (rs & c & cs & out & P1 & P2 & P3 & T).
  destruct (one_doc odd_root rs P1) as (r & -> & R). destruct cs as [|c2 cs]; [|discriminate P3]. exists odd_root, odd_site, 1700000000, r, c, out. split; [exact odd_start|]. split; [exact odd_stop|]. split; [exact R|]. split; [exact P2 | exact T].
Qed.
Print Assumptions C125_impossible_refuted.
Example C125_case : good_names tRoot /\ unreadable 23 (chars "200101000000+0100") /\ unreadable 23 (chars "201301000000Z") /\ unreadable 24 (chars "20200101000000.5Z") /\ short 23 (chars "20Z") /\
  ~ unreadable 23 (chars "200101000000Z") /\ posix (t_start tOdd) = posix (Date 2021 3 7 4 40 39) /\
  (exists v, parse_date (view_of (whole (tlv 23 (chars "200101000000+0100")))) = Ok (0, v)) /\ good_tbs tOdd.
Proof.
  assert (NT : forall tag text, (List.last text 0 =? 90) = false -> ~ time_text tag text).
  { intros tag text H (_ & ds & -> & _). rewrite last_last in H. discriminate H. }
  assert (ND : forall tag text, forallb digitb (removelast text) = false -> ~ time_text tag text).
  { intros tag text H (_ & ds & -> & D). rewrite removelast_last in H. apply digits_iff in D. congruence. }
  split; [unfold good_names, tRoot; cbn [t_serial t_issuer t_subject t_tail]; split; [lia|]; split; [apply cn_known|]; split; [apply cn_known | constructor]|].
  split; [split; [discriminate|]; left; apply NT; reflexivity|].
  split; [split; [discriminate|]; right; split|].
  - split; [left; reflexivity|]. exists (chars "201301000000"). split; [reflexivity | apply digits_iff; reflexivity].
  - exists (chars "20"), 49, 51, (chars "01000000"). split; [reflexivity|]. split; [reflexivity | right; reflexivity].
  - split; [split; [discriminate|]; left; apply ND; reflexivity|].
    split; [right; split; [left; reflexivity|]; exists (chars "20"); split; [reflexivity|]; split; [apply digits_iff; reflexivity | reflexivity]|].
    split; [intros (_ & [H|(_ & y & a & b & m & E & Ly & M)])|].
    + apply H. split; [left; reflexivity|]. exists (chars "200101000000"). split; [reflexivity | apply digits_iff; reflexivity].
    + cbn [Z.eqb Pos.eqb] in Ly. do 2 (destruct y as [|? y]; [discriminate Ly|]). destruct y; [|discriminate Ly]. cbn in E. injection E as _ _ <- <- _. revert M. vm_compute. intros [M|M]; discriminate M.
    + split; [vm_compute; reflexivity|]. split; [eexists; vm_compute; reflexivity | exact odd_good].
Qed.
