(** Specification for the certificate code: BER/DER elements (X.690), the Gregorian calendar,
    distinguished names, the RSA keys and certificates of RFC 5280, PEM (RFC 7468), chains. *)
From Coq Require Import String Ascii.
From Verif Require Import Base S_Base64 S_RSA.
Open Scope Z_scope.

(** ** X.690 *)
(** 8.1.3: the definite forms of a length; DER is the shortest of them. *)
Definition length_form (n : Z) (enc : list Z) : Prop :=
  (0 <= n < 128 /\ enc = [n]) \/
  (exists ds, bytes ds /\ 0 < zlen ds < 128 /\ be_val ds = n /\ enc = (128 + zlen ds) :: ds).
Definition tlv (tag : Z) (content : list Z) : list Z := tag :: der_length (zlen content) ++ content.
(** 8.3: an INTEGER is the shortest two's complement form; here for numbers that are not negative. *)
Definition int_content (z : Z) : list Z :=
  if z =? 0 then [0] else
  let b := be_bytes (Z.to_nat (Z.log2 z / 8 + 1)) z in
  match b with x :: _ => if x <? 128 then b else 0 :: b | [] => b end.
Definition integer (z : Z) : list Z := tlv 2 (int_content z).

(** ** Calendar *)
Definition leap (y : Z) : bool := (y mod 4 =? 0) && (negb (y mod 100 =? 0) || (y mod 400 =? 0)).
Definition month_days (y m : Z) : Z :=
  if m =? 2 then (if leap y then 29 else 28)
  else if (m =? 4) || (m =? 6) || (m =? 9) || (m =? 11) then 30 else 31.
Definition sum_from (f : Z -> Z) (a : Z) (n : nat) : Z := fold_right Z.add 0 (map (fun i => f (a + Z.of_nat i)) (seq 0 n)).
Definition year_days (y : Z) : Z := sum_from (month_days y) 1 12.
Record date := Date { d_year : Z; d_month : Z; d_day : Z; d_hour : Z; d_min : Z; d_sec : Z }.
Definition valid_date (d : date) : Prop :=
  1 <= d_month d <= 12 /\ 1 <= d_day d <= month_days (d_year d) (d_month d) /\
  0 <= d_hour d < 24 /\ 0 <= d_min d < 60 /\ 0 <= d_sec d < 60.
(** Seconds since 1970-01-01 without leap seconds, for years from 1970 on. *)
Definition posix (d : date) : Z :=
  (sum_from year_days 1970 (Z.to_nat (d_year d - 1970))
   + sum_from (month_days (d_year d)) 1 (Z.to_nat (d_month d - 1)) + (d_day d - 1)) * 86400
  + d_hour d * 3600 + d_min d * 60 + d_sec d.
Definition before (a b : date) : Prop :=
  d_year a < d_year b \/ d_year a = d_year b /\
 (d_month a < d_month b \/ d_month a = d_month b /\
 (d_day a < d_day b \/ d_day a = d_day b /\
 (d_hour a < d_hour b \/ d_hour a = d_hour b /\
 (d_min a < d_min b \/ d_min a = d_min b /\ d_sec a < d_sec b)))).
(** 11.7, 11.8: GeneralizedTime and UTCTime in DER. *)
Definition two_digits (n : Z) : list Z := [48 + n / 10; 48 + n mod 10].
Definition after_year (d : date) : list Z :=
  two_digits (d_month d) ++ two_digits (d_day d) ++ two_digits (d_hour d) ++ two_digits (d_min d) ++ two_digits (d_sec d) ++ [90].
Definition generalized_time (d : date) : list Z := tlv 24 (two_digits (d_year d / 100) ++ two_digits (d_year d mod 100) ++ after_year d).
Definition utc_time (d : date) : list Z := tlv 23 (two_digits (d_year d mod 100) ++ after_year d).
(** RFC 5280 4.1.2.5: UTCTime stands for the years 1950 to 2049, other years use GeneralizedTime. *)
Definition time_of (d : date) : list Z := if (1950 <=? d_year d) && (d_year d <? 2050) then utc_time d else generalized_time d.

(** ** Names *)
(** X.520 attribute types and the labels of the string form; the OID contents are 2.5.4.n
    and 1.2.840.113549.1.9.1. *)
Definition chars (s : string) : list Z := map (fun c => Z.of_N (N_of_ascii c)) (list_ascii_of_string s).
Definition labels : list (list Z * list Z) :=
  [ ([85; 4; 5], chars "S#"); ([85; 4; 6], chars "C"); ([85; 4; 7], chars "L"); ([85; 4; 9], chars "STREET");
    ([85; 4; 8], chars "ST"); ([42; 134; 72; 134; 247; 13; 1; 9; 1], chars "E"); ([85; 4; 42], chars "GN");
    ([85; 4; 4], chars "SN"); ([85; 4; 12], chars "T"); ([85; 4; 10], chars "O"); ([85; 4; 97], chars "OI");
    ([85; 4; 11], chars "OU"); ([85; 4; 3], chars "CN") ].
(** An attribute: type, string tag (12 UTF8String or 19 PrintableString), value; one per RDN. *)
Record attr := Attr { a_oid : list Z; a_tag : Z; a_value : list Z }.
Definition name_der (n : list attr) : list Z :=
  tlv 48 (concat (map (fun a => tlv 49 (tlv 48 (tlv 6 (a_oid a) ++ tlv (a_tag a) (a_value a)))) n)).
(** The last value given for a type; empty if none. *)
Definition last_value (n : list attr) (oid : list Z) : list Z :=
  fold_left (fun v a => if list_eqb (a_oid a) oid then a_value a else v) n [].
Fixpoint join (l : list (list Z)) : list Z :=
  match l with
  | [] => []
  | [x] => x
  | x :: r => x ++ [32] ++ join r
  end.
Definition name_text (n : list attr) : list Z :=
  join (flat_map (fun e => match last_value n (fst e) with [] => [] | v => [snd e ++ [61] ++ v] end) labels).
Definition known_attr (a : attr) : Prop := In (a_oid a) (map fst labels) /\ (a_tag a = 12 \/ a_tag a = 19).

(** ** RFC 3279 RSA keys and RFC 5280 certificates *)
Definition rsa_key_der (n e : Z) : list Z := tlv 48 (integer n ++ integer e).
Definition rsaEncryption : list Z := tlv 48 (tlv 6 [42; 134; 72; 134; 247; 13; 1; 1; 1] ++ tlv 5 []).
Definition rsa_spki (n e : Z) : list Z := tlv 48 (rsaEncryption ++ tlv 3 (0 :: rsa_key_der n e)).
Record tbs := Tbs {
  t_serial : Z; t_sigalg : list Z; t_issuer : list attr; t_start : date; t_stop : date; t_subject : list attr;
  t_n : Z; t_e : Z; t_tail : list (Z * list Z) }.
Definition tbs_content (t : tbs) : list Z :=
  tlv 160 (integer 2) ++ integer (t_serial t) ++ tlv 48 (t_sigalg t) ++ name_der (t_issuer t)
  ++ tlv 48 (time_of (t_start t) ++ time_of (t_stop t)) ++ name_der (t_subject t) ++ rsa_spki (t_n t) (t_e t)
  ++ concat (map (fun e => tlv (fst e) (snd e)) (t_tail t)).
(** The same with any contents in the place of the two times. *)
Definition tbs_with (times : list Z) (t : tbs) : list Z :=
  tlv 160 (integer 2) ++ integer (t_serial t) ++ tlv 48 (t_sigalg t) ++ name_der (t_issuer t)
  ++ tlv 48 times ++ name_der (t_subject t) ++ rsa_spki (t_n t) (t_e t)
  ++ concat (map (fun e => tlv (fst e) (snd e)) (t_tail t)).
(** sha256/384/512WithRSAEncryption: 1.2.840.113549.1.1.n. *)
Definition rsa_sig_oid (n : Z) : list Z := [42; 134; 72; 134; 247; 13; 1; 1; n].
Definition cert_der (t : list Z) (alg_oid sig : list Z) : list Z :=
  tlv 48 (tlv 48 t ++ tlv 48 (tlv 6 alg_oid ++ tlv 5 []) ++ tlv 3 (0 :: sig)).
(** RFC 8017 A.1.2 RSAPrivateKey: version, n, e, d and the CRT numbers. *)
Definition rsa_private_der (n e d : Z) (crt : list Z) : list Z :=
  tlv 48 (integer 0 ++ integer n ++ integer e ++ integer d ++ concat (map integer crt)).

(** ** PEM (RFC 7468): the base64 text may be broken into lines anywhere *)
Definition wrapped (body der : list Z) : Prop := strip_newlines body = rfc4648 43 47 true der.
Definition pem (label : string) (body : list Z) : list Z :=
  chars "-----BEGIN " ++ chars label ++ chars "-----" ++ [10] ++ body ++ [10]
  ++ chars "-----END " ++ chars label ++ chars "-----" ++ [10].
