(** HMAC (RFC 2104), HKDF (RFC 5869) and the TLS 1.3 derivations (RFC 8446 section 7.1). *)
From Coq Require Import String Ascii.
From Verif Require Import Base S_Hash.

(** Input block size in bytes of the hash functions (FIPS 180-4 figure 1, FIPS 202 table 3). *)
Definition spec_block (a : alg) : Z :=
  match a with
  | AMD5 | ASHA1 | ASHA224 | ASHA256 => 64
  | ASHA384 | ASHA512 => 128
  | ASHA3_224 => 144 | ASHA3_256 => 136 | ASHA3_384 => 104 | ASHA3_512 => 72
  end.

(** RFC 2104 section 2: keys longer than B bytes are hashed first, then zero-filled to B. *)
Definition hmac (H : list Z -> list Z) (B : Z) (key text : list Z) : list Z :=
  let k := if B <? zlen key then H key else key in
  let k0 := k ++ repeat 0 (Z.to_nat (B - zlen k)) in
  H (map (fun b => Z.lxor b 0x5c) k0 ++ H (map (fun b => Z.lxor b 0x36) k0 ++ text)).
Definition hmac_alg (a : alg) : list Z -> list Z -> list Z := hmac (spec_hash a) (spec_block a).

(** RFC 5869 section 2.3 over a MAC [mac key text]: T(0) is empty,
    T(i) = mac(PRK, T(i-1) | info | i); the output is the first L bytes of T(1) | T(2) | ... *)
Fixpoint T (mac : list Z -> list Z -> list Z) (prk info : list Z) (i : nat) : list Z :=
  match i with
  | O => []
  | S k => mac prk (T mac prk info k ++ info ++ [Z.of_nat i])
  end.
Definition hkdf_expand (mac : list Z -> list Z -> list Z) (hashlen : Z) (prk info : list Z) (L : Z) : list Z :=
  let N := Z.to_nat ((L + hashlen - 1) / hashlen) in       (* ceil(L / HashLen) *)
  firstn (Z.to_nat L) (flat_map (fun i => T mac prk info i) (seq 1 N)).
Definition hkdf_extract (mac : list Z -> list Z -> list Z) (salt ikm : list Z) : list Z := mac salt ikm.

(** Text as bytes. *)
Definition str (s : string) : list Z := map (fun c => Z.of_nat (nat_of_ascii c)) (list_ascii_of_string s).

(** RFC 8446 section 7.1: struct { uint16 length; opaque label<7..255>; opaque context<0..255> },
    label = "tls13 " + Label; vectors are preceded by their one-byte length. *)
Definition vec8 (l : list Z) : list Z := zlen l :: l.
Definition hkdf_label (len : Z) (label context : list Z) : list Z :=
  be_bytes 2 len ++ vec8 (str "tls13 " ++ label) ++ vec8 context.

Section TLS.
Variable H : list Z -> list Z.          (* the cipher suite's hash *)
Variable B hashlen : Z.
Definition expand_label (secret label context : list Z) (len : Z) : list Z :=
  hkdf_expand (hmac H B) hashlen secret (hkdf_label len label context) len.
Definition derive_secret (secret label transcript_hash : list Z) : list Z :=
  expand_label secret label transcript_hash hashlen.
(** The schedule without PSK: every 0 in the figure is HashLen zero bytes. *)
Definition zeros : list Z := repeat 0 (Z.to_nat hashlen).
Definition early_secret : list Z := hkdf_extract (hmac H B) zeros zeros.
Definition handshake_secret (shared : list Z) : list Z :=
  hkdf_extract (hmac H B) (derive_secret early_secret (str "derived") (H [])) shared.
Definition master_secret (hs : list Z) : list Z :=
  hkdf_extract (hmac H B) (derive_secret hs (str "derived") (H [])) zeros.
Definition traffic_label (client handshake : bool) : list Z :=
  match client, handshake with
  | true, true => str "c hs traffic"
  | true, false => str "c ap traffic"
  | false, true => str "s hs traffic"
  | false, false => str "s ap traffic"
  end.
Definition traffic_secret (secret thash : list Z) (client handshake : bool) : list Z :=
  derive_secret secret (traffic_label client handshake) thash.
(** Section 7.3 and 4.4.4. *)
Definition traffic_key (ts : list Z) (len : Z) : list Z := expand_label ts (str "key") [] len.
Definition traffic_iv (ts : list Z) (len : Z) : list Z := expand_label ts (str "iv") [] len.
Definition finished_key (ts : list Z) : list Z := expand_label ts (str "finished") [] hashlen.
End TLS.
