(** Model of /repo/include/caligo/rsa.h, /repo/include/caligo/pkcs1.h and of the two entry points
    RsaPubkey::validateSignature and RsaPrivateKey::sign of /repo/src/X509Certificate.cpp.

    [n] is the number of words of the template width N = 32 * n.  Each hashing sub-call has its
    own supply of indeterminate hash buffers, [g 0], [g 1], ... *)
From Verif Require Import Base S_Hash M_Hash M_HKDF M_Bignum M_Mont.
Open Scope Z_scope.

(** rsa.h:37-46: the counter bytes at the end of C; an increment that gives 0 carries on. *)
Definition bump (C : list Z) (i : Z) : res (list Z * bool) :=
  do b <- getz C i; do C' <- setz C i (w8 (b + 1)); Ok (C', w8 (b + 1) =? 0).
Definition inc_counter (C : list Z) : res (list Z) :=
  let n := zlen C in
  do (C, z) <- bump C (n - 1);
  if negb z then Ok C else
  do (C, z) <- bump C (n - 2);
  if negb z then Ok C else
  do (C, z) <- bump C (n - 3);
  if negb z then Ok C else
  do (C, _) <- bump C (n - 4);
  Ok C.
(** rsa.h:32-47.  [fuel] bounds the iterations (each adds at least one byte). *)
Fixpoint mgf_loop (a : alg) (g : supply) (fuel : nat) (len : Z) (T C : list Z) : res (list Z) :=
  if zlen T <? len then
    match fuel with
    | O => Diverge
    | S k => do hv <- h_hash a (g 0%nat) [C]; do C' <- inc_counter C; mgf_loop a (shift g 1) k len (T ++ hv) C'
    end
  else Ok T.
(** rsa.h:23-52, MGF1<Hash>::MGF. *)
Definition MGF (a : alg) (g : supply) (seed : list Z) (len : Z) : res (list Z) :=
  if 2 ^ 32 <? len then Ok [] else
  do T <- mgf_loop a g (Z.to_nat len) len [] (seed ++ [0; 0; 0; 0]);
  Ok (resize T len).

(** rsa.h:55-65.  sig.size() - hashsize - 1 below 0 makes the span start before the buffer.
    When the mask is shorter than sLen the size_t loop start wraps and no salt is read. *)
Definition getSalt (a : alg) (g : supply) (sLen : Z) (sig : list Z) : res (list Z) :=
  do H <- slice sig (zlen sig - h_size a - 1) (h_size a);
  do dbmask <- MGF a g H (w64 (zlen sig - h_size a - 1));
  if zlen dbmask <? sLen then Ok [] else
  do s <- slice sig (zlen dbmask - sLen) sLen;
  do m <- slice dbmask (zlen dbmask - sLen) sLen;
  Ok (map2 Z.lxor s m).

(** rsa.h:67-82. *)
Definition generatePssData (a : alg) (g : nat -> supply) (data salt : list Z) (desiredLength : Z) : res (list Z) :=
  do H <- h_hash a (g 0%nat 0%nat) [repeat 0 8; data; salt];
  do dbmask <- MGF a (g 1%nat) H (w64 (desiredLength - h_size a - 1));
  let i := w64 (zlen dbmask - zlen salt - 1) in
  do b <- getz dbmask i;
  do db <- setz dbmask i (Z.lxor b 1);
  do tail <- slice db (zlen db - zlen salt) (zlen salt);
  do db' <- blit db (zlen db - zlen salt) (map2 Z.lxor tail salt);
  Ok (db' ++ H ++ [0xbc]).

(** pssdata[0] &= 0x7F (rsa.h:123, 157). *)
Definition mask_first (l : list Z) : res (list Z) := do b <- getz l 0; setz l 0 (Z.land b 0x7F).

(** pkcs1.h:17-33: the DER-like prefix; push_back stores the low byte. *)
Definition seq_prefix (size : Z) : list Z :=
  if size <? 0x80 then [0x30; w8 size]
  else if size <? 0x100 then [0x30; 0x81; w8 size]
  else if size <? 0x10000 then [0x30; 0x82; Z.land (Z.shiftr size 8) 0xFF; Z.land size 0xFF]
  else [0x30; 0x83; Z.land (Z.shiftr size 16) 0xFF; Z.land (Z.shiftr size 8) 0xFF; Z.land size 0xFF].
(** pkcs1.h:5-41.  The number of padding bytes is computed in size_t; when requestedSize is
    too small it wraps, and pushing that many bytes ends in an allocation exception. *)
Definition PKCS1 (a : alg) (g : supply) (data : list Z) (requestedSize : Z) : res (list Z) :=
  let until := w64 (requestedSize - zlen (h_asn1 a) - h_size a - 1) in
  if 2 ^ 63 <=? until then Throw else
  let rv := [0; 1] ++ repeat 255 (Z.to_nat (until - 2)) in
  do hash <- h_hash a (g 0%nat) [seq_prefix (zlen data); data];
  Ok (rv ++ [0] ++ h_asn1 a ++ hash).

(** rsa.h:86-93. *)
Record pubkey := Pub { pub_s : mstate; pub_n : list Z; pub_e : list Z }.
Definition rsa_public_key (n : nat) (N e : list Z) : res pubkey :=
  do s <- mont_state n N; Ok (Pub s N e).
(** rsa.h:99-105. *)
Definition rsaep (n : nat) (k : pubkey) (m : list Z) : res (list Z) :=
  do v <- mont_of n (pub_s k) m;
  do r <- (if eq_ (pub_e k) (of_u32 (bits_of n) 65537) then mont_exp32 n (pub_s k) v 65537 else mont_exp n (pub_s k) v (pub_e k));
  mont_out n (pub_s k) r.

(** rsa.h:106-111; the signature is read least significant byte first. *)
Definition validatePkcs1_5 (n : nat) (a : alg) (g : supply) (k : pubkey) (data sig : list Z) : res bool :=
  do hash <- PKCS1 a g data (zlen sig);
  do h <- of_bytes (bits_of n) (rev hash);
  do s <- of_bytes (bits_of n) sig;
  do r <- rsaep n k s;
  Ok (eq_ h r).
(** rsa.h:112-125; [sLen] is MGF::hashsize. *)
Definition validatePss (n : nat) (a : alg) (sLen : Z) (g : nat -> supply) (k : pubkey) (message sig : list Z) : res bool :=
  do sigBN <- of_bytes (bits_of n) (rev sig);
  do r <- rsaep n k sigBN;
  let dSigV := rev (resize (as_bytes r) (zlen sig)) in
  do salt <- getSalt a (g 2%nat) sLen dSigV;
  do hMessage <- h_hash a (g 3%nat 0%nat) [message];
  do pssdata <- generatePssData a g hMessage salt (zlen dSigV);
  do pssdata <- mask_first pssdata;
  Ok (list_eqb dSigV pssdata).

(** rsa.h:130-141: the loop looks for the highest set bit. *)
Record privkey := Priv { priv_s : mstate; priv_n : list Z; priv_d : list Z; priv_bits : Z }.
Fixpoint top_bit (fuel : nat) (N : list Z) (i : Z) : res Z :=
  do b <- bit N i;
  if b =? 0 then match fuel with O => UB | S k => top_bit k N (w64 (i - 1)) end else Ok (i + 1).
Definition rsa_private_key (n : nat) (N d : list Z) : res privkey :=
  do s <- mont_state n N;
  do b <- top_bit (32 * n) N (bits_of n - 1);
  Ok (Priv s N d b).
(** rsa.h:142-144. *)
Definition rsadp (n : nat) (k : privkey) (m : list Z) : res (list Z) :=
  do v <- mont_of n (priv_s k) m; do r <- mont_exp n (priv_s k) v (priv_d k); mont_out n (priv_s k) r.

(** rsa.h:150, on the reversed vector: drop leading zero bytes that are followed by a byte
    below 0x80; reading before the start of the vector is undefined. *)
Fixpoint trim (l : list Z) : res (list Z) :=
  match l with
  | [] => UB
  | x :: r => if x =? 0
              then match r with
                   | [] => UB
                   | y :: _ => if Z.land y 0x80 =? 0 then trim r else Ok l
                   end
              else Ok l
  end.
(** rsa.h:145-153. *)
Definition signPkcs1_5 (n : nat) (a : alg) (g : supply) (k : privkey) (data : list Z) : res (list Z) :=
  do hash <- PKCS1 a g data (priv_bits k / 8);
  do h <- of_bytes (bits_of n) (rev hash);
  do r <- rsadp n k h;
  trim (rev (as_bytes r)).
(** rsa.h:154-163; the message argument is used as the message hash. *)
Definition signPss (n : nat) (a : alg) (g : nat -> supply) (k : privkey) (message salt : list Z) : res (list Z) :=
  do pssData <- generatePssData a g message salt (priv_bits k / 8);
  do pssData <- mask_first pssData;
  do p <- of_bytes (bits_of n) (rev pssData);
  do r <- rsadp n k p;
  Ok (rev (resize (as_bytes r) (priv_bits k / 8))).

(** The Tls13SignatureScheme values the two functions below distinguish. *)
Inductive scheme := Pkcs1_256 | Pkcs1_384 | Pkcs1_512 | Pss_rsae_256 | Pss_rsae_384 | Pss_rsae_512
                  | Pss_pss_256 | Pss_pss_384 | Pss_pss_512 | Other_scheme.
(** X509Certificate.cpp:51-71. *)
Definition validateSignature (n : nat) (g : nat -> supply) (k : pubkey) (t : scheme) (data sig : list Z) : res bool :=
  match t with
  | Pkcs1_256 => validatePkcs1_5 n ASHA256 (g 0%nat) k data sig
  | Pkcs1_384 => validatePkcs1_5 n ASHA384 (g 0%nat) k data sig
  | Pkcs1_512 => validatePkcs1_5 n ASHA512 (g 0%nat) k data sig
  | Pss_rsae_256 | Pss_pss_256 => validatePss n ASHA256 32 g k data sig
  | Pss_rsae_384 | Pss_pss_384 => validatePss n ASHA384 48 g k data sig
  | Pss_rsae_512 | Pss_pss_512 => validatePss n ASHA512 64 g k data sig
  | Other_scheme => Ok false
  end.
(** X509Certificate.cpp:73-100; [salt] is what generate_random stored in the salt vector,
    resized to 32, 48 or 64 bytes.  The hash object of SHA2<256>(data) is [g 4]'s. *)
Definition salt_size (t : scheme) : Z :=
  match t with
  | Pss_rsae_256 | Pss_pss_256 => 32 | Pss_rsae_384 | Pss_pss_384 => 48 | Pss_rsae_512 | Pss_pss_512 => 64
  | _ => 0
  end.
Definition sign (n : nat) (g : nat -> supply) (k : privkey) (t : scheme) (salt data : list Z) : res (list Z) :=
  match t with
  | Pkcs1_256 => signPkcs1_5 n ASHA256 (g 0%nat) k data
  | Pkcs1_384 => signPkcs1_5 n ASHA384 (g 0%nat) k data
  | Pkcs1_512 => signPkcs1_5 n ASHA512 (g 0%nat) k data
  | Pss_rsae_256 | Pss_pss_256 => do h <- h_hash ASHA256 (g 4%nat 0%nat) [data]; signPss n ASHA256 g k h salt
  | Pss_rsae_384 | Pss_pss_384 => do h <- h_hash ASHA256 (g 4%nat 0%nat) [data]; signPss n ASHA384 g k h salt
  | Pss_rsae_512 | Pss_pss_512 => do h <- h_hash ASHA256 (g 4%nat 0%nat) [data]; signPss n ASHA512 g k h salt
  | Other_scheme => Ok []
  end.
