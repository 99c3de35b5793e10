(** The ten hash functions by name, and the encodings around a digest. *)
From Coq Require Import String.
From Verif Require Import Base S_MD S_MD5 S_SHA1 S_SHA2 S_SHA3.

Inductive alg := AMD5 | ASHA1 | ASHA224 | ASHA256 | ASHA384 | ASHA512
               | ASHA3_224 | ASHA3_256 | ASHA3_384 | ASHA3_512.

Definition spec_hash (a : alg) : list Z -> list Z :=
  match a with
  | AMD5 => md5 | ASHA1 => sha1
  | ASHA224 => sha224 | ASHA256 => sha256 | ASHA384 => sha384 | ASHA512 => sha512
  | ASHA3_224 => sha3 224 | ASHA3_256 => sha3 256 | ASHA3_384 => sha3 384 | ASHA3_512 => sha3 512
  end.

(** Digest size in bytes. *)
Definition spec_size (a : alg) : Z :=
  match a with
  | AMD5 => 16 | ASHA1 => 20
  | ASHA224 | ASHA3_224 => 28 | ASHA256 | ASHA3_256 => 32
  | ASHA384 | ASHA3_384 => 48 | ASHA512 | ASHA3_512 => 64
  end.

(** The names a user would write for each algorithm. *)
Definition names : list (string * alg) :=
  [("md5", AMD5); ("sha1", ASHA1); ("sha", ASHA1);
   ("sha224", ASHA224); ("sha2-224", ASHA224); ("sha256", ASHA256); ("sha2-256", ASHA256);
   ("sha384", ASHA384); ("sha2-384", ASHA384); ("sha512", ASHA512); ("sha2-512", ASHA512);
   ("sha3-224", ASHA3_224); ("sha3-256", ASHA3_256); ("sha3-384", ASHA3_384); ("sha3-512", ASHA3_512)]%string.

(** Lower-case hexadecimal. *)
Definition hexchar (d : Z) : Z := if d <? 10 then 48 + d else 97 + (d - 10).
Definition hex (l : list Z) : list Z := flat_map (fun b => [hexchar (b / 16); hexchar (b mod 16)]) l.

(** DER (X.690) for short contents, and DigestInfo (RFC 8017 section 9.2, A.2.4):
    SEQUENCE { SEQUENCE { OID, NULL }, OCTET STRING digest }. *)
Definition der (tag : Z) (content : list Z) : list Z := tag :: zlen content :: content.
(** One OID arc in base 128, continuation bits on all but the last group. *)
Fixpoint base128 (fuel : nat) (n : Z) (cont : Z) : list Z :=
  match fuel with
  | O => []
  | S k => (if n <? 128 then [] else base128 k (n / 128) 128) ++ [n mod 128 + cont]
  end.
Definition oid_bytes (arcs : list Z) : list Z :=
  match arcs with
  | a :: b :: t => (40 * a + b) :: flat_map (fun n => base128 10 n 0) t
  | _ => []
  end.
Definition oid (a : alg) : list Z :=
  match a with
  | AMD5 => [1; 2; 840; 113549; 2; 5]
  | ASHA1 => [1; 3; 14; 3; 2; 26]
  | ASHA256 => [2; 16; 840; 1; 101; 3; 4; 2; 1]
  | ASHA384 => [2; 16; 840; 1; 101; 3; 4; 2; 2]
  | ASHA512 => [2; 16; 840; 1; 101; 3; 4; 2; 3]
  | ASHA224 => [2; 16; 840; 1; 101; 3; 4; 2; 4]
  | ASHA3_224 => [2; 16; 840; 1; 101; 3; 4; 2; 7]
  | ASHA3_256 => [2; 16; 840; 1; 101; 3; 4; 2; 8]
  | ASHA3_384 => [2; 16; 840; 1; 101; 3; 4; 2; 9]
  | ASHA3_512 => [2; 16; 840; 1; 101; 3; 4; 2; 10]
  end.
Definition digest_info (a : alg) (digest : list Z) : list Z :=
  der 0x30 (der 0x30 (der 0x06 (oid_bytes (oid a)) ++ der 0x05 []) ++ der 0x04 digest).
