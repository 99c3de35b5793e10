(** The ten hash classes behind one interface, and src/hash.cpp. *)
From Coq Require Import String.
From Verif Require Import Base M_MD M_MD5 M_SHA1 M_SHA2 M_SHA3 S_Hash.

(** An object of one of the classes (hash.cpp:54, the variant's alternatives). *)
Inductive hobj := OMD (s : hstate) | OS3 (s : sha3state).

(** Bytes of uninitialised buffer in a fresh object (md5.h:35, sha1.h:35, sha2.h:39, 102;
    SHA3 has none). *)
Definition buflen (a : alg) : nat :=
  match a with
  | AMD5 | ASHA1 | ASHA224 | ASHA256 => 64
  | ASHA384 | ASHA512 => 128
  | _ => 0
  end.

(** Default constructors. *)
Definition h_new (a : alg) (garbage : list Z) : hobj :=
  match a with
  | AMD5 => OMD (md5_init garbage)
  | ASHA1 => OMD (sha1_init garbage)
  | ASHA224 => OMD (sha224_init garbage)
  | ASHA256 => OMD (sha256_init garbage)
  | ASHA384 => OMD (sha384_init garbage)
  | ASHA512 => OMD (sha512_init garbage)
  | _ => OS3 sha3_init
  end.

Definition sha3_size_of (a : alg) : Z :=
  match a with ASHA3_224 => 224 | ASHA3_256 => 256 | ASHA3_384 => 384 | _ => 512 end.

(** add(); an object never has the representation of another class. *)
Definition h_add (a : alg) (o : hobj) (d : list Z) : res hobj :=
  match o with
  | OMD s =>
      do s' <- (match a with
                | AMD5 => md5_add | ASHA1 => sha1_add
                | ASHA224 => sha224_add | ASHA256 => sha256_add
                | ASHA384 => sha384_add | ASHA512 => sha512_add
                | _ => fun _ _ => UB
                end) s d;
      Ok (OMD s')
  | OS3 s => do s' <- sha3_add (sha3_size_of a) s d; Ok (OS3 s')
  end.

(** data(). *)
Definition h_digest (a : alg) (o : hobj) : res (list Z) :=
  match o with
  | OMD s =>
      (match a with
       | AMD5 => md5_digest | ASHA1 => sha1_digest
       | ASHA224 => sha224_digest | ASHA256 => sha256_digest
       | ASHA384 => sha384_digest | ASHA512 => sha512_digest
       | _ => fun _ => UB
       end) s
  | OS3 s => sha3_digest (sha3_size_of a) s
  end.

(** operator std::string: md5.cpp:85-93, sha1.cpp:60-68, sha2.cpp:110-118 and 242-250,
    sha3.cpp:40-49 all loop over data() of the class they are members of; SHA2<224> and
    SHA2<384> re-export the base class's operator (sha2.h:67, 130). *)
Definition h_string (a : alg) (o : hobj) : res (list Z) :=
  let a' := match a with ASHA224 => ASHA256 | ASHA384 => ASHA512 | x => x end in
  do d <- h_digest a' o; Ok (hex_string d).

(** hashsize constants (md5.h:12, sha1.h:12, sha2.h:16, 46, 79, 109, sha3.h:13). *)
Definition h_size (a : alg) : Z :=
  match a with
  | AMD5 => 16 | ASHA1 => 20 | ASHA256 => 32 | ASHA224 => 28 | ASHA512 => 64 | ASHA384 => 48
  | x => sha3_size_of x / 8
  end.

(** getAsn1Id: md5.h:30-32, sha1.h:27-29, sha2.h:31-33, 69-71, 94-96, 132-134,
    sha3.h:32-44 (the explicit specialisations in sha3.cpp:124-142 return the same). *)
Definition h_asn1 (a : alg) : list Z :=
  match a with
  | AMD5 => [0x30; 0x20; 0x30; 0x0c; 0x06; 0x08; 0x2a; 0x86; 0x48; 0x86; 0xf7; 0x0d; 0x02; 0x05; 0x05; 0x00; 0x04; 0x10]
  | ASHA1 => [0x30; 0x21; 0x30; 0x09; 0x06; 0x05; 0x2b; 0x0e; 0x03; 0x02; 0x1a; 0x05; 0x00; 0x04; 0x14]
  | ASHA256 => [0x30; 0x31; 0x30; 0x0d; 0x06; 0x09; 0x60; 0x86; 0x48; 0x01; 0x65; 0x03; 0x04; 0x02; 0x01; 0x05; 0x00; 0x04; 0x20]
  | ASHA224 => [0x30; 0x2d; 0x30; 0x0d; 0x06; 0x09; 0x60; 0x86; 0x48; 0x01; 0x65; 0x03; 0x04; 0x02; 0x04; 0x05; 0x00; 0x04; 0x1c]
  | ASHA512 => [0x30; 0x51; 0x30; 0x0d; 0x06; 0x09; 0x60; 0x86; 0x48; 0x01; 0x65; 0x03; 0x04; 0x02; 0x03; 0x05; 0x00; 0x04; 0x40]
  | ASHA384 => [0x30; 0x41; 0x30; 0x0d; 0x06; 0x09; 0x60; 0x86; 0x48; 0x01; 0x65; 0x03; 0x04; 0x02; 0x02; 0x05; 0x00; 0x04; 0x30]
  | ASHA3_224 => [0x30; 0x31; 0x30; 0x0d; 0x06; 0x09; 0x60; 0x86; 0x48; 0x01; 0x65; 0x03; 0x04; 0x02; 0x07; 0x05; 0x00; 0x04; 0x20]
  | ASHA3_256 => [0x30; 0x31; 0x30; 0x0d; 0x06; 0x09; 0x60; 0x86; 0x48; 0x01; 0x65; 0x03; 0x04; 0x02; 0x08; 0x05; 0x00; 0x04; 0x20]
  | ASHA3_384 => [0x30; 0x31; 0x30; 0x0d; 0x06; 0x09; 0x60; 0x86; 0x48; 0x01; 0x65; 0x03; 0x04; 0x02; 0x09; 0x05; 0x00; 0x04; 0x20]
  | ASHA3_512 => [0x30; 0x31; 0x30; 0x0d; 0x06; 0x09; 0x60; 0x86; 0x48; 0x01; 0x65; 0x03; 0x04; 0x02; 0x0a; 0x05; 0x00; 0x04; 0x20]
  end.

(** The variadic constructors: default construction, then add() of each argument in order
    (md5.h:14-19 and the same in the other classes). *)
Fixpoint h_adds (a : alg) (o : hobj) (ps : list (list Z)) : res hobj :=
  match ps with
  | [] => Ok o
  | p :: t => do o' <- h_add a o p; h_adds a o' t
  end.
(** Class<..>(args...).data(). *)
Definition h_hash (a : alg) (garbage : list Z) (args : list (list Z)) : res (list Z) :=
  do o <- h_adds a (h_new a garbage) args; h_digest a o.

(** hash.cpp:10-34, [Hash::Impl::Impl]; the condition on line 29 is a string literal,
    which is always true, and line 25 repeats the name tested on line 17. *)
Definition alg_of_name (n : string) : res alg :=
  let is s := String.eqb n s in
  if is "md5"%string then Ok AMD5
  else if is "sha1"%string || is "sha"%string then Ok ASHA1
  else if is "sha224"%string || is "sha2-224"%string then Ok ASHA224
  else if is "sha256"%string || is "sha2-256"%string then Ok ASHA256
  else if is "sha384"%string || is "sha2-384"%string then Ok ASHA384
  else if is "sha512"%string || is "sha2-512"%string then Ok ASHA512
  else if is "sha3-224"%string then Ok ASHA3_224
  else if is "sha2-256"%string then Ok ASHA3_256
  else if is "sha3-384"%string then Ok ASHA3_384
  else if true then Ok ASHA3_512
  else Throw.

(** hash.cpp:57-85 and hash.h:14-18: Hash(name, args...).data(), .hashsize(), std::string. *)
Definition Hash_data (n : string) (garbage : list Z) (args : list (list Z)) : res (list Z) :=
  do a <- alg_of_name n; h_hash a garbage args.
Definition Hash_size (n : string) : res Z := do a <- alg_of_name n; Ok (h_size a).
