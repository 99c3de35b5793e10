(** What an observer of the running code sees, for sha2.cpp, hkdf.h and the text form of a hash.

    The functions of M_MD, M_SHA2, M_Hash and M_HKDF again, with the record of M_Leak: the outcome
    of every condition, and the index of every array access.  A memcpy is recorded by its two
    offsets and its length, an insertion into or construction of a vector by the number of bytes.
    An element read several times in one expression is recorded once.  Simplified: the eight words
    w[0..7] and the array [output] are accessed at constant indices and not recorded. *)
From Coq Require Import String.
From Verif Require Import Base S_Hash M_MD M_SHA2 M_Hash S_HKDF M_HKDF M_Leak.
Open Scope Z_scope.

(** for (size_t t = ..; t < ..; t++) *)
Fixpoint for_t {A} (f : A -> nat -> traced A) (ts : list nat) (s : A) : traced A :=
  match ts with
  | [] => emit [Loop false] s
  | t :: rest => see _ <- emit [Loop true] tt; see s' <- f s t; for_t f rest s'
  end.
Definition at_t (v : list Z) (t : nat) : traced Z := get_t v (Z.of_nat t).

(** ** sha2.cpp *)
(** sha2.cpp:58-60. *)
Definition sha256_fill_t (chunk W : list Z) (t : nat) : traced (list Z) :=
  see a <- at_t chunk (t * 4); see b <- at_t chunk (t * 4 + 1); see c <- at_t chunk (t * 4 + 2); see d <- at_t chunk (t * 4 + 3);
  emit [At (Z.of_nat t)] (W ++ [w32 (Z.shiftl a 24 + Z.shiftl b 16 + Z.shiftl c 8 + d)]).
(** sha2.cpp:61-63. *)
Definition sha256_extend_t (W : list Z) (t : nat) : traced (list Z) :=
  see w2 <- at_t W (t - 2); see w15 <- at_t W (t - 15); see w7 <- at_t W (t - 7); see w16 <- at_t W (t - 16);
  emit [At (Z.of_nat t)]
    (W ++ [w32 (Z.lxor (Z.lxor (rotr32 w2 17) (rotr32 w2 19)) (Z.shiftr w2 10)
                + Z.lxor (Z.lxor (rotr32 w15 7) (rotr32 w15 18)) (Z.shiftr w15 3) + w7 + w16)]).
(** sha2.cpp:66-77. *)
Definition sha256_round_t (W : list Z) (s : st8) (t : nat) : traced st8 :=
  let '(a, b, c, d, e, f, g, h) := s in
  see k <- at_t K_256 t; see x <- at_t W t;
  let T1 := w32 (h + Z.lxor (Z.lxor (rotr32 e 6) (rotr32 e 11)) (rotr32 e 25)
                 + Z.lor (Z.land e f) (Z.land (sha2_not 32 e) g) + k + x) in
  let T2 := w32 (Z.lxor (Z.lxor (rotr32 a 2) (rotr32 a 13)) (rotr32 a 22)
                 + Z.lxor (Z.lxor (Z.land a b) (Z.land a c)) (Z.land b c)) in
  ret (w32 (T1 + T2), a, b, c, w32 (d + T1), e, f, g).
(** sha2.cpp:56-86. *)
Definition sha256_chunk_t (chunk w : list Z) : traced (list Z) :=
  match w with
  | [w0; w1; w2; w3; w4; w5; w6; w7] =>
      see W0 <- for_t (sha256_fill_t chunk) (seq 0 16) [];
      see W <- for_t sha256_extend_t (seq 16 48) W0;
      see s <- for_t (sha256_round_t W) (seq 0 64) (w0, w1, w2, w3, w4, w5, w6, w7);
      ret (let '(a, b, c, d, e, f, g, h) := s in
           [w32 (w0 + a); w32 (w1 + b); w32 (w2 + c); w32 (w3 + d);
            w32 (w4 + e); w32 (w5 + f); w32 (w6 + g); w32 (w7 + h)])
  | _ => ret w
  end.

(** sha2.cpp:183-192. *)
Definition sha512_fill_t (chunk W : list Z) (t : nat) : traced (list Z) :=
  see a <- at_t chunk (t * 8); see b <- at_t chunk (t * 8 + 1); see c <- at_t chunk (t * 8 + 2); see d <- at_t chunk (t * 8 + 3);
  see e <- at_t chunk (t * 8 + 4); see f <- at_t chunk (t * 8 + 5); see g <- at_t chunk (t * 8 + 6); see h <- at_t chunk (t * 8 + 7);
  emit [At (Z.of_nat t)] (W ++ [w64 (Z.shiftl a 56 + Z.shiftl b 48 + Z.shiftl c 40 + Z.shiftl d 32
     + Z.shiftl e 24 + Z.shiftl f 16 + Z.shiftl g 8 + Z.shiftl h 0)]).
(** sha2.cpp:193-195. *)
Definition sha512_extend_t (W : list Z) (t : nat) : traced (list Z) :=
  see w2 <- at_t W (t - 2); see w15 <- at_t W (t - 15); see w7 <- at_t W (t - 7); see w16 <- at_t W (t - 16);
  emit [At (Z.of_nat t)]
    (W ++ [w64 (Z.lxor (Z.lxor (rotr64 w2 19) (rotr64 w2 61)) (Z.shiftr w2 6)
                + Z.lxor (Z.lxor (rotr64 w15 1) (rotr64 w15 8)) (Z.shiftr w15 7) + w7 + w16)]).
(** sha2.cpp:198-209. *)
Definition sha512_round_t (W : list Z) (s : st8) (t : nat) : traced st8 :=
  let '(a, b, c, d, e, f, g, h) := s in
  see k <- at_t K_512 t; see x <- at_t W t;
  let T1 := w64 (h + Z.lxor (Z.lxor (rotr64 e 14) (rotr64 e 18)) (rotr64 e 41)
                 + Z.lor (Z.land e f) (Z.land (sha2_not 64 e) g) + k + x) in
  let T2 := w64 (Z.lxor (Z.lxor (rotr64 a 28) (rotr64 a 34)) (rotr64 a 39)
                 + Z.lxor (Z.lxor (Z.land a b) (Z.land a c)) (Z.land b c)) in
  ret (w64 (T1 + T2), a, b, c, w64 (d + T1), e, f, g).
(** sha2.cpp:159-218. *)
Definition sha512_chunk_t (chunk w : list Z) : traced (list Z) :=
  match w with
  | [w0; w1; w2; w3; w4; w5; w6; w7] =>
      see W0 <- for_t (sha512_fill_t chunk) (seq 0 16) [];
      see W <- for_t sha512_extend_t (seq 16 64) W0;
      see s <- for_t (sha512_round_t W) (seq 0 80) (w0, w1, w2, w3, w4, w5, w6, w7);
      ret (let '(a, b, c, d, e, f, g, h) := s in
           [w64 (w0 + a); w64 (w1 + b); w64 (w2 + c); w64 (w3 + d);
            w64 (w4 + e); w64 (w5 + f); w64 (w6 + g); w64 (w7 + h)])
  | _ => ret w
  end.

(** memcpy(chunk + to, data + from, n) *)
Definition copy_t (chunk : list Z) (to : Z) (data : list Z) (from n : Z) : traced (list Z) :=
  ([At to; At from; At n], do src <- slice data from n; blit chunk to src).

Section MD.
Variable B : Z.
Variable chunk_t : list Z -> list Z -> traced (list Z).
Variable line : Z. (* of the function [add] *)
(** sha2.cpp:32-38, 146-152. *)
Fixpoint md_loop_t (fuel : nat) (chunk words data : list Z) (inoffset : Z) : traced (list Z * list Z) :=
  match fuel with
  | O => ([], Diverge)
  | S k =>
      if B <=? w64 (zlen data - inoffset) then
        see _ <- emit [Loop true] tt;
        see chunk' <- copy_t chunk 0 data inoffset B;
        see words' <- chunk_t chunk' words;
        md_loop_t k chunk' words' data (inoffset + B)
      else
        see _ <- emit [Loop false] tt;
        see none <- choose (line + 20) (w64 (zlen data - inoffset) =? 0) true false;
        if none : bool then ret (chunk, words)
        else see chunk' <- copy_t chunk 0 data inoffset (w64 (zlen data - inoffset)); ret (chunk', words)
  end.
(** sha2.cpp:17-39, 131-153. *)
Definition md_add_t (s : hstate) (data : list Z) : traced hstate :=
  let offset := h_len s mod B in
  let msglength := w64 (h_len s + zlen data) in
  let fuel := S (List.length data) in
  see part <- choose (line + 4) (negb (offset =? 0)) true false;
  if part : bool then
    see copyNow <- choose (line + 5) (B - offset <? zlen data) (B - offset) (zlen data);
    see chunk' <- copy_t (h_chunk s) offset data 0 copyNow;
    see short <- choose (line + 9) (negb (offset + copyNow =? B)) true false;
    if short : bool then ret (mkH chunk' (h_words s) msglength)
    else
      see words' <- chunk_t chunk' (h_words s);
      see cw <- md_loop_t fuel chunk' words' data copyNow;
      ret (mkH (fst cw) (snd cw) msglength)
  else
    see cw <- md_loop_t fuel (h_chunk s) (h_words s) data 0;
    ret (mkH (fst cw) (snd cw) msglength).

(** sha2.cpp:96-99, 228-231: n counts down. *)
Fixpoint down (n : nat) : list event :=
  match n with
  | O => [Loop false]
  | S k => Loop true :: At (Z.of_nat k) :: down k
  end.
Variable lenbytes : nat.
Variable wordsize : nat.
(** sha2.cpp:88-108, 220-240. *)
Definition md_digest_t (s : hstate) : traced (list Z) :=
  let padsize := B - (w64 (h_len s + Z.of_nat lenbytes) mod B) in
  let zeroes := 0x80 :: repeat 0 (Z.to_nat B) in
  see pad <- ([At padsize], slice zeroes 0 padsize);
  see copy <- md_add_t s pad;
  see size <- emit (down lenbytes) (msgsize lenbytes true (w64 (h_len s * 8)));
  see copy2 <- md_add_t copy size;
  for_t (fun out i => see v <- at_t (h_words copy2) i;
           emit (passes 1 wordsize (Z.of_nat (wordsize * i)))
             (out ++ map (fun j => Z.land (Z.shiftr v (8 * Z.of_nat wordsize - 8 - 8 * Z.of_nat j)) 0xFF) (seq 0 wordsize)))
    (seq 0 8) [].
End MD.

(** The four classes of sha2.h; the others are not recorded. *)
Definition sha2 (a : alg) : bool := match a with ASHA224 | ASHA256 | ASHA384 | ASHA512 => true | _ => false end.
(** The size of their member [chunk] (sha2.h:39, 102). *)
Definition block_of (a : alg) : Z := match a with ASHA224 | ASHA256 => 64 | _ => 128 end.

(** sha2.h: add of each class. *)
Definition h_add_t (a : alg) (o : hobj) (d : list Z) : traced hobj :=
  match o with
  | OMD s =>
      see s' <- (match a with
                 | ASHA224 | ASHA256 => md_add_t 64 sha256_chunk_t 17
                 | ASHA384 | ASHA512 => md_add_t 128 sha512_chunk_t 131
                 | _ => fun _ _ => ([], UB)
                 end) s d;
      ret (OMD s')
  | OS3 _ => ([], UB)
  end.
Fixpoint h_adds_t (a : alg) (o : hobj) (args : list (list Z)) : traced hobj :=
  match args with
  | [] => ret o
  | d :: rest => see o' <- h_add_t a o d; h_adds_t a o' rest
  end.
(** sha2.cpp:88-108, 220-240, sha2.h:60-65, 123-128: data(). *)
Definition h_digest_t (a : alg) (o : hobj) : traced (list Z) :=
  match o with
  | OMD s =>
      match a with
      | ASHA224 => see d <- md_digest_t 64 sha256_chunk_t 17 8 4 s; ([At 28], slice d 0 28)
      | ASHA256 => md_digest_t 64 sha256_chunk_t 17 8 4 s
      | ASHA384 => see d <- md_digest_t 128 sha512_chunk_t 131 16 8 s; ([At 48], slice d 0 48)
      | ASHA512 => md_digest_t 128 sha512_chunk_t 131 16 8 s
      | _ => ([], UB)
      end
  | OS3 _ => ([], UB)
  end.
(** Class(args...).data(). *)
Definition h_hash_t (a : alg) (garbage : list Z) (args : list (list Z)) : traced (list Z) :=
  see o <- h_adds_t a (h_new a garbage) args; h_digest_t a o.

(** sha2.cpp:110-118, 242-250 (and the same text in md5.cpp, sha1.cpp, sha3.cpp and crc.cpp). *)
Fixpoint hex_t (data : list Z) : traced (list Z) :=
  match data with
  | [] => emit [Loop false] []
  | c :: rest =>
      see _ <- emit [Loop true] tt;
      see x <- get_t hextab (Z.shiftr c 4); see y <- get_t hextab (Z.land c 0xF);
      see l <- hex_t rest; ret (x :: y :: l)
  end.
(** std::string(Class(args...)). *)
Definition h_string_t (a : alg) (garbage : list Z) (args : list (list Z)) : traced (list Z) :=
  see o <- h_adds_t a (h_new a garbage) args;
  see d <- h_digest_t (match a with ASHA224 => ASHA256 | ASHA384 => ASHA512 | x => x end) o; hex_t d.

(** ** hkdf.h *)
(** Two vectors of the size of the key, resized, and every element changed (hkdf.h:13-17). *)
Definition pad_t (a : alg) (x : Z) (key : list Z) : traced (list Z) :=
  emit (At (zlen key) :: At (h_size a * 2) :: passes 1 (Z.to_nat (h_size a * 2)) 0)
    (map (fun c => Z.lxor c x) (resize key (h_size a * 2))).
(** a.insert(a.end(), b.begin(), b.end()) *)
Definition insert_t (a b : list Z) : traced (list Z) := emit [At (zlen a); At (zlen b)] (a ++ b).
(** hkdf.h:11-22. *)
Definition HMAC_t (a : alg) (g : supply) (text key : list Z) : traced (list Z) :=
  see o <- pad_t a 0x5C key;
  see i <- pad_t a 0x36 key;
  see it <- insert_t i text;
  see h1 <- h_hash_t a (g 0%nat) [it];
  see oh <- insert_t o h1;
  h_hash_t a (g 1%nat) [oh].
(** hkdf.h:24-27. *)
Definition HKDF_Extract_t (a : alg) (g : supply) (salt ikm : list Z) : traced (list Z) := HMAC_t a g ikm salt.
(** hkdf.h:34-40. *)
Fixpoint expand_loop_t (a : alg) (g : supply) (fuel : nat) (prk info : list Z) (len : Z)
    (buffer lastT : list Z) (n : Z) : traced (list Z) :=
  if zlen buffer <? len then
    match fuel with
    | O => ([Loop true], Diverge)
    | S k =>
        see _ <- emit [Loop true] tt;
        see l <- insert_t lastT info;
        see hash <- HMAC_t a g (l ++ [w8 n]) prk;
        see buffer' <- insert_t buffer hash;
        expand_loop_t a (shift g 2) k prk info len buffer' hash (w64 (n + 1))
    end
  else emit [Loop false] buffer.
(** hkdf.h:29-43. *)
Definition HKDF_Expand_t (a : alg) (g : supply) (prk info : list Z) (len : Z) : traced (list Z) :=
  see buffer <- expand_loop_t a g (Z.to_nat len) prk info len [] [] 1;
  emit [At (zlen buffer); At len] (resize buffer len).
(** hkdf.h:45-56. *)
Definition HKDF_Expand_Label_t (a : alg) (g : supply) (prk label context : list Z) (len : Z) : traced (list Z) :=
  see info <- emit [At (zlen label); At (zlen context)] (label_info len label context);
  HKDF_Expand_t a g prk info len.
(** hkdf.h:61-64. *)
Definition get_traffic_secret_t (a : alg) (g : supply) (data hashSoFar : list Z) (client handshake : bool) : traced (list Z) :=
  see label <- emit [Choose 62 client; Choose 62 handshake]
    (if client then (if handshake then str "c hs traffic" else str "c ap traffic")
     else (if handshake then str "s hs traffic" else str "s ap traffic"));
  HKDF_Expand_Label_t a g data label hashSoFar (zlen data).
(** hkdf.h:65-69. *)
Definition get_key_iv_t (a : alg) (g : supply) (keysize ivsize : Z) (data hashSoFar : list Z)
    (client handshake : bool) : traced (list Z * list Z) :=
  see ts <- get_traffic_secret_t a g data hashSoFar client handshake;
  see key <- HKDF_Expand_Label_t a (shift g (used a (zlen data))) ts (str "key") [] keysize;
  see iv <- HKDF_Expand_Label_t a (shift g (used a (zlen data) + used a keysize)) ts (str "iv") [] ivsize;
  ret (key, iv).
(** hkdf.h:70-72. *)
Definition get_finished_key_t (a : alg) (g : supply) (data hashSoFar : list Z) (client : bool) : traced (list Z) :=
  see ts <- get_traffic_secret_t a g data hashSoFar client true;
  HKDF_Expand_Label_t a (shift g (used a (zlen data))) ts (str "finished") [] (h_size a).
(** hkdf.h:75-80. *)
Definition HKDF_HandshakeSecret_t (a : alg) (g : supply) (shared : list Z) : traced (list Z) :=
  let nothing := resize [] (h_size a) in
  see early <- HKDF_Extract_t a g nothing nothing;
  see empty <- h_hash_t a (shift g 2 0%nat) [];
  see derived <- HKDF_Expand_Label_t a (shift g 3) early (str "derived") empty (h_size a);
  HKDF_Extract_t a (shift g (3 + used a (h_size a))) derived shared.
(** hkdf.h:82-87. *)
Definition HKDF_MasterSecret_t (a : alg) (g : supply) (data : list Z) : traced (list Z) :=
  let nothing := resize [] (h_size a) in
  see empty <- h_hash_t a (g 0%nat) [];
  see derived <- HKDF_Expand_Label_t a (shift g 1) data (str "derived") empty (h_size a);
  HKDF_Extract_t a (shift g (1 + used a (h_size a))) derived nothing.
