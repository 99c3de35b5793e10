(** What an observer of the running code sees, for md5.cpp, sha1.cpp and sha3.cpp.

    The functions of M_MD5, M_SHA1 and M_SHA3 again, with the record of M_Leak: the outcome of
    every condition, and the index of every array access.  The buffering code is that of
    M_LeakHash ([md_add_t]; md5.cpp:39-61 and sha1.cpp:14-36 have the same text).  The permutation
    of SHA-3 is written here with the loops and the assignments in place of the source.
    Simplified: the words h[0..4] of MD5 and SHA-1 in processChunk are accessed at constant indices
    and not recorded, nor are the writes to the arrays [zeroes] and [msgsize] other than in their
    loops. *)
From Coq Require Import String.
From Verif Require Import Base S_Hash M_MD M_MD5 M_SHA1 M_SHA3 M_Hash S_HKDF M_HKDF M_Leak M_LeakHash.
Open Scope Z_scope.

Definition put_t (v : list Z) (t : nat) (x : Z) : traced (list Z) := set_t v (Z.of_nat t) x.
(** v[t] ^= x *)
Definition xor_t (v : list Z) (t : nat) (x : Z) : traced (list Z) := see w <- at_t v t; put_t v t (Z.lxor w x).

(** ** md5.cpp *)
(** md5.cpp:101-124. *)
Definition md5_round_t (chunk : list Z) (st : Z * Z * Z * Z) (i : nat) : traced (Z * Z * Z * Z) :=
  let '(a, b, c, d) := st in
  see p <- choose 103 (Nat.ltb i 16) true false;
  see fg <- (if p : bool then ret (Z.lor (Z.land b c) (Z.land (not32 b) d), i)
             else see q <- choose 106 (Nat.ltb i 32) true false;
                  if q : bool then ret (Z.lor (Z.land d b) (Z.land (not32 d) c), Nat.modulo (5 * i + 1) 16)
                  else see r <- choose 109 (Nat.ltb i 48) true false;
                       if r : bool then ret (Z.lxor (Z.lxor b c) d, Nat.modulo (3 * i + 5) 16)
                       else ret (Z.lxor c (Z.lor b (not32 d)), Nat.modulo (7 * i) 16));
  let '(f, g) := fg in
  see x0 <- at_t chunk (4 * g); see x1 <- at_t chunk (4 * g + 1); see x2 <- at_t chunk (4 * g + 2); see x3 <- at_t chunk (4 * g + 3);
  let msgword := Z.lor (Z.lor (Z.lor x0 (Z.shiftl x1 8)) (Z.shiftl x2 16)) (Z.shiftl x3 24) in
  see k <- at_t md5_K i;
  see r <- at_t md5_s i;
  ret (d, w32 (b + md5_rotate (w32 (f + a + k + msgword)) r), b, c).
(** md5.cpp:99-127. *)
Definition md5_chunk_t (chunk h : list Z) : traced (list Z) :=
  match h with
  | [h0; h1; h2; h3] =>
      see s <- for_t (md5_round_t chunk) (seq 0 64) (h0, h1, h2, h3);
      ret (let '(a, b, c, d) := s in [w32 (h0 + a); w32 (h1 + b); w32 (h2 + c); w32 (h3 + d)])
  | _ => ret h
  end.

(** ** sha1.cpp *)
(** sha1.cpp:76-82. *)
Definition sha1_fill_t (chunk w : list Z) (n : nat) : traced (list Z) :=
  see v <- for_t (fun v i => see c <- at_t chunk (4 * n + i); ret (w32 (Z.lor (w32 (Z.shiftl v 8)) c))) (seq 0 4) 0;
  emit [At (Z.of_nat n)] (w ++ [v]).
(** sha1.cpp:83-85. *)
Definition sha1_extend_t (w : list Z) (i : nat) : traced (list Z) :=
  see a <- at_t w (i - 3); see b <- at_t w (i - 8); see c <- at_t w (i - 14); see d <- at_t w (i - 16);
  emit [At (Z.of_nat i)] (w ++ [sha1_rotate (Z.lxor (Z.lxor (Z.lxor a b) c) d) 1]).
(** sha1.cpp:87-90, 91-94, 95-98, 99-102. *)
Definition sha1_round_t (f : Z -> Z -> Z -> Z) (k : Z) (w : list Z) (st : sha1_st) (i : nat) : traced sha1_st :=
  let '(a, b, c, d, e) := st in
  see x <- at_t w i;
  ret (w32 (sha1_rotate a 5 + f b c d + e + x + k), a, sha1_rotate b 30, c, d).
(** sha1.cpp:74-104. *)
Definition sha1_chunk_t (chunk h : list Z) : traced (list Z) :=
  match h with
  | [h0; h1; h2; h3; h4] =>
      see w0 <- for_t (sha1_fill_t chunk) (seq 0 16) [];
      see w <- for_t sha1_extend_t (seq 16 64) w0;
      see s <- for_t (sha1_round_t (fun b c d => Z.lor (Z.land b c) (Z.land (sha1_not b) d)) 0x5A827999 w) (seq 0 20) (h0, h1, h2, h3, h4);
      see s <- for_t (sha1_round_t (fun b c d => Z.lxor (Z.lxor b c) d) 0x6ED9EBA1 w) (seq 20 20) s;
      see s <- for_t (sha1_round_t (fun b c d => Z.lor (Z.lor (Z.land b c) (Z.land b d)) (Z.land c d)) 0x8F1BBCDC w) (seq 40 20) s;
      see s <- for_t (sha1_round_t (fun b c d => Z.lxor (Z.lxor b c) d) 0xCA62C1D6 w) (seq 60 20) s;
      ret (let '(a, b, c, d, e) := s in
           [w32 (h0 + a); w32 (h1 + b); w32 (h2 + c); w32 (h3 + d); w32 (h4 + e)])
  | _ => ret h
  end.

(** ** data() of MD5 and SHA-1 *)
Section MD.
Variable chunk_t : list Z -> list Z -> traced (list Z).
Variable line : Z.               (* of the function [add] *)
Variable words : nat.            (* 4 or 5 *)
Variable big_endian : bool.      (* the order of the bytes *)
Variable sizes : list event.     (* of the loop that fills [msgsize] *)
Variable shift : nat -> Z.       (* of byte j of a word of the output *)
(** md5.cpp:63-83, sha1.cpp:38-58. *)
Definition word_digest_t (s : hstate) : traced (list Z) :=
  let padsize := 64 - (w64 (h_len s + 8) mod 64) in
  let zeroes := 0x80 :: repeat 0 64 in
  see pad <- ([At padsize], slice zeroes 0 padsize);
  see copy <- md_add_t 64 chunk_t line s pad;
  see size <- emit sizes (msgsize 8 big_endian (w64 (h_len s * 8)));
  see copy2 <- md_add_t 64 chunk_t line copy size;
  for_t (fun out i => see v <- at_t (h_words copy2) i;
           emit (passes 1 4 (Z.of_nat (4 * i))) (out ++ map (fun j => Z.land (Z.shiftr v (shift j)) 0xFF) (seq 0 4)))
    (seq 0 words) [].
End MD.
(** md5.cpp:63-83: n counts up, and the least significant byte comes first. *)
Definition md5_digest_t : hstate -> traced (list Z) :=
  word_digest_t md5_chunk_t 39 4 false (passes 1 8 0) (fun j => 8 * Z.of_nat j).
(** sha1.cpp:38-58: n counts down, and the most significant byte comes first. *)
Definition sha1_digest_t : hstate -> traced (list Z) :=
  word_digest_t sha1_chunk_t 14 5 true (down 8) (fun j => 8 * 4 - 8 - 8 * Z.of_nat j).

(** ** sha3.cpp *)
(** sha3.cpp:65-81; the arrays c and d have no defined content at first, and every element is
    written before it is read. *)
Definition theta_t (s : list Z) : traced (list Z) :=
  see c <- for_t (fun c x =>
             see c <- put_t c x 0;
             for_t (fun c y => see v <- at_t s (y * 5 + x); xor_t c x v) (seq 0 5) c) (seq 0 5) [0; 0; 0; 0; 0];
  see d <- for_t (fun d x =>
             see a <- at_t c ((x + 1) mod 5); see b <- at_t c ((x + 4) mod 5);
             put_t d x (Z.lxor (Z.lxor (w64 (Z.shiftl a 1)) (Z.shiftr a 63)) b)) (seq 0 5) [0; 0; 0; 0; 0];
  for_t (fun s x =>
    see v <- at_t d x; see s <- xor_t s x v;
    see v <- at_t d x; see s <- xor_t s (x + 5) v;
    see v <- at_t d x; see s <- xor_t s (x + 10) v;
    see v <- at_t d x; see s <- xor_t s (x + 15) v;
    see v <- at_t d x; xor_t s (x + 20) v) (seq 0 5) s.
(** sha3.cpp:85-107, the assignments of [rho_pi_steps] one after the other. *)
Fixpoint moves_t (steps : list (nat * nat * nat * nat)) (s : list Z) : traced (list Z) :=
  match steps with
  | [] => ret s
  | (dst, src, l, r) :: rest =>
      see v <- at_t s src; see s <- put_t s dst (rot64 v (Z.of_nat l) (Z.of_nat r)); moves_t rest s
  end.
(** sha3.cpp:84-108. *)
Definition rho_pi_t (s : list Z) : traced (list Z) :=
  see v <- at_t s 3;
  let t := rot64 v 28 36 in
  see s <- moves_t rho_pi_steps s;
  put_t s 5 t.
(** sha3.cpp:111-117. *)
Definition chi_t (s : list Z) : traced (list Z) :=
  for_t (fun s y =>
    see c <- for_t (fun c x =>
               see p <- at_t s (y * 5 + x); see q <- at_t s (5 * y + (x + 1) mod 5); see r <- at_t s (5 * y + (x + 2) mod 5);
               put_t c x (Z.lxor p (Z.land (2 ^ 64 - 1 - q) r))) (seq 0 5) [0; 0; 0; 0; 0];
    for_t (fun s x => see v <- at_t c x; put_t s (y * 5 + x) v) (seq 0 5) s) (seq 0 5) s.
(** sha3.cpp:120. *)
Definition iota_t (s : list Z) (round : nat) : traced (list Z) := see k <- at_t sha3_RC round; xor_t s 0 k.
(** sha3.cpp:53-122. *)
Definition sha3_chunk_t (s : list Z) : traced (list Z) :=
  for_t (fun s round => see s <- theta_t s; see s <- rho_pi_t s; see s <- chi_t s; iota_t s round) (seq 0 24) s.
(** sha3.cpp:16. *)
Definition sha3_xor_t (s : list Z) (offset c : Z) : traced (list Z) :=
  see v <- get_t s (offset / 8);
  set_t s (offset / 8) (Z.lxor v (w64 (Z.shiftl c (offset mod 8 * 8)))).
Section Loop.
Variable chunk_t : list Z -> traced (list Z). (* processChunk *)
(** sha3.cpp:15-22. *)
Fixpoint absorb_t (size : Z) (s : list Z) (offset : Z) (data : list Z) : traced (list Z) :=
  match data with
  | [] => emit [Loop false] s
  | c :: t =>
      see _ <- emit [Loop true] tt;
      see s' <- sha3_xor_t s offset c;
      see full <- choose 18 (offset + 1 =? sha3_rate size) true false;
      if full : bool then see s2 <- chunk_t s'; absorb_t size s2 0 t
      else absorb_t size s' (offset + 1) t
  end.
End Loop.
(** sha3.cpp:10-24. *)
Definition sha3_add_t (size : Z) (o : sha3state) (data : list Z) : traced sha3state :=
  see s <- absorb_t sha3_chunk_t size (s3_s o) (s3_len o mod sha3_rate size) data;
  ret (mkS3 s (w64 (s3_len o + zlen data))).
(** sha3.cpp:26-39. *)
Definition sha3_digest_t (size : Z) (o : sha3state) : traced (list Z) :=
  let offset := s3_len o mod sha3_rate size in
  see s1 <- sha3_xor_t (s3_s o) offset 0x06;
  see v <- get_t s1 (sha3_rate size / 8 - 1);
  see s2 <- set_t s1 (sha3_rate size / 8 - 1) (Z.lxor v 0x8000000000000000);
  see s3 <- sha3_chunk_t s2;
  for_t (fun rv n => see v <- at_t s3 (n / 8); emit [At (Z.of_nat n)] (rv ++ [w8 (Z.shiftr v (8 * Z.of_nat (n mod 8)))]))
    (seq 0 (Z.to_nat (size / 8))) [].

(** ** The six classes; those of sha2.h are in M_LeakHash *)
Definition other_add_t (a : alg) (o : hobj) (d : list Z) : traced hobj :=
  match o with
  | OMD s =>
      see s' <- (match a with
                 | AMD5 => md_add_t 64 md5_chunk_t 39
                 | ASHA1 => md_add_t 64 sha1_chunk_t 14
                 | _ => fun _ _ => ([], UB)
                 end) s d;
      ret (OMD s')
  | OS3 s => see s' <- sha3_add_t (sha3_size_of a) s d; ret (OS3 s')
  end.
(** The variadic constructors (md5.h:14-19, sha1.h:14-19, sha3.h:16-21). *)
Fixpoint other_adds_t (a : alg) (o : hobj) (args : list (list Z)) : traced hobj :=
  match args with
  | [] => ret o
  | d :: rest => see o' <- other_add_t a o d; other_adds_t a o' rest
  end.
(** data(). *)
Definition other_digest_t (a : alg) (o : hobj) : traced (list Z) :=
  match o with
  | OMD s => match a with AMD5 => md5_digest_t s | ASHA1 => sha1_digest_t s | _ => ([], UB) end
  | OS3 s => sha3_digest_t (sha3_size_of a) s
  end.
(** Class(args...).data(). *)
Definition other_hash_t (a : alg) (garbage : list Z) (args : list (list Z)) : traced (list Z) :=
  see o <- other_adds_t a (h_new a garbage) args; other_digest_t a o.
(** std::string(Class(args...)): md5.cpp:85-93, sha1.cpp:60-68, sha3.cpp:40-49. *)
Definition other_string_t (a : alg) (garbage : list Z) (args : list (list Z)) : traced (list Z) :=
  see o <- other_adds_t a (h_new a garbage) args; see d <- other_digest_t a o; hex_t d.
(** hkdf.h:11-22 with one of these classes. *)
Definition other_HMAC_t (a : alg) (g : supply) (text key : list Z) : traced (list Z) :=
  see o <- pad_t a 0x5C key;
  see i <- pad_t a 0x36 key;
  see it <- insert_t i text;
  see h1 <- other_hash_t a (g 0%nat) [it];
  see oh <- insert_t o h1;
  other_hash_t a (g 1%nat) [oh].
