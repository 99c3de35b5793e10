(** What an observer of gcm.h (with AES) and chacha20.h sees; the record is that of M_Leak.
    Conditions of if are recorded as those of ?: are.  Straight-line code on registers (ghash.h,
    the AES instructions, the key schedule, a round of ChaCha20) records nothing, nor do accesses
    at constant indices. *)
From Verif Require Import Base M_HKDF M_AES M_GCM M_ChaCha M_Leak.
Open Scope Z_scope.

(** ** AES *)
(** aes.h:26-38: eroundKeys[0], the loop from 1 to rounds - 1, eroundKeys[rounds]. *)
Definition aes_record (n : nat) : list event := At 0 :: passes 1 (n - 2) 1 ++ [At (Z.of_nat n - 1)].
Definition AesEncrypt_t (rks : list (list Z)) (b : list Z) : traced (list Z) := emit (aes_record (length rks)) (AesEncrypt rks b).

(** ** gcm.h *)
(** gcm.h:39-41, 48-50. *)
Fixpoint absorb_blocks_t (h : Z) (data : list Z) (count : nat) (n : Z) (chash : Z) : traced Z :=
  match count with
  | O => emit [Loop false] chash
  | S k =>
      see _ <- emit [Loop true] tt;
      see b <- ([At (16 * n)], slice data (16 * n) 16);
      absorb_blocks_t h data k (n + 1) (ghash_block (reflect (le_val b)) h chash)
  end.
(** gcm.h:39-47, 48-56; [line] is 42 or 51. *)
Definition absorb_t (line h : Z) (data : list Z) (chash : Z) : traced Z :=
  let blocks := zlen data / 16 in
  see chash <- absorb_blocks_t h data (Z.to_nat blocks) 0 chash;
  let bytes := zlen data - blocks * 16 in
  see _ <- emit [Choose line (0 <? bytes)] tt;
  if 0 <? bytes
  then see t <- ([At (zlen data - bytes)], slice data (zlen data - bytes) bytes);
       ret (ghash_block (reflect (le_val (t ++ repeat 0 (Z.to_nat (16 - bytes))))) h chash)
  else ret chash.
(** gcm.h:60-65. *)
Definition sizes_record : list event := flat_map (fun n => [Loop true; At n; At (n + 8)]) [7; 6; 5; 4; 3; 2; 1; 0] ++ [Loop false].
(** gcm.h:35-71. *)
Definition ghash_t (h : Z) (ciphertext aad : list Z) : traced (list Z) :=
  see c <- absorb_t 42 h aad 0;
  see c <- absorb_t 51 h ciphertext c;
  see _ <- emit sizes_record tt;
  let sizes := size_bytes 8 (w64 (zlen aad * 8)) [] ++ size_bytes 8 (w64 (zlen ciphertext * 8)) [] in
  ret (le_bytes 16 (reflect (ghash_block (reflect (le_val sizes)) h c))).
(** gcm.h:72-80. *)
Definition calculate_tag_t (h z : Z) (ciphertext aad : list Z) : traced (list Z) :=
  see tag <- ghash_t h ciphertext aad;
  ret (le_bytes 16 (reflect (Z.lxor (reflect (le_val tag)) z))).
(** gcm.h:13-25. *)
Definition gcm_init_t (rks : list (list Z)) (iv : list Z) : traced gcm :=
  see e <- AesEncrypt_t rks (repeat 0 16);
  let h := reflect (le_val e) in
  see _ <- emit [Choose 19 (zlen iv =? 8)] tt;
  see _ <- (if zlen iv =? 8 then ret tt else emit [Choose 20 (12 <? zlen iv)] tt);
  if (zlen iv =? 8) || (12 <? zlen iv)
  then see r <- ghash_t h iv []; ret (Gcm h r 0)
  else ret (Gcm h iv 0).
(** gcm.h:26-34. *)
Definition ctr_inc_t (C : list Z) : traced (list Z) :=
  see r <- ([], bump8 C 15);
  see _ <- emit [Choose 28 (negb (snd r))] tt;
  if negb (snd r) then ret (fst r) else
  see r <- ([], bump8 (fst r) 14);
  see _ <- emit [Choose 30 (negb (snd r))] tt;
  if negb (snd r) then ret (fst r) else
  see r <- ([], bump8 (fst r) 13);
  see _ <- emit [Choose 32 (negb (snd r))] tt;
  if negb (snd r) then ret (fst r) else
  see r <- ([], bump8 (fst r) 12);
  ret (fst r).
(** gcm.h:83-96 and 117-130; [line] is 93 or 127. *)
Definition first_ctr_t (line : Z) (iv : list Z) (m : Z) : traced (list Z) := ([Choose line (zlen iv =? 12)], first_ctr iv m).
(** gcm.h:107-109, 149-151. *)
Definition xor_range_t (dst src : list Z) (off len : Z) : traced (list Z) := (passes 2 (Z.to_nat len) off, xor_range dst src off len).
(** gcm.h:103-110 and 145-153. *)
Fixpoint ctr_loop_t (rks : list (list Z)) (shrink : bool) (inp : list Z) (count : nat) (n : Z) (ctr out : list Z) (used : list (list Z)) : traced (list Z * list (list Z)) :=
  match count with
  | O => emit [Loop false] (out, used)
  | S k =>
      see _ <- emit [Loop true] tt;
      see ctr <- ctr_inc_t ctr;
      see b <- AesEncrypt_t rks ctr;
      see out <- ([At (16 * n)], blit out (16 * n) b);
      see out <- xor_range_t out inp (16 * n) (Z.min (zlen inp - 16 * n) 16);
      let out := if shrink then resize out (zlen inp) else out in
      ctr_loop_t rks shrink inp k (n + 1) ctr out (used ++ [ctr])
  end.
(** gcm.h:139-144. *)
Fixpoint full_loop_t (rks : list (list Z)) (inp : list Z) (count : nat) (n : Z) (ctr out : list Z) (used : list (list Z)) : traced (list Z * list Z * list (list Z)) :=
  match count with
  | O => emit [Loop false] (ctr, out, used)
  | S k =>
      see _ <- emit [Loop true] tt;
      see ctr <- ctr_inc_t ctr;
      see b <- AesEncrypt_t rks ctr;
      see p <- ([At (16 * n)], slice inp (16 * n) 16);
      see out <- ([At (16 * n)], blit out (16 * n) (xorl b p));
      full_loop_t rks inp k (n + 1) ctr out (used ++ [ctr])
  end.
(** gcm.h:115-157. *)
Definition Encrypt_t (rks : list (list Z)) (g : gcm) (plaintext aad : list Z) : traced (list Z * list Z * gcm * list (list Z)) :=
  see _ <- emit [Choose 116 (zlen (g_iv g) <? 12)] tt;
  if zlen (g_iv g) <? 12 then ret ([], repeat 0 16, g, []) else
  see ctr <- first_ctr_t 127 (g_iv g) (g_count g);
  see e <- AesEncrypt_t rks ctr;
  let z := reflect (le_val e) in
  let blocks := (zlen plaintext + 15) / 16 in
  let partial := negb (zlen plaintext =? blocks * 16) in
  see full <- choose 139 partial (blocks - 1) blocks;
  see r <- full_loop_t rks plaintext (Z.to_nat full) 0 ctr (repeat 0 (Z.to_nat (16 * blocks))) [ctr];
  see r2 <- ctr_loop_t rks true plaintext (Z.to_nat (blocks - full)) full (fst (fst r)) (snd (fst r)) (snd r);
  see tag <- calculate_tag_t (g_h g) z (fst r2) aad;
  ret (fst r2, tag, Gcm (g_h g) (g_iv g) (w64 (g_count g + 1)), snd r2).
(** calc_tag == tag, gcm.h:113: std::array compares element by element and may stop at the first
    difference; here it does. *)
Fixpoint compare_t (a b : list Z) : traced bool :=
  match a, b with
  | [], [] => emit [Loop false] true
  | x :: a', y :: b' =>
      see _ <- emit [Loop true; Choose 113 (x =? y)] tt;
      if x =? y then compare_t a' b' else ret false
  | _, _ => ret false
  end.
(** gcm.h:81-114. *)
Definition Decrypt_t (rks : list (list Z)) (g : gcm) (ciphertext aad tag : list Z) : traced (list Z * bool * gcm * list (list Z)) :=
  see _ <- emit [Choose 82 (zlen (g_iv g) <? 12)] tt;
  if zlen (g_iv g) <? 12 then ret ([], false, g, []) else
  see ctr <- first_ctr_t 93 (g_iv g) (g_count g);
  see e <- AesEncrypt_t rks ctr;
  let z := reflect (le_val e) in
  let blocks := (zlen ciphertext + 15) / 16 in
  see r <- ctr_loop_t rks false ciphertext (Z.to_nat blocks) 0 ctr (repeat 0 (Z.to_nat (16 * blocks))) [ctr];
  let pt := resize (fst r) (zlen ciphertext) in
  see calc <- calculate_tag_t (g_h g) z ciphertext aad;
  see same <- compare_t calc tag;
  ret (pt, (8 <=? zlen (g_iv g)) && same, Gcm (g_h g) (g_iv g) (w64 (g_count g + 1)), snd r).

(** ** chacha20.h *)
(** chacha20.h:32-90: ten rounds; per word two accesses and four bytes. *)
Definition word_record (n : Z) : list event := [Loop true; At n; At n] ++ flat_map (fun c => [Loop true; At (n * 4 + c)]) [0; 1; 2; 3] ++ [Loop false].
Definition block_record : list event := repeat (Loop true) 10 ++ [Loop false] ++ flat_map (fun n => word_record (Z.of_nat n)) (seq 0 16) ++ [Loop false].
Definition GenerateBlock_t (st : list Z) : traced chacha := emit block_record (GenerateBlock st).
(** chacha20.h:10-31. *)
Definition ChaCha20_t (key nonce : list Z) : traced chacha :=
  see _ <- emit [Choose 11 (negb (zlen key =? 32))] tt;
  if negb (zlen key =? 32) then ([], Throw) else
  see _ <- emit [Choose 12 (negb (zlen nonce =? 12))] tt;
  if negb (zlen nonce =? 12) then ([], Throw) else
  GenerateBlock_t
        [0x61707865; 0x3320646e; 0x79622d32; 0x6b206574;
         load key 0; load key 4; load key 8; load key 12;
         load key 16; load key 20; load key 24; load key 28;
         1; load nonce 0; load nonce 4; load nonce 8].
(** chacha20.h:91-98 and (the same body) 99-106. *)
Fixpoint chacha_t (c : chacha) (data : list Z) : traced (chacha * list Z) :=
  match data with
  | [] => emit [Loop false] (c, [])
  | x :: rest =>
      see _ <- emit [Loop true] tt;
      see k <- get_t (buffer c) (offset c);
      let o := w8 (offset c + 1) in
      see _ <- emit [Choose 94 (o =? 64)] tt;
      see c' <- (if o =? 64 then GenerateBlock_t (state c) else ret {| state := state c; buffer := buffer c; offset := o |});
      see r <- chacha_t c' rest;
      ret (fst r, Z.lxor x k :: snd r)
  end.
Fixpoint chachas_t (c : chacha) (pieces : list (list Z)) : traced (chacha * list (list Z)) :=
  match pieces with
  | [] => ret (c, [])
  | p :: rest => see r <- chacha_t c p; see r' <- chachas_t (fst r) rest; ret (fst r', snd r :: snd r')
  end.
