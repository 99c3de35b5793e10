(** include/caligo/hkdf.h.  Not modelled: HKDF_UpdateSecret, exporter_master and
    resumption_master (lines 89-102), which no instantiation can compile (a vector does not
    convert to the std::array member; the Hash template argument cannot be deduced). *)
From Coq Require Import String.
From Verif Require Import Base S_Hash M_Hash S_HKDF.
Open Scope Z_scope.

(** Every constructed hash object has its own indeterminate buffer: [g k] is that of the
    k-th object a call constructs. *)
Definition supply := nat -> list Z.
Definition shift (g : supply) (n : nat) : supply := fun k => g (n + k)%nat.

(** std::vector::resize: truncate or append zeros. *)
Definition resize (l : list Z) (n : Z) : list Z :=
  firstn (Z.to_nat n) l ++ repeat 0 (Z.to_nat n - length l).

(** hkdf.h:11-22, [HMAC]. *)
Definition HMAC (a : alg) (g : supply) (text key : list Z) : res (list Z) :=
  let o := map (fun c => Z.lxor c 0x5C) (resize key (h_size a * 2)) in
  let i := map (fun c => Z.lxor c 0x36) (resize key (h_size a * 2)) in
  do h1 <- h_hash a (g 0%nat) [i ++ text];
  h_hash a (g 1%nat) [o ++ h1].

(** hkdf.h:24-27. *)
Definition HKDF_Extract (a : alg) (g : supply) (salt ikm : list Z) : res (list Z) := HMAC a g ikm salt.

(** hkdf.h:34-40; push_back(n++) stores n modulo 256.  [fuel] bounds the iterations, running
    out is [Diverge]. *)
Fixpoint expand_loop (a : alg) (g : supply) (fuel : nat) (prk info : list Z) (len : Z)
    (buffer lastT : list Z) (n : Z) : res (list Z) :=
  if zlen buffer <? len then
    match fuel with
    | O => Diverge
    | S k =>
        do hash <- HMAC a g (lastT ++ info ++ [w8 n]) prk;
        expand_loop a (shift g 2) k prk info len (buffer ++ hash) hash (w64 (n + 1))
    end
  else Ok buffer.

(** hkdf.h:29-43. *)
Definition HKDF_Expand (a : alg) (g : supply) (prk info : list Z) (len : Z) : res (list Z) :=
  do buffer <- expand_loop a g (Z.to_nat len) prk info len [] [] 1;
  Ok (resize buffer len).

(** hkdf.h:47-54, the info string; push_back of a size_t stores its low byte. *)
Definition label_info (len : Z) (label context : list Z) : list Z :=
  let l := str "tls13 " ++ label in
  [Z.land (Z.shiftr len 8) 0xFF; Z.land len 0xFF] ++ [w8 (zlen l)] ++ l ++ [w8 (zlen context)] ++ context.

(** hkdf.h:45-56. *)
Definition HKDF_Expand_Label (a : alg) (g : supply) (prk label context : list Z) (len : Z) : res (list Z) :=
  HKDF_Expand a g prk (label_info len label context) len.

(** Number of hash objects an Expand of [len] bytes constructs. *)
Definition used (a : alg) (len : Z) : nat := Z.to_nat (2 * (len + 1)).

(** hkdf.h:61-64. *)
Definition get_traffic_secret (a : alg) (g : supply) (data hashSoFar : list Z) (client handshake : bool) : res (list Z) :=
  let label := if client then (if handshake then str "c hs traffic" else str "c ap traffic")
               else (if handshake then str "s hs traffic" else str "s ap traffic") in
  HKDF_Expand_Label a g data label hashSoFar (zlen data).

(** hkdf.h:65-69; the two members of the key_iv_pair (key_iv_pair.h:10-15 copies them).
    [keysize], [ivsize]: Cipher::keysize, Cipher::ivsize. *)
Definition get_key_iv (a : alg) (g : supply) (keysize ivsize : Z) (data hashSoFar : list Z)
    (client handshake : bool) : res (list Z * list Z) :=
  do ts <- get_traffic_secret a g data hashSoFar client handshake;
  do key <- HKDF_Expand_Label a (shift g (used a (zlen data))) ts (str "key") [] keysize;
  do iv <- HKDF_Expand_Label a (shift g (used a (zlen data) + used a keysize)) ts (str "iv") [] ivsize;
  Ok (key, iv).

(** hkdf.h:70-72. *)
Definition get_finished_key (a : alg) (g : supply) (data hashSoFar : list Z) (client : bool) : res (list Z) :=
  do ts <- get_traffic_secret a g data hashSoFar client true;
  HKDF_Expand_Label a (shift g (used a (zlen data))) ts (str "finished") [] (h_size a).

(** hkdf.h:75-80. *)
Definition HKDF_HandshakeSecret (a : alg) (g : supply) (shared : list Z) : res (list Z) :=
  let nothing := resize [] (h_size a) in
  do early <- HKDF_Extract a g nothing nothing;
  do empty <- h_hash a (shift g 2 0%nat) [];
  do derived <- HKDF_Expand_Label a (shift g 3) early (str "derived") empty (h_size a);
  HKDF_Extract a (shift g (3 + used a (h_size a))) derived shared.

(** hkdf.h:82-87. *)
Definition HKDF_MasterSecret (a : alg) (g : supply) (data : list Z) : res (list Z) :=
  let nothing := resize [] (h_size a) in
  do empty <- h_hash a (g 0%nat) [];
  do derived <- HKDF_Expand_Label a (shift g 1) data (str "derived") empty (h_size a);
  HKDF_Extract a (shift g (1 + used a (h_size a))) derived nothing.
