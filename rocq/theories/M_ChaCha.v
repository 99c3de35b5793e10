(** Model of /repo/include/caligo/chacha20.h. *)
From Verif Require Import Base.
Open Scope Z_scope.

(** chacha20.h:7-9.  The constructor leaves [buffer] and [offset] as GenerateBlock sets them. *)
Record chacha := { state : list Z; buffer : list Z; offset : Z }.

(** key[i] | (key[i+1] << 8) | (key[i+2] << 16) | (key[i+3] << 24), computed in int and stored
    in a uint32_t (chacha20.h:17-24, 26-28).  The sizes were checked before, so the reads are
    in range. *)
Definition load (l : list Z) (i : nat) : Z :=
  w32 (Z.lor (Z.lor (Z.lor (nth i l 0) (Z.shiftl (nth (i + 1) l 0) 8)) (Z.shiftl (nth (i + 2) l 0) 16))
             (Z.shiftl (nth (i + 3) l 0) 24)).

(** One source line of the round function (chacha20.h:41-79):
    s[a] += s[b]; s[d] ^= s[a]; s[d] = ((s[d] << l) | (s[d] >> r)); *)
Definition line (s : list Z) (p : nat * nat * nat * Z * Z) : list Z :=
  let '(a, b, d, l, r) := p in
  let s := upd s a (w32 (nth a s 0 + nth b s 0)) in
  let s := upd s d (Z.lxor (nth d s 0) (nth a s 0)) in
  upd s d (Z.lor (w32 (Z.shiftl (nth d s 0) l)) (Z.shiftr (nth d s 0) r)).

(** The 32 lines, in order: (a, b, d, l, r). *)
Definition L (a b d : nat) (l r : Z) := (a, b, d, l, r).
Definition lines : list (nat * nat * nat * Z * Z) :=
  [L 0 4 12 16 16; L 8 12 4 12 20; L 0 4 12 8 24; L 8 12 4 7 25;
   L 1 5 13 16 16; L 9 13 5 12 20; L 1 5 13 8 24; L 9 13 5 7 25;
   L 2 6 14 16 16; L 10 14 6 12 20; L 2 6 14 8 24; L 10 14 6 7 25;
   L 3 7 15 16 16; L 11 15 7 12 20; L 3 7 15 8 24; L 11 15 7 7 25;
   L 0 5 15 16 16; L 10 15 5 12 20; L 0 5 15 8 24; L 10 15 5 7 25;
   L 1 6 12 16 16; L 11 12 6 12 20; L 1 6 12 8 24; L 11 12 6 7 25;
   L 2 7 13 16 16; L 8 13 7 12 20; L 2 7 13 8 24; L 8 13 7 7 25;
   L 3 4 14 16 16; L 9 14 4 12 20; L 3 4 14 8 24; L 9 14 4 7 25].

(** chacha20.h:40-80: ten passes over the lines. *)
Fixpoint loop (body : list Z -> list Z) (n : nat) (s : list Z) : list Z :=
  match n with O => s | S k => loop body k (body s) end.
Definition rounds (n : nat) (s : list Z) : list Z := loop (fold_left line lines) n s.

(** chacha20.h:82-87: s[n] += state[n], bytes stored least significant first. *)
Definition finish (s st : list Z) : list Z :=
  concat (map2 (fun x y => let v := w32 (x + y) in
                           [w8 (Z.shiftr v 0); w8 (Z.shiftr v 8); w8 (Z.shiftr v 16); w8 (Z.shiftr v 24)]) s st).

(** chacha20.h:32-90. *)
Definition GenerateBlock (st : list Z) : chacha :=
  {| buffer := finish (rounds 10 st) st;
     state := upd st 12 (w32 (nth 12 st 0 + 1));
     offset := 0 |}.

(** chacha20.h:10-31. *)
Definition ChaCha20 (key nonce : list Z) : res chacha :=
  if negb (zlen key =? 32) then Throw else
  if negb (zlen nonce =? 12) then Throw else
  Ok (GenerateBlock
        [0x61707865; 0x3320646e; 0x79622d32; 0x6b206574;
         load key 0; load key 4; load key 8; load key 12;
         load key 16; load key 20; load key 24; load key 28;
         1; load nonce 0; load nonce 4; load nonce 8]).

(** chacha20.h:91-98: data in place; the new object and the new data. *)
Fixpoint Encrypt (c : chacha) (data : list Z) : res (chacha * list Z) :=
  match data with
  | [] => Ok (c, [])
  | x :: rest =>
      do k <- getz (buffer c) (offset c);
      let o := w8 (offset c + 1) in
      let c' := if o =? 64 then GenerateBlock (state c) else {| state := state c; buffer := buffer c; offset := o |} in
      do r <- Encrypt c' rest;
      Ok (fst r, Z.lxor x k :: snd r)
  end.

(** chacha20.h:99-106: the same body. *)
Fixpoint Decrypt (c : chacha) (data : list Z) : res (chacha * list Z) :=
  match data with
  | [] => Ok (c, [])
  | x :: rest =>
      do k <- getz (buffer c) (offset c);
      let o := w8 (offset c + 1) in
      let c' := if o =? 64 then GenerateBlock (state c) else {| state := state c; buffer := buffer c; offset := o |} in
      do r <- Decrypt c' rest;
      Ok (fst r, Z.lxor x k :: snd r)
  end.

(** A sequence of calls on one object. *)
Fixpoint Encrypts (c : chacha) (pieces : list (list Z)) : res (chacha * list (list Z)) :=
  match pieces with
  | [] => Ok (c, [])
  | p :: rest => do r <- Encrypt c p; do r' <- Encrypts (fst r) rest; Ok (fst r', snd r :: snd r')
  end.
Fixpoint Decrypts (c : chacha) (pieces : list (list Z)) : res (chacha * list (list Z)) :=
  match pieces with
  | [] => Ok (c, [])
  | p :: rest => do r <- Decrypt c p; do r' <- Decrypts (fst r) rest; Ok (fst r', snd r :: snd r')
  end.
