(** RFC 1321. *)
From Verif Require Import Base S_Word S_MD.

Definition F (x y z : Z) := Z.lor (Z.land x y) (Z.land (compl 32 x) z).
Definition G (x y z : Z) := Z.lor (Z.land x z) (Z.land y (compl 32 z)).
Definition H (x y z : Z) := Z.lxor (Z.lxor x y) z.
Definition I (x y z : Z) := Z.lxor y (Z.lor x (compl 32 z)).

(** Section 3.4: the message word index k and the shift s of the 64 operations, in the
    order of the listing in the RFC. *)
Definition kk : list nat := [
  0; 1; 2; 3; 4; 5; 6; 7; 8; 9; 10; 11; 12; 13; 14; 15;
  1; 6; 11; 0; 5; 10; 15; 4; 9; 14; 3; 8; 13; 2; 7; 12;
  5; 8; 11; 14; 1; 4; 7; 10; 13; 0; 3; 6; 9; 12; 15; 2;
  0; 7; 14; 5; 12; 3; 10; 1; 8; 15; 6; 13; 4; 11; 2; 9]%nat.
Definition ss : list Z :=
  concat (repeat [7; 12; 17; 22] 4) ++ concat (repeat [5; 9; 14; 20] 4)
  ++ concat (repeat [4; 11; 16; 23] 4) ++ concat (repeat [6; 10; 15; 21] 4).

(** The table T: T[i] = floor(2^32 * abs(sin i)), 1 <= i <= 64, as printed in the appendix
    of the RFC (the sine characterisation is proved in Prop_Const). *)
Definition T : list Z := [
 3614090360; 3905402710; 606105819; 3250441966; 4118548399; 1200080426; 2821735955; 4249261313;
 1770035416; 2336552879; 4294925233; 2304563134; 1804603682; 4254626195; 2792965006; 1236535329;
 4129170786; 3225465664; 643717713; 3921069994; 3593408605; 38016083; 3634488961; 3889429448;
 568446438; 3275163606; 4107603335; 1163531501; 2850285829; 4243563512; 1735328473; 2368359562;
 4294588738; 2272392833; 1839030562; 4259657740; 2763975236; 1272893353; 4139469664; 3200236656;
 681279174; 3936430074; 3572445317; 76029189; 3654602809; 3873151461; 530742520; 3299628645;
 4096336452; 1126891415; 2878612391; 4237533241; 1700485571; 2399980690; 4293915773; 2240044497;
 1873313359; 4264355552; 2734768916; 1309151649; 4149444226; 3174756917; 718787259; 3951481745].

Definition fn (i : nat) : Z -> Z -> Z -> Z :=
  if Nat.ltb i 16 then F else if Nat.ltb i 32 then G else if Nat.ltb i 48 then H else I.

(** [abcd k s i]: a = b + ((a + f(b,c,d) + X[k] + T[i]) <<< s). *)
Definition op (X : list Z) (i : nat) (a b c d : Z) : Z :=
  addw 32 b (rotl 32 (nth i ss 0)
    (addw 32 (addw 32 (addw 32 a (fn i b c d)) (nth (nth i kk 0%nat) X 0)) (nth i T 0))).

(** The registers A, B, C, D; operation i rewrites A, D, C, B in turn:
    [ABCD] [DABC] [CDAB] [BCDA]. *)
Definition step (X : list Z) (r : Z * Z * Z * Z) (i : nat) : Z * Z * Z * Z :=
  let '(A, B, C, D) := r in
  match (i mod 4)%nat with
  | 0%nat => (op X i A B C D, B, C, D)
  | 1%nat => (A, B, C, op X i D A B C)
  | 2%nat => (A, B, op X i C D A B, D)
  | _ => (A, op X i B C D A, C, D)
  end.

Definition block (r : Z * Z * Z * Z) (M : list Z) : Z * Z * Z * Z :=
  let X := words_le 4 M in
  let '(A, B, C, D) := r in
  let '(A', B', C', D') := fold_left (step X) (seq 0 64) r in
  (addw 32 A A', addw 32 B B', addw 32 C C', addw 32 D D').

(** Section 3.3, low-order bytes first. *)
Definition init : Z * Z * Z * Z :=
  (le_val [0x01; 0x23; 0x45; 0x67], le_val [0x89; 0xab; 0xcd; 0xef],
   le_val [0xfe; 0xdc; 0xba; 0x98], le_val [0x76; 0x54; 0x32; 0x10]).

Definition md5 (m : list Z) : list Z :=
  let '(A, B, C, D) := fold_left block (chunks 64 (pad_le 64 8 m)) init in
  le_bytes 4 A ++ le_bytes 4 B ++ le_bytes 4 C ++ le_bytes 4 D.
