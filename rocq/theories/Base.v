(** Common vocabulary: outcomes, bytes, machine words, checked memory access. *)
From Coq Require Export ZArith List Lia Bool.
From Coq Require Export ZifyBool ZifyNat.
Export ListNotations.
Open Scope Z_scope.

(** Outcome of a C++ call.  [UB] is undefined behaviour (e.g. an out of bounds
    access), [Throw] an exception, [Diverge] a loop that never ends. *)
Inductive res (A : Type) : Type :=
| Ok (a : A)
| Throw
| UB
| Diverge.
Arguments Ok {A} a.
Arguments Throw {A}.
Arguments UB {A}.
Arguments Diverge {A}.

Definition bind {A B} (r : res A) (f : A -> res B) : res B :=
  match r with
  | Ok a => f a
  | Throw => Throw
  | UB => UB
  | Diverge => Diverge
  end.

Declare Scope res_scope.
Delimit Scope res_scope with res.
Notation "'do' x <- a ; b" := (bind a (fun x => b))
  (at level 200, x pattern, a at level 100, b at level 200, right associativity) : res_scope.
Open Scope res_scope.

Definition byte (z : Z) : Prop := 0 <= z < 256.
Definition bytes (l : list Z) : Prop := Forall byte l.
Definition byteb (z : Z) : bool := (0 <=? z) && (z <? 256).
Definition bytesb (l : list Z) : bool := forallb byteb l.

Definition zlen {A} (l : list A) : Z := Z.of_nat (length l).

(** Unsigned wrap-around. *)
Definition w8 (z : Z) : Z := z mod 256.
Definition w32 (z : Z) : Z := z mod 2 ^ 32.
Definition w64 (z : Z) : Z := z mod 2 ^ 64.

(** Reading [len] elements from offset [off]; out of bounds is UB. *)
Definition slice {A} (l : list A) (off len : Z) : res (list A) :=
  if (0 <=? off) && (0 <=? len) && (off + len <=? zlen l)
  then Ok (firstn (Z.to_nat len) (skipn (Z.to_nat off) l))
  else UB.

(** memcpy(dst + off, src, size of src); out of bounds is UB. *)
Definition blit {A} (dst : list A) (off : Z) (src : list A) : res (list A) :=
  if (0 <=? off) && (off + zlen src <=? zlen dst)
  then Ok (firstn (Z.to_nat off) dst ++ src ++ skipn (Z.to_nat off + length src) dst)
  else UB.

(** Checked element access. *)
Definition getz {A} (l : list A) (i : Z) : res A :=
  if 0 <=? i then
    match nth_error l (Z.to_nat i) with
    | Some x => Ok x
    | None => UB
    end
  else UB.

Definition upd {A} (l : list A) (i : nat) (v : A) : list A :=
  firstn i l ++ match skipn i l with [] => [] | _ :: t => v :: t end.

Definition setz {A} (l : list A) (i : Z) (v : A) : res (list A) :=
  if (0 <=? i) && (i <? zlen l) then Ok (upd l (Z.to_nat i) v) else UB.

(** Little and big endian byte strings. *)
Fixpoint le_bytes (n : nat) (z : Z) : list Z :=
  match n with
  | O => []
  | S k => z mod 256 :: le_bytes k (z / 256)
  end.
Definition be_bytes (n : nat) (z : Z) : list Z := rev (le_bytes n z).

Fixpoint le_val (l : list Z) : Z :=
  match l with
  | [] => 0
  | b :: t => b + 256 * le_val t
  end.
Definition be_val (l : list Z) : Z := fold_left (fun a b => 256 * a + b) l 0.

(** Splitting into consecutive pieces of [n] elements (the last may be short). *)
Fixpoint chunks_fuel {A} (fuel n : nat) (l : list A) : list (list A) :=
  match fuel with
  | O => []
  | S k => match l with
           | [] => []
           | _ => firstn n l :: chunks_fuel k n (skipn n l)
           end
  end.
Definition chunks {A} (n : nat) (l : list A) : list (list A) :=
  chunks_fuel (length l) n l.

Definition map2 {A B C} (f : A -> B -> C) : list A -> list B -> list C :=
  fix go l m := match l, m with
                | x :: l', y :: m' => f x y :: go l' m'
                | _, _ => []
                end.
Definition xorl (a b : list Z) : list Z := map2 Z.lxor a b.

Definition natrange (n : nat) : list nat := seq 0 n.

Fixpoint list_eqb (a b : list Z) : bool :=
  match a, b with
  | [], [] => true
  | x :: a', y :: b' => (x =? y) && list_eqb a' b'
  | _, _ => false
  end.
Lemma list_eqb_eq a : forall b, list_eqb a b = true <-> a = b.
Proof.
  induction a as [|x a IH]; intros [|y b]; cbn [list_eqb]; split; intros H; try discriminate H; try reflexivity.
  - apply andb_true_iff in H; destruct H as [H1 H2]; apply Z.eqb_eq in H1; apply IH in H2; subst; reflexivity.
  - injection H as -> ->; apply andb_true_iff; split; [apply Z.eqb_refl | apply IH; reflexivity].
Qed.
Lemma list_eqb_refl a : list_eqb a a = true.
Proof. apply list_eqb_eq; reflexivity. Qed.
