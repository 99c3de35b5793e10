(** What an observer of the running code sees, for crc.cpp.  The record is that of M_Leak. *)
From Verif Require Import Base M_CRC M_Leak.
Open Scope Z_scope.

(** crc.cpp:49-53: one access to the table for each byte. *)
Fixpoint crc_add_t (h : Z) (data : list Z) : traced Z :=
  match data with
  | [] => emit [Loop false] h
  | b :: rest =>
      see _ <- emit [Loop true] tt;
      see x <- get_t crcTable (Z.land (Z.lxor h b) 0xFF);
      crc_add_t (Z.lxor (Z.shiftr h 8) x) rest
  end.
(** crc.h:14-19, crc.cpp:45-47: CRC32(args...). *)
Fixpoint crc_adds_t (h : Z) (args : list (list Z)) : traced Z :=
  match args with
  | [] => ret h
  | d :: rest => see h' <- crc_add_t h d; crc_adds_t h' rest
  end.
