(** Model of src/base64.cpp.  Characters are their codes in [0,256). *)
From Verif Require Import Base.
From Coq Require Import String Ascii.

Definition str (s : string) : list Z :=
  List.map (fun c => Z.of_N (N_of_ascii c)) (list_ascii_of_string s).

(** base64.cpp:6-23, [valueOf] (int8_t[256]). *)
Definition valueOf : list Z :=
 [
   (-1); (-1); (-1); (-1); (-1); (-1); (-1); (-1); (-1); (-1); (-1); (-1); (-1); (-1); (-1); (-1);
   (-1); (-1); (-1); (-1); (-1); (-1); (-1); (-1); (-1); (-1); (-1); (-1); (-1); (-1); (-1); (-1);
   (-1); (-1); (-1); (-1); (-1); (-1); (-1); (-1); (-1); (-1); (-1); 62; 63; 62; (-1); 63;
   52; 53; 54; 55; 56; 57; 58; 59; 60; 61; (-1); (-1); (-1); (-1); (-1); (-1);
   (-1); 0; 1; 2; 3; 4; 5; 6; 7; 8; 9; 10; 11; 12; 13; 14;
   15; 16; 17; 18; 19; 20; 21; 22; 23; 24; 25; (-1); (-1); (-1); (-1); 63;
   (-1); 26; 27; 28; 29; 30; 31; 32; 33; 34; 35; 36; 37; 38; 39; 40;
   41; 42; 43; 44; 45; 46; 47; 48; 49; 50; 51; (-1); (-1); (-1); (-1); (-1);
   (-1); (-1); (-1); (-1); (-1); (-1); (-1); (-1); (-1); (-1); (-1); (-1); (-1); (-1); (-1); (-1);
   (-1); (-1); (-1); (-1); (-1); (-1); (-1); (-1); (-1); (-1); (-1); (-1); (-1); (-1); (-1); (-1);
   (-1); (-1); (-1); (-1); (-1); (-1); (-1); (-1); (-1); (-1); (-1); (-1); (-1); (-1); (-1); (-1);
   (-1); (-1); (-1); (-1); (-1); (-1); (-1); (-1); (-1); (-1); (-1); (-1); (-1); (-1); (-1); (-1);
   (-1); (-1); (-1); (-1); (-1); (-1); (-1); (-1); (-1); (-1); (-1); (-1); (-1); (-1); (-1); (-1);
   (-1); (-1); (-1); (-1); (-1); (-1); (-1); (-1); (-1); (-1); (-1); (-1); (-1); (-1); (-1); (-1);
   (-1); (-1); (-1); (-1); (-1); (-1); (-1); (-1); (-1); (-1); (-1); (-1); (-1); (-1); (-1); (-1);
   (-1); (-1); (-1); (-1); (-1); (-1); (-1); (-1); (-1); (-1); (-1); (-1); (-1); (-1); (-1); (-1)].

(** base64.h:11-16.  MinusUnderscore and UrlSafe are the same enumerator value. *)
Inductive charset := PlusSlash | PlusComma | MinusUnderscore.

(** base64.cpp:25-31, [getLookupFor].  A value outside the enumerators (function
    falling off its end) cannot be built from the enumerators and is not modelled. *)
Definition getLookupFor (c : charset) : list Z :=
  match c with
  | PlusSlash => str "ABCDEFGHIJKLMNOPQRSTUVWXYZabcdefghijklmnopqrstuvwxyz0123456789+/"
  | PlusComma => str "ABCDEFGHIJKLMNOPQRSTUVWXYZabcdefghijklmnopqrstuvwxyz0123456789+,"
  | MinusUnderscore => str "ABCDEFGHIJKLMNOPQRSTUVWXYZabcdefghijklmnopqrstuvwxyz0123456789-_"
  end.

(** encodingOf[i]: checked by [nth_error]; an index outside the 64 characters would
    show up as the impossible character -1. *)
Definition look (tbl : list Z) (i : Z) : Z := nth (Z.to_nat i) tbl (-1).

(** Accumulator of the loop in base64.cpp:37-57: out, value, count, blocksOnLine. *)
Record estate := mkE { e_out : list Z; e_value : Z; e_count : Z; e_blocks : Z }.

(** base64.cpp:37-57, one iteration of the loop over the input bytes. *)
Definition enc_step (tbl : list Z) (withNewlines : bool) (s : estate) (b : Z) : estate :=
  let value := w32 (Z.lor (Z.shiftl (e_value s) 8) b) in
  let count := e_count s + 1 in
  if count =? 3 then
    let out := e_out s ++
      [ look tbl (Z.land (Z.shiftr value 18) 63);
        look tbl (Z.land (Z.shiftr value 12) 63);
        look tbl (Z.land (Z.shiftr value 6) 63);
        look tbl (Z.land (Z.shiftr value 0) 63) ] in
    let blocks := e_blocks s + 1 in
    if blocks =? 19
    then mkE (if withNewlines then out ++ [10] else out) value 0 0
    else mkE out value 0 blocks
  else mkE (e_out s) value count (e_blocks s).

(** base64.cpp:33-82, [base64]; the switch after the loop is lines 57-76, the final
    newline lines 77-79.  61 is '=', 10 is a newline. *)
Definition base64 (data : list Z) (withNewlines omitEqs : bool) (cs : charset) : list Z :=
  let tbl := getLookupFor cs in
  let s := fold_left (enc_step tbl withNewlines) data (mkE [] 0 0 0) in
  let value := e_value s in
  let out :=
    if e_count s =? 1 then
      e_out s ++ [ look tbl (Z.land (Z.shiftr value 2) 63);
                   look tbl (Z.land (w32 (Z.shiftl value 4)) 63) ]
              ++ (if omitEqs then [] else [61; 61])
    else if e_count s =? 2 then
      e_out s ++ [ look tbl (Z.land (Z.shiftr value 10) 63);
                   look tbl (Z.land (Z.shiftr value 4) 63);
                   look tbl (Z.land (w32 (Z.shiftl value 2)) 63) ]
              ++ (if omitEqs then [] else [61])
    else e_out s in
  if withNewlines then out ++ [10] else out.

(** Accumulator of the loop in base64.cpp:85-87: out, value, count. *)
Record dstate := mkD { d_out : list Z; d_value : Z; d_count : Z }.

(** base64.cpp:88-100, one iteration of the loop over the characters; the table index is
    the character as uint8_t, so in range. *)
Definition dec_step (s : dstate) (v : Z) : dstate :=
  let r := nth (Z.to_nat v) valueOf (-1) in
  if r =? -1 then s else
  let value := w32 (Z.lor (Z.shiftl (d_value s) 6) (w8 r)) in
  let count := d_count s + 1 in
  if negb (count =? 4) then mkD (d_out s) value count else
  mkD (d_out s ++ [ Z.land (Z.shiftr value 16) 255;
                    Z.land (Z.shiftr value 8) 255;
                    Z.land (Z.shiftr value 0) 255 ]) value 0.

(** base64.cpp:84-114, [base64d]. *)
Definition base64d (text : list Z) : list Z :=
  let s := fold_left dec_step text (mkD [] 0 0) in
  let value := d_value s in
  if d_count s =? 2 then
    d_out s ++ [ Z.land (Z.shiftr value 4) 255 ]
  else if d_count s =? 3 then
    d_out s ++ [ Z.land (Z.shiftr value 10) 255; Z.land (Z.shiftr value 2) 255 ]
  else d_out s.
