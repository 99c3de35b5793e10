(** What an observer of src/base64.cpp sees, and of loading a private key from PEM text; the record
    is that of M_Leak.  Conditions of if and the cases of switch are recorded as those of ?: are.
    push_back is not recorded: how much is written shows in the loop conditions. *)
From Verif Require Import Base M_Base64 M_X509 M_Leak.
Open Scope Z_scope.

(** encodingOf[i] *)
Definition look_t (tbl : list Z) (i : Z) : traced Z := emit [At i] (look tbl i).
(** base64.cpp:40-57. *)
Definition enc_step_t (tbl : list Z) (withNewlines : bool) (s : estate) (b : Z) : traced estate :=
  let value := w32 (Z.lor (Z.shiftl (e_value s) 8) b) in
  let count := e_count s + 1 in
  see _ <- emit [Choose 43 (count =? 3)] tt;
  if count =? 3 then
    see c1 <- look_t tbl (Z.land (Z.shiftr value 18) 63);
    see c2 <- look_t tbl (Z.land (Z.shiftr value 12) 63);
    see c3 <- look_t tbl (Z.land (Z.shiftr value 6) 63);
    see c4 <- look_t tbl (Z.land (Z.shiftr value 0) 63);
    let out := e_out s ++ [c1; c2; c3; c4] in
    let blocks := e_blocks s + 1 in
    see _ <- emit [Choose 50 (blocks =? 19)] tt;
    if blocks =? 19
    then see _ <- emit [Choose 51 withNewlines] tt; ret (mkE (if withNewlines then out ++ [10] else out) value 0 0)
    else ret (mkE out value 0 blocks)
  else ret (mkE (e_out s) value count (e_blocks s)).
(** for (auto x : l) *)
Fixpoint fold_t {A} (step : A -> Z -> traced A) (l : list Z) (s : A) : traced A :=
  match l with
  | [] => emit [Loop false] s
  | x :: r => see _ <- emit [Loop true] tt; see s' <- step s x; fold_t step r s'
  end.
(** base64.cpp:33-82. *)
Definition base64_t (data : list Z) (withNewlines omitEqs : bool) (cs : charset) : traced (list Z) :=
  let tbl := getLookupFor cs in
  see s <- fold_t (enc_step_t tbl withNewlines) data (mkE [] 0 0 0);
  let value := e_value s in
  see _ <- emit [Choose 61 (e_count s =? 1); Choose 69 (e_count s =? 2)] tt;
  see out <-
    (if e_count s =? 1 then
       see c1 <- look_t tbl (Z.land (Z.shiftr value 2) 63);
       see c2 <- look_t tbl (Z.land (w32 (Z.shiftl value 4)) 63);
       see _ <- emit [Choose 64 (negb omitEqs)] tt;
       ret (e_out s ++ [c1; c2] ++ (if omitEqs then [] else [61; 61]))
     else if e_count s =? 2 then
       see c1 <- look_t tbl (Z.land (Z.shiftr value 10) 63);
       see c2 <- look_t tbl (Z.land (Z.shiftr value 4) 63);
       see c3 <- look_t tbl (Z.land (w32 (Z.shiftl value 2)) 63);
       see _ <- emit [Choose 73 (negb omitEqs)] tt;
       ret (e_out s ++ [c1; c2; c3] ++ (if omitEqs then [] else [61]))
     else ret (e_out s));
  see _ <- emit [Choose 78 withNewlines] tt;
  ret (if withNewlines then out ++ [10] else out).

(** base64.cpp:88-100; valueOf is indexed by the character. *)
Definition dec_step_t (s : dstate) (v : Z) : traced dstate :=
  see r <- emit [At v] (nth (Z.to_nat v) valueOf (-1));
  see _ <- emit [Choose 90 (r =? -1)] tt;
  if r =? -1 then ret s else
  let value := w32 (Z.lor (Z.shiftl (d_value s) 6) (w8 r)) in
  let count := d_count s + 1 in
  see _ <- emit [Choose 94 (negb (count =? 4))] tt;
  if negb (count =? 4) then ret (mkD (d_out s) value count) else
  ret (mkD (d_out s ++ [ Z.land (Z.shiftr value 16) 255; Z.land (Z.shiftr value 8) 255; Z.land (Z.shiftr value 0) 255 ]) value 0).
(** base64.cpp:84-114. *)
Definition base64d_t (text : list Z) : traced (list Z) :=
  see s <- fold_t dec_step_t text (mkD [] 0 0);
  let value := d_value s in
  see _ <- emit [Choose 105 (d_count s =? 2); Choose 108 (d_count s =? 3)] tt;
  if d_count s =? 2 then ret (d_out s ++ [ Z.land (Z.shiftr value 4) 255 ])
  else if d_count s =? 3 then ret (d_out s ++ [ Z.land (Z.shiftr value 10) 255; Z.land (Z.shiftr value 2) 255 ])
  else ret (d_out s).

(** X509Certificate.cpp:403-410 for the key; finding the markers is library code and recorded as
    nothing. *)
Definition pem_decode_t (b e : list Z) (inp : list Z) : traced (list Z) :=
  let start := w64 (find b inp 0 + zlen b) in
  let stop := find e inp 0 in
  see text <- ([], substr inp start (w64 (stop - start)));
  base64d_t text.
