(** RFC 4648 section 4/5, written without reference to the code. *)
From Verif Require Import Base.

(** The alphabet: A-Z a-z 0-9 and two variable characters. *)
Definition alpha (c62 c63 : Z) (i : Z) : Z :=
  if i <? 26 then 65 + i
  else if i <? 52 then 97 + (i - 26)
  else if i <? 62 then 48 + (i - 52)
  else if i =? 62 then c62 else c63.

(** 24-bit groups as four 6-bit digits. *)
Fixpoint digits (l : list Z) : list Z :=
  match l with
  | a :: b :: c :: t =>
      let v := a * 65536 + b * 256 + c in
      [v / 262144; v / 4096 mod 64; v / 64 mod 64; v mod 64] ++ digits t
  | [a; b] => let v := (a * 256 + b) * 4 in [v / 4096; v / 64 mod 64; v mod 64]
  | [a] => let v := a * 16 in [v / 64; v mod 64]
  | [] => []
  end.

Definition padding (l : list Z) : list Z :=
  match zlen l mod 3 with
  | 1 => [61; 61]
  | 2 => [61]
  | _ => []
  end.

Definition rfc4648 (c62 c63 : Z) (pad : bool) (l : list Z) : list Z :=
  map (alpha c62 c63) (digits l) ++ (if pad then padding l else []).

(** Lines of a text: pieces between newline characters. *)
Fixpoint lines (l : list Z) : list (list Z) :=
  match l with
  | [] => [[]]
  | c :: t => if c =? 10 then [] :: lines t
              else match lines t with
                   | h :: r => (c :: h) :: r
                   | [] => [[c]]
                   end
  end.

Definition strip_newlines (l : list Z) : list Z := filter (fun c => negb (c =? 10)) l.

(** A character of any of the three alphabets. *)
Definition in_alphabet (c : Z) : bool :=
  ((65 <=? c) && (c <=? 90)) || ((97 <=? c) && (c <=? 122)) || ((48 <=? c) && (c <=? 57))
  || (c =? 43) || (c =? 45) || (c =? 47) || (c =? 44) || (c =? 95).
