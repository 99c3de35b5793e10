(** Threads that call generate_random_value (/repo/include/caligo/random.h:12-35) at the same time.

    README.md:17 promises that there is no global and no shared state.  testValues (random.cpp:5) is a
    global, cval (random.h:21) a static local; both are read and written without synchronisation.
    Here every access to them is one step, and the steps of the threads are interleaved in any
    order.  (C++ does not even promise that much: conflicting unordered accesses are undefined.)
    Left out: the first call's initialisation of cval, a constant. *)
From Verif Require Import Base M_Random.
Open Scope Z_scope.

(** Where a call is, with the values it holds in registers. *)
Inductive place :=
| Start                       (* random.h:13: testValues.empty() *)
| Back                        (* random.h:14: testValues.back() *)
| Pop (value : Z)             (* random.h:15: testValues.pop_back() *)
| Load1                       (* random.h:27: read cval *)
| Store1 (c : Z)              (* random.h:27: write cval *)
| Load_rv                     (* random.h:28: read cval *)
| Load2 (rv : Z)              (* random.h:32: read cval *)
| Store2 (rv c : Z)           (* random.h:32: write cval *)
| Load_low (rv : Z)           (* random.h:33: read cval *)
| Done (rv : Z).              (* random.h:34 *)

(** One step of one call. *)
Definition step (s : rng) (p : place) : res (rng * place) :=
  match p with
  | Start => Ok (s, match tests s with [] => Load1 | _ => Back end)
  | Back => match tests s with [] => UB | v :: _ => Ok (s, Pop v) end
  | Pop v => match tests s with [] => UB | _ :: r => Ok (Rng r (cval s), Done v) end
  | Load1 => Ok (s, Store1 (cval s))
  | Store1 c => Ok (Rng (tests s) (lcg c), Load_rv)
  | Load_rv => Ok (s, Load2 (Z.land (cval s) 0xffffffff00000000))
  | Load2 rv => Ok (s, Store2 rv (cval s))
  | Store2 rv c => Ok (Rng (tests s) (lcg c), Load_low rv)
  | Load_low rv => Ok (s, Done (Z.lor rv (Z.land (Z.shiftr (cval s) 32) 0xffffffff)))
  | Done rv => Ok (s, Done rv)
  end.
(** All threads together: a schedule says which thread makes the next step. *)
Fixpoint run (schedule : list nat) (s : rng) (ts : list place) : res (rng * list place) :=
  match schedule with
  | [] => Ok (s, ts)
  | t :: rest =>
      match nth_error ts t with
      | None => run rest s ts
      | Some p => do r <- step s p; run rest (fst r) (upd ts t (snd r))
      end
  end.
(** What the next step of a call reads or writes: true for a write. *)
Inductive location := TestValues | Cval.
Definition access (p : place) : option (location * bool) :=
  match p with
  | Start | Back => Some (TestValues, false)
  | Pop _ => Some (TestValues, true)
  | Load1 | Load_rv | Load2 _ | Load_low _ => Some (Cval, false)
  | Store1 _ | Store2 _ _ => Some (Cval, true)
  | Done _ => None
  end.
