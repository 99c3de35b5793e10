(** Model of src/Truststore.cpp. *)
From Verif Require Import Base M_Hash M_HKDF M_RSA M_X509.
Open Scope Z_scope.

(** std::map<std::string, T>: one entry per key.  The order of the entries does not matter
    for find, for insertion, or for the copy made in [trust]. *)
Definition smap (A : Type) := list (list Z * A).
Fixpoint lookup {A} (m : smap A) (k : list Z) : option A :=
  match m with
  | [] => None
  | (k', x) :: r => if list_eqb k k' then Some x else lookup r k
  end.
(** m[k] = x. *)
Definition insert {A} (m : smap A) (k : list Z) (x : A) : smap A :=
  (k, x) :: filter (fun e => negb (list_eqb k (fst e))) m.

(** Truststore.h:18. *)
Definition store := smap cert.
(** Truststore.cpp:24-28 and 30-32. *)
Definition get (s : store) (name : list Z) : option cert := lookup s name.
Definition addCertificate (s : store) (c : cert) : store := insert s (subject c) c.
(** Truststore.cpp:13-22, given the contents of /etc/ssl/certs/ca-certificates.crt. *)
Definition load (file : list Z) : res store :=
  do certs <- parseCertificatesPem file; Ok (fold_left addCertificate certs []).

(** A pointer in localCertMap: to a certificate of the store or to an element of the vector. *)
Inductive ptr := Stored (c : cert) | Listed (i : nat).
Definition deref (vec : list cert) (p : ptr) : res cert :=
  match p with Stored c => Ok c | Listed i => match nth_error vec i with Some c => Ok c | None => UB end end.
Definition known (m : smap ptr) (k : list Z) : bool := match lookup m k with Some _ => true | None => false end.

(** Truststore.cpp:54-75.  [ver] is x509certificate::verify; its first argument counts the
    calls, so that each has its own indeterminate buffers.  The result carries the vector,
    which is passed by reference. *)
Fixpoint trust_loop (ver : nat -> cert -> cert -> res bool) (fuel calls : nat) (m : smap ptr) (vec : list cert) (n : nat)
  : res (bool * list cert) :=
  match fuel with
  | O => Diverge
  | S k =>
      match nth_error vec n with
      | None => Ok (false, vec)
      | Some c =>
          match lookup m (issuer c) with
          | None => trust_loop ver k calls m vec (S n)
          | Some p =>
              if known m (subject c) then trust_loop ver k calls m vec (S n) else
              do iss <- deref vec p;
              do b <- ver calls c iss;
              if b then match n with
                        | O => Ok (true, vec)
                        | _ => trust_loop ver k (S calls) (insert m (subject c) (Listed n)) vec 0
                        end
              else trust_loop ver k (S calls) m (upd vec n no_cert) 0
          end
      end
  end.
(** Every round of the loop either moves on or settles one certificate for good, so this fuel
    is not exhausted (proved in P_Trust). *)
Definition trust_fuel (n : nat) : nat := S (S n * S n).
(** Truststore.cpp:44-76; element 0 of an empty vector is undefined. *)
Definition trust_with (ver : nat -> cert -> cert -> res bool) (s : store) (vec : list cert) (now : Z) : res (bool * list cert) :=
  let m := map (fun e => (fst e, Stored (snd e))) s in
  match vec with
  | [] => UB
  | leaf :: _ =>
      if now <? validity_start leaf then Ok (false, vec) else
      if validity_end leaf <? now then Ok (false, vec) else
      trust_loop ver (trust_fuel (length vec)) 0 m vec 0
  end.
Definition trust (g : nat -> scheme -> nat -> supply) : store -> list cert -> Z -> res (bool * list cert) :=
  trust_with (fun i => verify (g i)).
