(** Properties C126 and C127: what the clock decides about trust, and how much work a trust decision is. *)
From Coq Require Import String Permutation.
From Verif Require Import Base BaseP M_Hash S_Hash P_Hash M_HKDF P_HKDF Prop_HKDF M_RSA S_X509 M_X509 M_Trust P_X509 P_Date P_Name P_Cert S_Verify S_Trust P_Verify P_Trust Cert_Data Prop_X509 Prop_Trust Prop_Chain.
Open Scope Z_scope.

(** ** C126: the clock *)
(** Within the validity of the certificate in question the time does not matter. *)
Theorem C126_within : forall g s leaf rest t1 t2,
  validity_start leaf <= t1 <= validity_end leaf -> validity_start leaf <= t2 <= validity_end leaf ->
  trust g s (leaf :: rest) t1 = trust g s (leaf :: rest) t2.
Proof.
  intros g s leaf rest t1 t2 H1 H2. unfold trust, trust_with.
  destruct (Z.ltb_spec t1 (validity_start leaf)); [lia|]. destruct (Z.ltb_spec (validity_end leaf) t1); [lia|].
  destruct (Z.ltb_spec t2 (validity_start leaf)); [lia|]. destruct (Z.ltb_spec (validity_end leaf) t2); [lia|]. reflexivity.
Qed.
(** Outside of it nothing is trusted and the list is left alone. *)
Theorem C126_outside : forall g s leaf rest now, now < validity_start leaf \/ validity_end leaf < now ->
  trust g s (leaf :: rest) now = Ok (false, leaf :: rest).
Proof.
  intros g s leaf rest now H. unfold trust, trust_with. destruct (Z.ltb_spec now (validity_start leaf)); [reflexivity|]. destruct (Z.ltb_spec (validity_end leaf) now); [reflexivity|lia].
Qed.
(** So trust has no gaps: what is trusted at two moments is trusted at all moments between them. *)
Theorem C126_no_gaps : forall g s vec t1 t t2 o1 o2, trust g s vec t1 = Ok (true, o1) -> trust g s vec t2 = Ok (true, o2) -> t1 <= t <= t2 ->
  trust g s vec t = Ok (true, o1) /\ o2 = o1.
Proof.
  intros g s [|leaf rest] t1 t t2 o1 o2 T1 T2 H; [discriminate T1|].
  assert (V : forall x o, trust g s (leaf :: rest) x = Ok (true, o) -> validity_start leaf <= x <= validity_end leaf).
  { intros x o T. destruct (Z.ltb_spec x (validity_start leaf)) as [C|C]; [rewrite C126_outside in T by lia; discriminate T|]. destruct (Z.ltb_spec (validity_end leaf) x) as [D|D]; [rewrite C126_outside in T by lia; discriminate T|]. lia. }
  pose proof (V _ _ T1). pose proof (V _ _ T2). split.
  - rewrite <- T1. apply C126_within; lia.
  - rewrite (C126_within g s leaf rest t2 t1) in T2 by lia. congruence.
Qed.
Print Assumptions C126_within.
Print Assumptions C126_outside.
Print Assumptions C126_no_gaps.

(** ** C127: the work *)
(** The first argument of the check counts the checks made.  [n] bounds their number: what
    the later ones would do does not matter. *)
Definition at_most_checks (decide : (nat -> cert -> cert -> res bool) -> res (bool * list cert)) (n : nat) : Prop :=
  forall v w, (forall k c i, (k < n)%nat -> v k c i = w k c i) -> decide v = decide w.

Lemma loop_checks v w n : (forall k c i, (k < n)%nat -> v k c i = w k c i) -> forall fuel calls m vec at_, (calls + open_count m vec <= n)%nat ->
  trust_loop v fuel calls m vec at_ = trust_loop w fuel calls m vec at_.
Proof.
  intros A. induction fuel as [|fuel IH]; intros calls m vec at_ H; [reflexivity|]. cbn [trust_loop]. destruct (nth_error vec at_) as [c|] eqn:E; [|reflexivity].
  destruct (lookup m (issuer c)) as [p|] eqn:L; [|apply IH, H]. destruct (known m (subject c)) eqn:K; [apply IH, H|].
  destruct (deref vec p) as [iss| | |]; cbn [bind]; try reflexivity.
  destruct (distinct _ _ _ L K) as [NC NI].
  assert (OP : openb m c = true) by (unfold openb; rewrite K; cbn [negb andb]; apply negb_true_iff, eqb_neq; exact NI).
  assert (POS : (1 <= open_count m vec)%nat).
  { unfold open_count. assert (In c (filter (openb m) vec)) as I by (apply filter_In; split; [apply nth_error_In with at_; exact E | exact OP]). destruct (filter (openb m) vec); [destruct I | cbn [length]; lia]. }
  rewrite A by lia. destruct (w calls c iss) as [b| | |]; cbn [bind]; try reflexivity. destruct b.
  - destruct at_; [reflexivity|]. apply IH.
    assert (open_count (insert m (subject c) (Listed (S at_))) vec < open_count m vec)%nat; [|lia].
    unfold open_count. apply (filter_length_lt v _ _ vec (S at_) c); [|exact E | | exact OP].
    + intros x. unfold openb, known. rewrite lookup_insert. destruct (list_eqb (subject x) (subject c)); [discriminate | trivial].
    + unfold openb, known. rewrite lookup_insert. rewrite (proj2 (list_eqb_eq _ _) eq_refl). reflexivity.
  - apply IH. assert (open_count m (upd vec at_ no_cert) < open_count m vec)%nat; [|lia]. unfold open_count. apply (filter_upd_lt v _ vec at_ c); [exact E | exact OP|].
    unfold openb, no_cert. cbn [subject issuer list_eqb]. apply andb_false_r.
Qed.
(** A decision about a list checks no more signatures than the list has certificates, whatever the store holds. *)
Theorem C127_checks : forall s vec now, at_most_checks (fun v => trust_with v s vec now) (length vec).
Proof.
  intros s vec now v w A. unfold trust_with. destruct vec as [|leaf rest]; [reflexivity|]. destruct (now <? validity_start leaf); [reflexivity|]. destruct (validity_end leaf <? now); [reflexivity|].
  apply (loop_checks v w (length (leaf :: rest)) A). cbn [Nat.add]. apply filter_length_le'.
Qed.
(** A certificate that is not valid now costs no check; one issued by a name nobody has costs none either. *)
Theorem C127_none : forall s leaf rest now, (now < validity_start leaf \/ validity_end leaf < now) \/ (forall c, In c (leaf :: rest) -> get s (issuer c) = None) ->
  at_most_checks (fun v => trust_with v s (leaf :: rest) now) 0.
Proof.
  intros s leaf rest now H v w _. unfold trust_with. destruct (Z.ltb_spec now (validity_start leaf)) as [X|X]; [reflexivity|]. destruct (Z.ltb_spec (validity_end leaf) now) as [Y|Y]; [reflexivity|].
  destruct H as [H|H]; [lia|]. set (vec := leaf :: rest) in *. clearbody vec. generalize (trust_fuel (length vec)) as fuel, 0%nat at 2 4 as at_. intros fuel.
  induction fuel as [|fuel IH]; intros at_; [reflexivity|]. cbn [trust_loop]. destruct (nth_error vec at_) as [c|] eqn:E; [|reflexivity].
  rewrite lookup_map. pose proof (H c (nth_error_In _ _ E)) as N. unfold get in N. rewrite N. apply IH.
Qed.
Print Assumptions C127_checks.
Print Assumptions C127_none.
(** The bound is reached: a chain of two certificates takes two checks, and one is not enough to decide. *)
Definition plain (sub iss : list Z) : cert := Cert [] [] [] sub iss 0 100 None.
Example C127_case : let s := addCertificate [] (plain [1] [1]) in let vec := [plain [3] [2]; plain [2] [1]] in
  trust_with (fun _ _ _ => Ok true) s vec 50 = Ok (true, vec) /\ ~ at_most_checks (fun v => trust_with v s vec 50) 1.
Proof.
  intros s vec. split; [reflexivity|]. intros H. specialize (H (fun _ _ _ => Ok true) (fun k _ _ => Ok (Nat.eqb k 0))). cbv beta in H.
  assert (X : forall (k : nat) (c i : cert), (k < 1)%nat -> Ok true = Ok (Nat.eqb k 0)) by (intros [|k] _ _ K; [reflexivity | lia]). specialize (H X). vm_compute in H. discriminate H.
Qed.
(** Trusted at the beginning and at the end of the validity, refused just outside; and real certificates trusted at two times. *)
Example C126_case : (let s := addCertificate [] (plain [1] [1]) in let vec := [plain [3] [1]] in
  map (fun t => trust_with (fun _ _ _ => Ok true) s vec t) [-1; 0; 50; 100; 101] = map Ok [(false, vec); (true, vec); (true, vec); (true, vec); (false, vec)]) /\
  forall g, (forall i, supplies_ok (g i)) -> exists s vec o1 o2, trust g s vec 1650000000 = Ok (true, o1) /\ trust g s vec 1700000000 = Ok (true, o2).
Proof.
  split; [vm_compute; reflexivity|]. intros g HG. destruct C109_case as (F & ND & VA & CH).
  destruct (C109_chain_trusted g _ _ _ _ 1700000000 HG F ND VA CH (Permutation_refl _)) as (rs & c & cs & out & P1 & P2 & P3 & T).
  assert (VB : posix (t_start (d_tbs (Doc tL ASHA256 sL))) <= 1650000000 <= posix (t_stop (d_tbs (Doc tL ASHA256 sL)))) by (split; vm_compute; discriminate).
  destruct (C109_chain_trusted g _ _ _ _ 1650000000 HG F ND VB CH (Permutation_refl _)) as (rs' & c' & cs' & out' & P1' & P2' & P3' & T').
  assert (inj : forall l l' : list cert, map Ok l = map Ok l' -> l = l') by (induction l as [|x l IH]; intros [|y l'] E; cbn [map] in E; congruence || (injection E as -> E; f_equal; apply IH, E)).
  exists (fold_left addCertificate rs []), (c :: cs), out', out. split; [|exact T].
  rewrite P1 in P1'. rewrite P2 in P2'. rewrite P3 in P3'. rewrite (inj _ _ P1'), (inj _ _ P3'). clear - P2' T'. injection P2' as ->. exact T'.
Qed.
