(** Property C110: the store of the system's root certificates. *)
From Coq Require Import String Permutation.
From Verif Require Import Base BaseP S_Base64 M_Base64 P_Base64 S_Hash M_Hash P_Hash Prop_Hash M_HKDF P_HKDF Prop_HKDF S_Bignum M_Bignum P_Bignum Prop_Bignum M_Mont P_Mont S_RSA M_RSA P_RSA Prop_RSA P_Prime Prop_RSA2 S_X509 M_X509 M_Trust P_X509 P_Date P_Name P_Cert P_Pem S_Verify S_Trust P_Verify P_Trust Cert_Data Prop_X509 Prop_Trust Prop_Chain.
Open Scope list_scope.
Open Scope Z_scope.

(** A file of certificates (RFC 7468): for each an explanatory text without dashes, and the block, broken into lines in any way. *)
Definition pem_file (docs : list doc) (file : list Z) : Prop := exists parts,
  file = concat (map (fun p => fst p ++ pem "CERTIFICATE" (snd p)) parts) /\ Forall2 (fun p x => ~ In 45 (fst p) /\ wrapped (snd p) (doc_der x)) parts docs /\ zlen file < 2 ^ 63.
Lemma file_parsed first more file : Forall good_doc (first :: more) -> pem_file (first :: more) file ->
  parseCertificatesPem file = Ok (map cert_of (removelast (first :: more) ++ [first])).
Proof.
  intros F (parts & -> & F2 & L). inversion F2 as [|p0 x0 ps xs H0 HS]; subst. set (it := fun (p : list Z * list Z) x => Item (fst p) (snd p) (doc_der x) (cert_of x)).
  assert (OK : forall p x, good_doc x -> ~ In 45 (fst p) /\ wrapped (snd p) (doc_der x) ->
    ~ In 45 (i_text (it p x)) /\ bytes (i_der (it p x)) /\ wrapped (i_body (it p x)) (i_der (it p x)) /\ parse_der (i_der (it p x)) = Ok (i_cert (it p x))).
  { intros p x G [T B]. cbn [it i_text i_der i_body i_cert]. split; [exact T|]. split; [apply G|]. split; [exact B|]. destruct (cert_of_ok x G) as (_ & _ & _ & P & _). exact P. }
  assert (EX : forall ps xs, Forall good_doc xs -> Forall2 (fun p x => ~ In 45 (fst p) /\ wrapped (snd p) (doc_der x)) ps xs -> exists its, map i_cert its = map cert_of xs /\
    map (fun i => i_text i ++ pem "CERTIFICATE" (i_body i)) its = map (fun p => fst p ++ pem "CERTIFICATE" (snd p)) ps /\
    (forall i, In i its -> ~ In 45 (i_text i) /\ bytes (i_der i) /\ wrapped (i_body i) (i_der i) /\ parse_der (i_der i) = Ok (i_cert i))).
  { clear - OK. intros ps xs G H. induction H as [|p x ps xs H _ IH]; [exists []; split; [reflexivity|]; split; [reflexivity | intros ? []]|]. inversion_clear G as [|? ? Gx Gs]. destruct (IH Gs) as (its & E1 & E2 & E3).
    exists (it p x :: its). cbn [map]. rewrite E1, E2. split; [reflexivity|]. split; [reflexivity|]. intros i [<-|I]; [apply OK; assumption | apply E3, I]. }
  inversion F as [|? ? G0 GS]; subst. destruct (EX ps more GS HS) as (its & E1 & E2 & E3).
  pose proof (C71_bundle (it p0 first) its) as C. cbv zeta in C. cbn [map] in C. rewrite E1, E2 in C. cbn [it i_text i_body i_cert] in C.
  cbn [map] in L |- *. rewrite C; [|intros i [<-|I]; [apply OK; assumption | apply E3, I]|exact L]. f_equal.
  change (cert_of first :: map cert_of more) with (map cert_of (first :: more)). clear. rewrite map_app. f_equal. generalize (first :: more). induction l as [|x [|y l] IH]; [reflexivity..|].
  cbn [map removelast] in *. rewrite IH. reflexivity.
Qed.
(** The certificates of the file the store ends up with: all but the last, or the only one. *)
Definition kept (docs : list doc) : list doc := match docs with [x] => [x] | _ => removelast docs end.
Lemma kept_in docs x : In x (kept docs) -> In x docs.
Proof.
  destruct docs as [|a [|b l]]; [intros []| |]; [cbn; tauto|]. unfold kept. rewrite (app_removelast_last x (l := a :: b :: l)) at 2 by discriminate. intros I. apply in_or_app. left. exact I.
Qed.
Lemma removelast_names l : names (removelast l) = removelast (names l).
Proof. unfold names. induction l as [|x [|y l] IH]; [reflexivity..|]. cbn [map removelast] in *. rewrite IH. reflexivity. Qed.
Lemma removelast_nodup {A} (l : list A) : NoDup l -> NoDup (removelast l).
Proof. destruct l as [|a l]; [auto|]. intros H. rewrite (app_removelast_last a (l := a :: l)) in H by discriminate. apply (proj1 (nodup_app _ _ H)). Qed.
Lemma load_holds docs file : docs <> [] -> Forall good_doc docs -> NoDup (names docs) -> pem_file docs file -> exists s, load file = Ok s /\ holds s (kept docs).
Proof.
  intros NE F ND P. destruct docs as [|first more]; [congruence|]. unfold load. rewrite (file_parsed first more file F P). cbn [bind]. eexists. split; [reflexivity|]. rewrite Forall_forall in F.
  destruct more as [|y l].
  - change (removelast [first] ++ [first]) with (kept [first] ++ []). apply loaded; [|intros x []]. cbn [kept map]. constructor; [intros [] | constructor].
  - unfold kept. apply loaded; [|intros x [<-|[]]; cbn [removelast]; destruct l; left; reflexivity]. rewrite subjects by (intros x I; apply F, (kept_in (first :: y :: l)), I). rewrite removelast_names. apply removelast_nodup, ND.
Qed.
(** Chains to the roots that were kept are trusted. *)
Theorem C110_roots_partial : forall g docs file leaf rest rest' now, (forall i, supplies_ok (g i)) -> docs <> [] -> pem_file docs file ->
  Forall good_doc (docs ++ leaf :: rest) -> NoDup (names (docs ++ leaf :: rest)) -> posix (t_start (d_tbs leaf)) <= now <= posix (t_stop (d_tbs leaf)) ->
  chain (kept docs) (leaf :: rest) leaf -> Permutation rest rest' ->
  exists s c cs out, load file = Ok s /\ parse_der (doc_der leaf) = Ok c /\ map parse_der (map doc_der rest') = map Ok cs /\ trust g s (c :: cs) now = Ok (true, out).
Proof.
  intros g docs file leaf rest rest' now HG NE P F ND VA CH PM. pose proof F as F0. apply Forall_app in F0 as [FD FP]. pose proof ND as ND0. unfold names in ND0. rewrite map_app in ND0. apply nodup_app in ND0 as [NDd NDp].
  destruct (load_holds docs file NE FD NDd P) as (s & LS & HO).
  assert (F' : Forall good_doc (kept docs ++ leaf :: rest)) by (apply Forall_app; split; [rewrite Forall_forall in *; intros x I; apply FD, kept_in, I | exact FP]).
  assert (ND' : NoDup (names (kept docs ++ leaf :: rest))).
  { destruct docs as [|a [|b l]]; [congruence | exact ND|]. unfold kept. rewrite (app_removelast_last a (l := a :: b :: l)) in ND by discriminate. rewrite <- app_assoc in ND. unfold names in *. rewrite !map_app in ND. cbn [map app] in ND. apply NoDup_remove_1 in ND.
    rewrite map_app. cbn [map]. exact ND. }
  destruct (chain_trusted g s (kept docs) leaf rest rest' now HO HG F' ND' VA CH PM) as (out & T). rewrite Forall_forall in FP. destruct (cert_of_ok leaf (FP leaf (or_introl eq_refl))) as (_ & _ & _ & PL & _).
  exists s, (cert_of leaf), (map cert_of rest'), out. split; [exact LS|]. split; [exact PL|]. split; [|exact T]. apply parses. intros x X. apply FP. right. apply (Permutation_in x (Permutation_sym PM)), X.
Qed.
Print Assumptions C110_roots_partial.
Lemma lookup_stored (s : store) k : lookup s k = None -> lookup (map (fun e => (fst e, Stored (snd e))) s) k = None.
Proof. induction s as [|[k' c] s IH]; [reflexivity|]. cbn [lookup map fst snd]. destruct (list_eqb k k'); [discriminate | exact IH]. Qed.
Lemma no_issuer g s c now : get s (issuer c) = None -> trust g s [c] now = Ok (false, [c]).
Proof.
  intros H. unfold trust, trust_with. destruct (now <? validity_start c); [reflexivity|]. destruct (validity_end c <? now); [reflexivity|].
  change (trust_fuel (List.length [c])) with 5%nat. cbn [trust_loop nth_error]. rewrite (lookup_stored s _ H). reflexivity.
Qed.
(** Finding: of two or more roots the last one is missing, and what it issued is not trusted. *)
Theorem C110_last_refuted : forall g roots last file leaf now, roots <> [] -> pem_file (roots ++ [last]) file ->
  Forall good_doc (roots ++ [last; leaf]) -> NoDup (names (roots ++ [last; leaf])) -> posix (t_start (d_tbs leaf)) <= now <= posix (t_stop (d_tbs leaf)) -> issued leaf last ->
  exists s z c, load file = Ok s /\ parse_der (doc_der last) = Ok z /\ get s (subject z) = None /\ parse_der (doc_der leaf) = Ok c /\ trust g s [c] now = Ok (false, [c]).
Proof.
  intros g roots last file leaf now NE P F ND VA I. replace (roots ++ [last; leaf]) with ((roots ++ [last]) ++ [leaf]) in F, ND by (rewrite <- app_assoc; reflexivity).
  pose proof F as F0. apply Forall_app in F0 as [FD FP]. pose proof ND as ND0. unfold names in ND0. rewrite map_app in ND0. apply nodup_app in ND0 as [NDd _].
  destruct (load_holds (roots ++ [last]) file) as (s & LS & HAS & ONLY); [destruct roots; discriminate | exact FD | exact NDd | exact P|].
  assert (K : kept (roots ++ [last]) = roots) by (unfold kept; destruct roots as [|a [|b l]]; [congruence | reflexivity | apply removelast_last]). rewrite K in HAS, ONLY.
  rewrite Forall_forall in FD, FP. assert (Gz : good_doc last) by (apply FD, in_or_app; right; left; reflexivity). assert (Gl : good_doc leaf) by (apply FP; left; reflexivity).
  destruct (cert_of_ok last Gz) as (_ & _ & _ & PZ & _ & SZ & _). destruct (cert_of_ok leaf Gl) as (_ & _ & _ & PL & _ & SL & IL & VS & VE & _).
  assert (NO : get s (subject (cert_of last)) = None).
  { destruct (get s (subject (cert_of last))) as [c|] eqn:G; [exfalso|reflexivity]. destruct (ONLY _ _ G) as (r & Rr & -> & E).
    destruct (cert_of_ok r (FD r (in_or_app _ _ _ (or_introl Rr)))) as (_ & _ & _ & _ & _ & S1 & _). rewrite S1, SZ in E. exact (names_apart roots [last] r last NDd Rr (or_introl eq_refl) E). }
  exists s, (cert_of last), (cert_of leaf). split; [exact LS|]. split; [exact PZ|]. split; [exact NO|]. split; [exact PL|].
  apply no_issuer. rewrite IL, (proj1 I), <- SZ. exact NO.
Qed.
Print Assumptions C110_last_refuted.
(** The root R last, after another certificate: A, which R issued, is not trusted. *)
Example C110_case : let R := Doc tR ASHA256 sR in let A := Doc tA ASHA256 sA in let L := Doc tL ASHA256 sL in
  let file := concat (map (fun x => pem "CERTIFICATE" (rfc4648 43 47 true (doc_der x))) [L; R]) in
  pem_file [L; R] file /\ Forall good_doc ([L] ++ [R; A]) /\ NoDup (names ([L] ++ [R; A])) /\ posix (t_start (d_tbs A)) <= 1700000000 <= posix (t_stop (d_tbs A)) /\ issued A R.
Proof.
  intros R A L file. destruct C109_case as (F & ND & _ & _). fold R A L in F, ND.
  split; [|split; [|split; [|split]]].
  - exists (map (fun x => ([], rfc4648 43 47 true (doc_der x))) [L; R]). split; [unfold file; rewrite map_map; reflexivity|]. split; [|vm_compute; reflexivity].
    repeat (constructor; [split; [intros [] | unfold wrapped; vm_compute; reflexivity]|]). constructor.
  - cbn [app] in *. inversion_clear F as [|? ? G1 F1]. inversion_clear F1 as [|? ? G2 F2]. inversion_clear F2 as [|? ? G3 F3]. repeat (constructor; [assumption|]). constructor.
  - revert ND. apply (Permutation_NoDup (l := names ([R] ++ [L; A])) (l' := names ([L] ++ [R; A]))). apply Permutation_map. cbn [app]. constructor.
  - split; vm_compute; discriminate.
  - exact issued_A.
Qed.
