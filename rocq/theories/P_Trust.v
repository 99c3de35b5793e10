(** Proofs about the trust store. *)
From Coq Require Import Permutation.
From Verif Require Import Base BaseP M_Hash M_HKDF M_RSA M_X509 M_Trust S_Trust.
Open Scope Z_scope.

Lemma lookup_insert {A} (m : smap A) k x k' : lookup (insert m k x) k' = if list_eqb k' k then Some x else lookup m k'.
Proof.
  unfold insert. cbn [lookup fst]. destruct (list_eqb k' k) eqn:E; [reflexivity|].
  induction m as [|[a y] m IH]; [reflexivity|]. cbn [filter fst]. destruct (list_eqb k a) eqn:E2; cbn [negb lookup].
  - apply list_eqb_eq in E2. subst a. rewrite E. exact IH.
  - destruct (list_eqb k' a); [reflexivity | exact IH].
Qed.
Lemma lookup_map {A B} (f : A -> B) (m : smap A) k : lookup (map (fun e => (fst e, f (snd e))) m) k = match lookup m k with Some x => Some (f x) | None => None end.
Proof. induction m as [|[a y] m IH]; [reflexivity|]. cbn [map lookup fst snd]. destruct (list_eqb k a); [reflexivity | exact IH]. Qed.
Lemma nth_upd {A} (l : list A) n x i : nth_error (upd l n x) i = if Nat.eqb i n then match nth_error l i with Some _ => Some x | None => None end else nth_error l i.
Proof.
  revert n i. induction l as [|y l IH]; intros [|n] [|i]; cbn [upd nth_error Nat.eqb]; try reflexivity; [destruct (Nat.eqb i n); reflexivity|]. apply IH.
Qed.
Lemma eqb_neq a b : list_eqb a b = false <-> a <> b.
Proof. rewrite <- not_true_iff_false, list_eqb_eq. reflexivity. Qed.

Section Loop.
Variable ver : nat -> cert -> cert -> res bool.
Variable s : store.
Variable vec0 : list cert.

(** What every round of the loop keeps. *)
Definition checked (c i : cert) : Prop := exists k, ver k c i = Ok true.
Definition chained (c : cert) : Prop := exists l, path checked (get s) vec0 c l.
Definition kept (vec : list cert) : Prop := length vec = length vec0 /\ forall i c, nth_error vec i = Some c -> nth_error vec0 i = Some c \/ c = no_cert.
Definition pointers (m : smap ptr) (vec : list cert) : Prop :=
  (forall k c, lookup m k = Some (Stored c) -> get s k = Some c) /\
  (forall k i, lookup m k = Some (Listed i) -> i <> O /\ exists c, nth_error vec i = Some c /\ nth_error vec0 i = Some c /\ subject c = k /\ chained c) /\
  (forall k c, get s k = Some c -> lookup m k = Some (Stored c)).

Definition among (i : cert) : Prop := In i vec0 \/ exists k, get s k = Some i.
Lemma pointer_deref m vec k p : pointers m vec -> lookup m k = Some p ->
  exists i, deref vec p = Ok i /\ (forall c, issuer c = k -> checked c i -> chained c) /\ among i.
Proof.
  intros (P1 & P2 & _) H. destruct p as [r|j].
  - exists r. split; [reflexivity|]. split; [|right; exists k; apply P1; exact H]. intros c E C. exists [r]. apply path_root; [rewrite E; apply P1; exact H | exact C].
  - destruct (P2 _ _ H) as (_ & i & N1 & N2 & N3 & l & N4). exists i. cbn [deref]. rewrite N1. split; [reflexivity|]. split; [|left; eapply nth_error_In; exact N2]. intros c E C. exists (i :: l).
    apply path_step; [eapply nth_error_In; exact N2 | congruence | exact C | exact N4].
Qed.
Lemma distinct c m p : lookup m (issuer c) = Some p -> known m (subject c) = false -> c <> no_cert /\ subject c <> issuer c.
Proof.
  intros H K. assert (subject c <> issuer c) by (intros E; unfold known in K; rewrite E, H in K; discriminate K). split; [intros ->; apply H0; reflexivity | exact H0].
Qed.
Lemma kept_in vec n c : kept vec -> nth_error vec n = Some c -> c <> no_cert -> In c vec0.
Proof. intros [_ K] N D. destruct (K _ _ N) as [K1|K1]; [eapply nth_error_In; exact K1 | contradiction]. Qed.
Lemma pointers_insert m vec n c p : pointers m vec -> kept vec -> n <> O -> nth_error vec n = Some c -> lookup m (issuer c) = Some p -> known m (subject c) = false -> chained c ->
  pointers (insert m (subject c) (Listed n)) vec.
Proof.
  intros (P1 & P2 & P3) (_ & K) N0 N L U C. destruct (distinct _ _ _ L U) as [D1 _]. split; [|split].
  - intros k r. rewrite lookup_insert. destruct (list_eqb k (subject c)); [discriminate | apply P1].
  - intros k i. rewrite lookup_insert. destruct (list_eqb k (subject c)) eqn:E; [|apply P2]. intros [= <-]. split; [exact N0|]. exists c. apply list_eqb_eq in E.
    split; [exact N|]. destruct (K _ _ N) as [K1|K1]; [|contradiction]. auto.
  - intros k r G. rewrite lookup_insert. destruct (list_eqb k (subject c)) eqn:E; [|apply P3; exact G]. apply list_eqb_eq in E. subst k. apply P3 in G. unfold known in U. rewrite G in U. discriminate U.
Qed.
Lemma pointers_clear m vec n c : pointers m vec -> nth_error vec n = Some c -> known m (subject c) = false -> pointers m (upd vec n no_cert).
Proof.
  intros (P1 & P2 & P3) N U. split; [exact P1|]. split; [|exact P3]. intros k i L. destruct (P2 _ _ L) as (I0 & d & N1 & N2 & N3 & N4). split; [exact I0|]. exists d.
  rewrite nth_upd. destruct (Nat.eqb_spec i n) as [->|]; [|auto]. exfalso. rewrite N in N1. injection N1 as ->. unfold known in U. rewrite N3, L in U. discriminate U.
Qed.
Lemma kept_clear vec n : kept vec -> kept (upd vec n no_cert).
Proof.
  intros [K0 K]. split; [rewrite upd_length; exact K0|]. intros i c. rewrite nth_upd. destruct (Nat.eqb i n); [|apply K]. destruct (nth_error vec i); [|discriminate]. intros [= <-]. right; reflexivity.
Qed.

(** ** Soundness *)
Lemma loop_sound : forall fuel calls m vec n out, pointers m vec -> kept vec -> trust_loop ver fuel calls m vec n = Ok (true, out) ->
  exists leaf, nth_error vec0 0 = Some leaf /\ chained leaf.
Proof.
  induction fuel as [|fuel IH]; intros calls m vec n out P K H; [discriminate H|]. cbn [trust_loop] in H.
  destruct (nth_error vec n) as [c|] eqn:N; [|discriminate H]. destruct (lookup m (issuer c)) as [p|] eqn:L; [|eapply IH; eassumption].
  destruct (known m (subject c)) eqn:U; [eapply IH; eassumption|]. destruct (pointer_deref _ _ _ _ P L) as (i & D & CH & AM). rewrite D in H. cbn [bind] in H.
  destruct (ver calls c i) as [b| | |] eqn:V; try discriminate H. cbn [bind] in H. destruct b.
  - assert (C : chained c) by (apply CH; [reflexivity | exists calls; exact V]). destruct n as [|n].
    + exists c. destruct (distinct _ _ _ L U) as [D1 _]. destruct K as [_ K]. destruct (K _ _ N) as [K1|K1]; [|contradiction]. auto.
    + eapply IH; [|exact K | exact H]. eapply pointers_insert; try eassumption. discriminate.
  - eapply IH; [| |exact H]; [eapply pointers_clear; eassumption | apply kept_clear; exact K].
Qed.
Lemma loop_out : forall fuel calls m vec n b out, kept vec -> trust_loop ver fuel calls m vec n = Ok (b, out) -> kept out.
Proof.
  induction fuel as [|fuel IH]; intros calls m vec n b out K H; [discriminate H|]. cbn [trust_loop] in H.
  destruct (nth_error vec n) as [c|]; [|injection H as <- <-; exact K]. destruct (lookup m (issuer c)) as [p|]; [|eapply IH; eassumption].
  destruct (known m (subject c)); [eapply IH; eassumption|]. destruct (deref vec p) as [i| | |]; try discriminate H. cbn [bind] in H.
  destruct (ver calls c i) as [r| | |]; try discriminate H. cbn [bind] in H. destruct r; [destruct n as [|n]; [injection H as <- <-; exact K|]|]; (eapply IH; [|exact H]); [exact K | apply kept_clear; exact K].
Qed.

(** ** Termination: a measure on the certificates that are not settled yet *)
Definition openb (m : smap ptr) (c : cert) : bool := negb (known m (subject c)) && negb (list_eqb (subject c) (issuer c)).
Definition open_count (m : smap ptr) (vec : list cert) : nat := length (filter (openb m) vec).
Lemma filter_length_le {A} (f g : A -> bool) l : (forall x, f x = true -> g x = true) -> (length (filter f l) <= length (filter g l))%nat.
Proof.
  intros H. induction l as [|x l IH]; [reflexivity|]. cbn [filter]. destruct (f x) eqn:F; [rewrite (H _ F); cbn [length]; lia|]. destruct (g x); cbn [length]; lia.
Qed.
Lemma filter_length_lt {A} (f g : A -> bool) l n x : (forall x, f x = true -> g x = true) -> nth_error l n = Some x -> f x = false -> g x = true -> (length (filter f l) < length (filter g l))%nat.
Proof.
  intros H. revert n. induction l as [|y l IH]; intros [|n] N F G; try discriminate N.
  - injection N as ->. cbn [filter]. rewrite F, G. cbn [length]. pose proof (filter_length_le f g l H). lia.
  - cbn [nth_error] in N. specialize (IH n N F G). cbn [filter]. destruct (f y) eqn:E; [rewrite (H _ E); cbn [length]; lia|]. destruct (g y); cbn [length]; lia.
Qed.
Lemma upd_0 {A} (x : A) l y : upd (x :: l) 0 y = y :: l.
Proof. reflexivity. Qed.
Lemma upd_S {A} (x : A) l n y : upd (x :: l) (S n) y = x :: upd l n y.
Proof. reflexivity. Qed.
Lemma filter_upd_lt {A} (g : A -> bool) l n x y : nth_error l n = Some x -> g x = true -> g y = false -> (length (filter g (upd l n y)) < length (filter g l))%nat.
Proof.
  revert n. induction l as [|z l IH]; intros [|n] N G F; try discriminate N; rewrite ?upd_0, ?upd_S; cbn [filter].
  - injection N as ->. rewrite F, G. cbn [length]. lia.
  - cbn [nth_error] in N. specialize (IH n N G F). destruct (g z); cbn [length]; lia.
Qed.
Lemma filter_length_le' {A} (f : A -> bool) l : (length (filter f l) <= length l)%nat.
Proof. induction l as [|x l IH]; [reflexivity|]. cbn [filter]. destruct (f x); cbn [length]; lia. Qed.
Lemma loop_ends : forall fuel calls m vec n, pointers m vec -> kept vec -> (open_count m vec * S (length vec) + (length vec - n) < fuel)%nat ->
  trust_loop ver fuel calls m vec n = Diverge -> exists k c i, In c vec0 /\ among i /\ ver k c i = Diverge.
Proof.
  induction fuel as [|fuel IH]; intros calls m vec n P K HF H; [lia|]. cbn [trust_loop] in H.
  destruct (nth_error vec n) as [c|] eqn:N; [|discriminate H]. assert (NL : (n < length vec)%nat) by (apply nth_error_Some; congruence).
  destruct (lookup m (issuer c)) as [p|] eqn:L; [|eapply IH; [exact P | exact K | |exact H]; lia].
  destruct (known m (subject c)) eqn:U; [eapply IH; [exact P | exact K | |exact H]; lia|].
  assert (O1 : openb m c = true).
  { unfold openb. rewrite U. destruct (distinct _ _ _ L U) as [_ D]. apply eqb_neq in D. rewrite D. reflexivity. }
  destruct (pointer_deref _ _ _ _ P L) as (i & D & CH & AM). rewrite D in H. cbn [bind] in H. destruct (distinct _ _ _ L U) as [D1 _].
  destruct (ver calls c i) as [b| | |] eqn:V; try discriminate H; [|exists calls, c, i; split; [eapply kept_in; eassumption|]; split; [exact AM | exact V]]. cbn [bind] in H. destruct b.
  - destruct n as [|n]; [discriminate H|]. eapply IH; [| exact K | |exact H]; [eapply pointers_insert; try eassumption; [discriminate | apply CH; [reflexivity | exists calls; exact V]]|]. set (m' := insert m (subject c) (Listed (S n))).
    assert (open_count m' vec < open_count m vec)%nat.
    { unfold open_count. apply (filter_length_lt _ _ vec (S n) c); [|exact N | |exact O1].
      - intros x. unfold openb. rewrite !andb_true_iff. intros [A1 A2]. split; [|exact A2]. unfold known, m' in A1 |- *. rewrite lookup_insert in A1. destruct (list_eqb (subject x) (subject c)); [discriminate A1 | exact A1].
      - unfold openb, known, m'. rewrite lookup_insert, list_eqb_refl. reflexivity. }
    assert (S (open_count m' vec) * S (length vec) <= open_count m vec * S (length vec))%nat by (apply Nat.mul_le_mono_r; lia). lia.
  - eapply IH; [| | |exact H]; [eapply pointers_clear; eassumption | apply kept_clear; exact K|]. rewrite upd_length.
    assert (open_count m (upd vec n no_cert) < open_count m vec)%nat by (unfold open_count; apply (filter_upd_lt _ vec n c); [exact N | exact O1 | unfold openb; cbn [subject issuer no_cert]; rewrite andb_false_r; reflexivity]).
    assert (S (open_count m (upd vec n no_cert)) * S (length vec) <= open_count m vec * S (length vec))%nat by (apply Nat.mul_le_mono_r; lia). lia.
Qed.
Lemma fuel_enough m vec : (open_count m vec * S (length vec) + (length vec - 0) < trust_fuel (length vec))%nat.
Proof.
  unfold trust_fuel. pose proof (filter_length_le' (openb m) vec) as F. fold (open_count m vec) in F. assert (open_count m vec * S (length vec) <= length vec * S (length vec))%nat by (apply Nat.mul_le_mono_r; exact F). lia.
Qed.
Lemma loop_total : forall fuel calls m vec n, pointers m vec -> kept vec -> (forall k c i, In c vec0 -> among i -> exists b, ver k c i = Ok b) ->
  (exists r, trust_loop ver fuel calls m vec n = Ok r) \/ trust_loop ver fuel calls m vec n = Diverge.
Proof.
  induction fuel as [|fuel IH]; intros calls m vec n P K T; [right; reflexivity|]. cbn [trust_loop].
  destruct (nth_error vec n) as [c|] eqn:N; [|left; eexists; reflexivity]. destruct (lookup m (issuer c)) as [p|] eqn:L; [|apply IH; assumption].
  destruct (known m (subject c)) eqn:U; [apply IH; assumption|]. destruct (pointer_deref _ _ _ _ P L) as (i & D & CH & AM). rewrite D. cbn [bind].
  destruct (distinct _ _ _ L U) as [D1 _]. destruct (T calls c i (kept_in _ _ _ K N D1) AM) as [b V]. rewrite V. cbn [bind]. destruct b.
  - destruct n as [|n]; [left; eexists; reflexivity|]. apply IH; [|exact K | exact T]. eapply pointers_insert; try eassumption; [discriminate|]. apply CH; [reflexivity | exists calls; exact V].
  - apply IH; [eapply pointers_clear; eassumption | apply kept_clear; exact K | exact T].
Qed.

(** ** Completeness, when the names identify the certificates *)
Variable okb : cert -> cert -> bool.
Hypothesis ver_ok : forall k c i, In c vec0 -> among i -> ver k c i = Ok (okb c i).
Hypothesis names : NoDup (map subject vec0).
Hypothesis fresh : forall c, In c vec0 -> get s (subject c) = None.
Definition live (vec : list cert) : Prop := forall i c, nth_error vec0 i = Some c -> chained c -> nth_error vec i = Some c.
Definition scanned (m : smap ptr) (vec : list cert) (n : nat) : Prop := forall j c, (j < n)%nat -> nth_error vec j = Some c -> lookup m (issuer c) = None \/ known m (subject c) = true.
Lemma same_name i j c d : nth_error vec0 i = Some c -> nth_error vec0 j = Some d -> subject c = subject d -> i = j.
Proof.
  intros H1 H2 E. assert (L : (i < length (map subject vec0))%nat) by (rewrite map_length; apply nth_error_Some; congruence).
  apply (proj1 (NoDup_nth_error _) names i j L). rewrite !nth_error_map, H1, H2. cbn [option_map]. rewrite E. reflexivity.
Qed.
Lemma failure_unchained m vec n c p i : pointers m vec -> nth_error vec0 n = Some c -> lookup m (issuer c) = Some p -> deref vec p = Ok i -> okb c i = false -> ~ chained c.
Proof.
  intros (P1 & P2 & P3) N L D F [l H]. inversion H as [c0 r T C|c0 d l0 T E C R]; subst.
  - rewrite (P3 _ _ T) in L. injection L as <-. cbn [deref] in D. injection D as <-. destruct C as [k C]. rewrite ver_ok in C by (first [eapply nth_error_In; exact N | right; eauto]). congruence.
  - destruct p as [r|j].
    + apply P1 in L. rewrite <- E, (fresh _ T) in L. discriminate L.
    + destruct (P2 _ _ L) as (_ & e & N1 & N2 & N3 & _). cbn [deref] in D. rewrite N1 in D. injection D as <-.
      apply In_nth_error in T. destruct T as [k T]. assert (j = k) by (eapply same_name; [exact N2 | exact T | congruence]). subst k. rewrite N2 in T. injection T as <-.
      destruct C as [k C]. rewrite ver_ok in C by (first [eapply nth_error_In; exact N | left; eapply nth_error_In; exact N2]). congruence.
Qed.
Lemma live_clear m vec n c p i : pointers m vec -> kept vec -> live vec -> nth_error vec n = Some c -> lookup m (issuer c) = Some p -> known m (subject c) = false -> deref vec p = Ok i -> okb c i = false ->
  live (upd vec n no_cert).
Proof.
  intros P [_ K] LV N L U D F j d J C. rewrite nth_upd. destruct (Nat.eqb_spec j n) as [->|]; [|apply LV; assumption]. exfalso.
  destruct (distinct _ _ _ L U) as [D1 _]. destruct (K _ _ N) as [K1|K1]; [|contradiction]. rewrite K1 in J. injection J as <-. exact (failure_unchained _ _ _ _ _ _ P K1 L D F C).
Qed.
Lemma all_known m vec c l : pointers m vec -> live vec -> scanned m vec (length vec) -> path checked (get s) vec0 c l -> In c vec0 -> known m (subject c) = true.
Proof.
  intros P LV SC H. induction H as [c r T C|c i l T E C R IH]; intros I.
  - apply In_nth_error in I. destruct I as [n I]. pose proof (LV n c I ltac:(exists [r]; apply path_root; assumption)) as NV.
    destruct (SC n c) as [X|X]; [apply nth_error_Some; congruence | exact NV | | exact X]. destruct P as (_ & _ & P3). rewrite (P3 _ _ T) in X. discriminate X.
  - apply In_nth_error in I. destruct I as [n I]. pose proof (LV n c I ltac:(exists (i :: l); apply path_step; assumption)) as NV.
    destruct (SC n c) as [X|X]; [apply nth_error_Some; congruence | exact NV | | exact X]. specialize (IH T). unfold known in IH. rewrite E, X in IH. discriminate IH.
Qed.
Lemma loop_complete : forall fuel calls m vec n out, pointers m vec -> kept vec -> live vec -> scanned m vec n -> (n <= length vec)%nat ->
  trust_loop ver fuel calls m vec n = Ok (false, out) -> forall leaf, nth_error vec0 0 = Some leaf -> ~ chained leaf.
Proof.
  induction fuel as [|fuel IH]; intros calls m vec n out P K LV SC NL H leaf LF; [discriminate H|]. cbn [trust_loop] in H.
  destruct (nth_error vec n) as [c|] eqn:N.
  - assert (NL' : (n < length vec)%nat) by (apply nth_error_Some; congruence).
    destruct (lookup m (issuer c)) as [p|] eqn:L.
    + destruct (known m (subject c)) eqn:U.
      * eapply IH; [exact P | exact K | exact LV | | exact NL' | exact H | exact LF]. intros j d J Nd. destruct (Nat.eq_dec j n) as [->|]; [rewrite N in Nd; injection Nd as <-; right; exact U | apply (SC j); [lia | exact Nd]].
      * destruct (pointer_deref _ _ _ _ P L) as (i & D & CH & AM). rewrite D in H. cbn [bind] in H. destruct (distinct _ _ _ L U) as [D1 _]. pose proof (ver_ok calls c i (kept_in _ _ _ K N D1) AM) as VO. rewrite VO in H. cbn [bind] in H. destruct (okb c i) eqn:V.
        -- destruct n as [|n]; [discriminate H|]. eapply IH; [| exact K | exact LV | | |exact H | exact LF]; [|intros j d J; lia | lia].
           eapply pointers_insert; try eassumption; [discriminate|]. apply CH; [reflexivity | exists calls; rewrite VO; reflexivity].
        -- eapply IH; [| | | | |exact H | exact LF]; [eapply pointers_clear; eassumption | apply kept_clear; exact K | eapply live_clear; eassumption | intros j d J; lia | lia].
    + eapply IH; [exact P | exact K | exact LV | | exact NL' | exact H | exact LF]. intros j d J Nd. destruct (Nat.eq_dec j n) as [->|]; [rewrite N in Nd; injection Nd as <-; left; exact L | apply (SC j); [lia | exact Nd]].
  - apply nth_error_None in N. assert (n = length vec) by lia. subst n. intros [l HP]. pose proof (all_known m vec leaf l P LV SC HP (nth_error_In _ _ LF)) as U.
    unfold known in U. destruct (lookup m (subject leaf)) as [[r|j]|] eqn:L; [| |discriminate U]; destruct P as (P1 & P2 & _).
    + apply P1 in L. rewrite (fresh _ (nth_error_In _ _ LF)) in L. discriminate L.
    + destruct (P2 _ _ L) as (J0 & d & _ & N2 & N3 & _). apply J0. eapply same_name; [exact N2 | exact LF | exact N3].
Qed.
End Loop.

Section Trust.
Variable ver : nat -> cert -> cert -> res bool.
Variable s : store.
Lemma start_pointers vec : pointers ver s vec (map (fun e => (fst e, Stored (snd e))) s) vec.
Proof.
  unfold pointers, get. split; [|split].
  - intros k c. rewrite lookup_map. destruct (lookup s k); [intros [= <-]; reflexivity | discriminate].
  - intros k i. rewrite lookup_map. destruct (lookup s k); discriminate.
  - intros k c H. rewrite lookup_map, H. reflexivity.
Qed.
Lemma start_kept vec : kept vec vec.
Proof. split; [reflexivity|]. intros i c H; left; exact H. Qed.
Theorem trust_sound vec now out : trust_with ver s vec now = Ok (true, out) ->
  exists leaf rest l, vec = leaf :: rest /\ valid_at now leaf /\ path (fun c i => exists k, ver k c i = Ok true) (get s) vec leaf l.
Proof.
  unfold trust_with. destruct vec as [|leaf rest]; [discriminate|]. destruct (Z.ltb_spec now (validity_start leaf)); [discriminate|]. destruct (Z.ltb_spec (validity_end leaf) now); [discriminate|].
  intros HL. destruct (loop_sound ver s (leaf :: rest) _ _ _ _ _ _ (start_pointers _) (start_kept _) HL) as (lf & E & l & P). injection E as <-.
  exists leaf, rest, l. split; [reflexivity|]. split; [unfold valid_at; lia | exact P].
Qed.
Theorem trust_ends vec now : trust_with ver s vec now = Diverge -> exists k c i, In c vec /\ (In i vec \/ exists name, get s name = Some i) /\ ver k c i = Diverge.
Proof.
  unfold trust_with. destruct vec as [|leaf rest]; [discriminate|]. destruct (now <? validity_start leaf); [discriminate|]. destruct (validity_end leaf <? now); [discriminate|].
  intros H. apply (loop_ends ver s (leaf :: rest)) in H; [exact H | apply start_pointers | apply start_kept | apply fuel_enough].
Qed.
Theorem trust_list vec now b out : trust_with ver s vec now = Ok (b, out) ->
  length out = length vec /\ forall i c, nth_error out i = Some c -> nth_error vec i = Some c \/ c = no_cert.
Proof.
  unfold trust_with. destruct vec as [|leaf rest]; [discriminate|]. destruct (now <? validity_start leaf); [intros [= <- <-]; apply start_kept|]. destruct (validity_end leaf <? now); [intros [= <- <-]; apply start_kept|].
  intros H. eapply (loop_out ver (leaf :: rest)); [apply start_kept | exact H].
Qed.
Theorem trust_total vec now : vec <> [] -> (forall k c i, In c vec -> (In i vec \/ exists name, get s name = Some i) -> exists b, ver k c i = Ok b) ->
  exists b out, trust_with ver s vec now = Ok (b, out).
Proof.
  intros NE T. destruct (trust_with ver s vec now) as [[b out]| | |] eqn:E; [eauto|..]; exfalso.
  1, 2: revert E; unfold trust_with; destruct vec as [|leaf rest]; [contradiction|]; destruct (now <? validity_start leaf); [discriminate|]; destruct (validity_end leaf <? now); [discriminate|]; intros E;
    destruct (loop_total ver s (leaf :: rest) (trust_fuel (length (leaf :: rest))) 0 _ _ 0 (start_pointers _) (start_kept _) T) as [[r E2]|E2]; rewrite E2 in E; discriminate E.
  destruct (trust_ends _ _ E) as (k & c & i & I1 & I2 & D). destruct (T k c i I1 I2) as [b B]. congruence.
Qed.
Theorem trust_complete okb vec now leaf rest l : (forall k c i, In c vec -> (In i vec \/ exists name, get s name = Some i) -> ver k c i = Ok (okb c i)) -> vec = leaf :: rest ->
  NoDup (map subject vec) -> (forall c, In c vec -> get s (subject c) = None) -> valid_at now leaf ->
  path (fun c i => okb c i = true) (get s) vec leaf l -> exists out, trust_with ver s vec now = Ok (true, out).
Proof.
  intros V E ND FR VA PT. destruct (trust_total vec now ltac:(subst; discriminate) ltac:(intros k c i I1 I2; eexists; apply V; assumption)) as ([|] & out & T); [eauto|]. exfalso.
  subst vec. unfold trust_with in T. unfold valid_at in VA. destruct (Z.ltb_spec now (validity_start leaf)); [lia|]. destruct (Z.ltb_spec (validity_end leaf) now); [lia|].
  assert (LV : live ver s (leaf :: rest) (leaf :: rest)) by (intros i c H1 _; exact H1).
  apply (loop_complete ver s (leaf :: rest) okb V ND FR _ _ _ _ _ _ (start_pointers _) (start_kept _) LV) with (leaf := leaf) in T; [|intros j c J; lia | lia | reflexivity].
  apply T. exists l. clear - V PT. assert (I : In leaf (leaf :: rest)) by (left; reflexivity). revert PT V I. generalize (leaf :: rest) as pool. intros pool PT V.
  induction PT as [c r H1 H2|c i l H1 H2 H3 H4 IH]; intros I; [apply path_root; [exact H1|] | apply path_step; try assumption; [|apply IH; exact H1]]; exists O; rewrite V by eauto; congruence.
Qed.
End Trust.
