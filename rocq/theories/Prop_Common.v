(** Property C139: what two messages under one ECB or CBC object have in common shows; and what CBC decryption makes
    of an encrypted message. *)
From Verif Require Import Base BaseP M_HKDF M_GCM S_GCM P_Ghash P_GHM P_GCM Prop_GCM Prop_GCM2.
Open Scope Z_scope.

(** A message made of blocks of n bytes, and a cipher on such blocks that can be undone. *)
Definition is_block (n : Z) (b : list Z) : Prop := zlen b = n /\ bytes b.
Definition block_cipher (n : Z) (E : list Z -> list Z) : Prop :=
  0 < n /\ (forall b, zlen b = n -> zlen (E b) = n) /\ (forall b, is_block n b -> bytes (E b)) /\ (forall b c, is_block n b -> is_block n c -> E b = E c -> b = c).

Lemma concat_chunks n ps : 0 < n -> Forall (is_block n) ps -> chunks (Z.to_nat n) (concat ps) = ps /\ zlen (concat ps) mod n = 0.
Proof.
  intros Hn F. induction F as [|p ps [L _] F [IH1 IH2]]; [split; [apply chunks_nil | apply Z.mod_0_l; lia]|]. cbn [concat]. split.
  - rewrite chunks_app_full by (unfold zlen in L; lia). rewrite IH1. reflexivity.
  - rewrite zlen_app, L. rewrite <- Zplus_mod_idemp_l, Z_mod_same_full. exact IH2.
Qed.
Lemma app_same {A} (a b c d : list A) : length a = length c -> a ++ b = c ++ d -> a = c /\ b = d.
Proof. revert c; induction a as [|x a IH]; intros [|y c] L H; try discriminate L; [split; [reflexivity | exact H]|]. injection H as -> H. injection L as L. destruct (IH c L H) as [-> ->]. split; reflexivity. Qed.
Lemma firstn_block {A} (c r : list A) n k : length c = n -> firstn (n + k) (c ++ r) = c ++ firstn k r.
Proof. intros <-. apply firstn_app_2. Qed.

(** CBC: the first k blocks of two ciphertexts agree exactly if those of the messages do. *)
Lemma cbc_common n E : block_cipher n E -> forall k prev ps qs, is_block n prev -> Forall (is_block n) ps -> Forall (is_block n) qs -> (k <= length ps)%nat -> (k <= length qs)%nat ->
  (firstn (k * Z.to_nat n) (CBC E prev ps) = firstn (k * Z.to_nat n) (CBC E prev qs) <-> firstn k ps = firstn k qs).
Proof.
  intros (Hn & HL & HB & HI). induction k as [|k IH]; intros prev ps qs HP FP FQ KP KQ; [split; reflexivity|].
  destruct ps as [|p ps]; [cbn [length] in KP; lia|]. destruct qs as [|q qs]; [cbn [length] in KQ; lia|]. cbn [length] in KP, KQ. inversion FP as [|? ? Bp FP']. inversion FQ as [|? ? Bq FQ']. subst.
  assert (XB : forall b, is_block n b -> is_block n (xorl b prev)).
  { intros b [L B]. destruct HP as [LP BP]. split; [unfold zlen in *; rewrite xorl_length; lia | apply bytes_xorl; assumption]. }
  assert (EB : forall b, is_block n b -> is_block n (E b)) by (intros b B; split; [apply HL, B | apply HB, B]).
  pose proof (EB _ (XB p Bp)) as Cp. pose proof (EB _ (XB q Bq)) as Cq.
  assert (LC : forall b, is_block n b -> length b = Z.to_nat n) by (intros b [L _]; unfold zlen in L; lia).
  cbn [CBC firstn]. change (S k * Z.to_nat n)%nat with (Z.to_nat n + k * Z.to_nat n)%nat. rewrite !firstn_block by (apply LC; assumption). split.
  - intros H. apply app_same in H; [|rewrite !LC by assumption; reflexivity]. destruct H as [H1 H2]. apply HI in H1; [|apply XB; assumption..].
    assert (PQ : p = q) by (rewrite <- (xorl_cancel p prev), <- (xorl_cancel q prev), H1 by (rewrite !LC by assumption; lia); reflexivity). subst q.
    f_equal. apply (IH (E (xorl p prev))); try assumption; lia.
  - intros H. injection H as <- H. f_equal. apply (IH (E (xorl p prev))); try assumption; lia.
Qed.
Theorem C139_cbc : forall n E iv ps qs k, block_cipher n E -> is_block n iv -> Forall (is_block n) ps -> Forall (is_block n) qs -> (k <= length ps)%nat -> (k <= length qs)%nat ->
  exists c c', cbc_encrypt E n iv (concat ps) = Ok c /\ cbc_encrypt E n iv (concat qs) = Ok c' /\
    (firstn (k * Z.to_nat n) c = firstn (k * Z.to_nat n) c' <-> firstn k ps = firstn k qs).
Proof.
  intros n E iv ps qs k BC HV FP FQ KP KQ. pose proof BC as (Hn & HL & _). destruct (concat_chunks n ps Hn FP) as [CP MP]. destruct (concat_chunks n qs Hn FQ) as [CQ MQ].
  exists (CBC E iv ps), (CBC E iv qs). split; [rewrite C35_cbc_encrypt, CP by (assumption || apply HV); reflexivity|]. split; [rewrite C35_cbc_encrypt, CQ by (assumption || apply HV); reflexivity|].
  apply cbc_common; assumption.
Qed.
Print Assumptions C139_cbc.
(** ECB: any two blocks, at whatever places. *)
Theorem C139_ecb : forall n E ps i j, block_cipher n E -> Forall (is_block n) ps -> (i < length ps)%nat -> (j < length ps)%nat ->
  exists cs, ecb_crypt E n (concat ps) = Ok (concat cs) /\ length cs = length ps /\ (nth i cs [] = nth j cs [] <-> nth i ps [] = nth j ps []).
Proof.
  intros n E ps i j BC F I J. pose proof BC as (Hn & HL & HB & HI). destruct (concat_chunks n ps Hn F) as [CP MP]. destruct (whole_blocks (concat ps) n Hn MP) as (k & L & Lk).
  exists (map E ps). split; [|split; [apply map_length|]].
  - unfold ecb_crypt. rewrite MP. cbn [Z.eqb negb]. pose proof (blocks_loop_ok E n Hn HL k (length (concat ps)) [] (concat ps) L Lk) as B. cbn [app] in B. change (zlen []) with 0 in B. rewrite B, CP. reflexivity.
  - rewrite !(nth_indep (map E ps) [] (E [])) by (rewrite map_length; assumption). rewrite !map_nth. split; [|intros ->; reflexivity].
    apply HI; [exact (proj1 (Forall_forall _ _) F _ (nth_In _ _ I)) | exact (proj1 (Forall_forall _ _) F _ (nth_In _ _ J))].
Qed.
Print Assumptions C139_ecb.
(** The IV of a CBC object is never changed, so two messages that begin alike give ciphertexts that begin alike. *)
Theorem C139_shows_refuted : exists n E iv m m' c c', block_cipher n E /\ is_block n iv /\ m <> m' /\ cbc_encrypt E n iv m = Ok c /\ cbc_encrypt E n iv m' = Ok c' /\
  zlen m = 8 /\ zlen m' = 8 /\ firstn 4 c = firstn 4 c' /\ skipn 4 c <> skipn 4 c'.
Proof.
  exists 4, (@rev Z), [1; 2; 3; 4], [5; 6; 7; 8; 1; 1; 1; 1], [5; 6; 7; 8; 1; 1; 1; 2]. do 2 eexists. split.
  { split; [lia|]. split; [intros b L; unfold zlen in *; rewrite rev_length; exact L|]. split; [intros b [_ B]; apply Forall_rev, B|]. intros b c _ _ H. rewrite <- (rev_involutive b), H. apply rev_involutive. }
  split; [split; [reflexivity | repeat constructor; unfold byte; lia]|]. split; [discriminate|]. split; [vm_compute; reflexivity|]. split; [vm_compute; reflexivity|]. split; [reflexivity|]. split; [reflexivity|]. split; [reflexivity | discriminate].
Qed.
Print Assumptions C139_shows_refuted.

(** C35, sharper: whatever the cipher, CBC gives a message back only if the IV is zero. *)
Lemma xor_same : forall p iv, length p = length iv -> xorl p iv = p -> iv = repeat 0 (length iv).
Proof.
  induction p as [|x p IH]; intros [|y iv] L H; try discriminate L; [reflexivity|]. injection H as HX H. cbn [length repeat]. f_equal; [|apply IH; [injection L as L; exact L | exact H]].
  rewrite <- (Z.lxor_0_l y), <- (Z.lxor_nilpotent x), Z.lxor_assoc, HX. reflexivity.
Qed.
Theorem C35_cbc_zero_iv : forall E D n iv p ps, 0 < n -> (forall b, zlen b = n -> zlen (E b) = n /\ D (E b) = b) -> (forall b, zlen b = n -> zlen (D b) = n) -> zlen iv = n -> Forall (is_block n) (p :: ps) ->
  (do c <- cbc_encrypt E n iv (concat (p :: ps)); cbc_decrypt D n iv c) = Ok (concat (p :: ps)) -> iv = repeat 0 (Z.to_nat n).
Proof.
  intros E D n iv p ps Hn HE HD HV F H. destruct (concat_chunks n (p :: ps) Hn F) as [CP MP]. rewrite C35_cbc_encrypt, CP in H by (try assumption; intros b B; apply HE, B). cbn [bind] in H. rewrite C35_cbc_decrypt in H.
  inversion F as [|? ? [Lp _] F']. subst. set (c := E (xorl p iv)) in *.
  assert (LX : zlen (xorl p iv) = zlen iv) by (unfold zlen in *; rewrite xorl_length; lia). pose proof (HE _ LX) as [LC DC]. fold c in LC, DC.
  assert (LR : forall prev l, Forall (is_block (zlen iv)) l -> zlen prev = zlen iv -> length (CBC E prev l) = (length l * Z.to_nat (zlen iv))%nat).
  { intros prev l. revert prev. induction l as [|q l IH]; intros prev Fl Lprev; [reflexivity|]. inversion Fl as [|? ? [Lq _] Fl']. subst. cbn [CBC length]. assert (LQ : zlen (xorl q prev) = zlen iv) by (unfold zlen in *; rewrite xorl_length; lia).
    pose proof (HE _ LQ) as [LE _]. rewrite app_length, IH by assumption. unfold zlen in LE |- *. lia. }
  assert (LT : length (CBC E iv (p :: ps)) = (S (length ps) * Z.to_nat (zlen iv))%nat) by (apply LR; [exact F | reflexivity]).
  unfold ecb_crypt in H. destruct (zlen (CBC E iv (p :: ps)) mod zlen iv =? 0) eqn:M; cbn [negb] in H; [|discriminate H].
  pose proof (blocks_loop_ok D (zlen iv) Hn HD (S (length ps)) (length (CBC E iv (p :: ps))) [] (CBC E iv (p :: ps)) LT ltac:(rewrite LT; nia)) as B. cbn [app] in B. change (zlen []) with 0 in B. rewrite B in H.
  injection H as H. cbn [CBC] in H. fold c in H. rewrite chunks_app_full in H by (unfold zlen in *; lia). cbn [map concat] in H. rewrite DC in H.
  apply app_same in H; [|unfold zlen in *; lia]. destruct H as [H _]. replace (Z.to_nat (zlen iv)) with (length iv) by (unfold zlen; lia). apply (xor_same p); [unfold zlen in *; lia | exact H].
Qed.
Print Assumptions C35_cbc_zero_iv.
Example C139_case : block_cipher 4 (@rev Z) /\ is_block 4 [1; 2; 3; 4] /\ Forall (is_block 4) [[5; 6; 7; 8]; [1; 1; 1; 1]] /\
  (do c <- cbc_encrypt (@rev Z) 4 [0; 0; 0; 0] [5; 6; 7; 8]; cbc_decrypt (@rev Z) 4 [0; 0; 0; 0] c) = Ok [5; 6; 7; 8].
Proof.
  split; [split; [lia|]; split; [intros b L; unfold zlen in *; rewrite rev_length; exact L|]; split; [intros b [_ B]; apply Forall_rev, B|]; intros b c _ _ H; rewrite <- (rev_involutive b), H; apply rev_involutive|].
  split; [split; [reflexivity | repeat constructor; unfold byte; lia]|]. split; [repeat constructor; unfold byte; lia | vm_compute; reflexivity].
Qed.
