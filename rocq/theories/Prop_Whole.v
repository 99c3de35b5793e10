(** Property C137: what of a long key goes into a MAC. *)
From Verif Require Import Base BaseP S_Hash M_Hash P_Hash S_HKDF M_HKDF P_HKDF.
Open Scope Z_scope.

Lemma resize_tail key tail n : 0 <= n <= zlen key -> resize (key ++ tail) n = resize key n.
Proof.
  intros H. unfold resize. assert (L : (Z.to_nat n <= length key)%nat) by (unfold zlen in H; lia). rewrite firstn_app. replace (Z.to_nat n - length key)%nat with O by lia.
  rewrite app_length. replace (Z.to_nat n - (length key + length tail))%nat with O by lia. cbn [firstn repeat]. rewrite !app_nil_r. reflexivity.
Qed.
(** What a key has beyond twice the size of the hash has no influence, on the MAC ... *)
Theorem C137_mac : forall a g text key tail, 2 * spec_size a <= zlen key -> HMAC a g text (key ++ tail) = HMAC a g text key.
Proof.
  intros a g text key tail H. unfold HMAC. rewrite resize_tail; [reflexivity|]. rewrite h_size_spec. destruct a; unfold spec_size in *; lia.
Qed.
(** ... and on the keys derived with a long salt ... *)
Theorem C137_extract : forall a g salt tail ikm, 2 * spec_size a <= zlen salt -> HKDF_Extract a g (salt ++ tail) ikm = HKDF_Extract a g salt ikm.
Proof. intros. apply C137_mac. assumption. Qed.
(** ... or from a long secret. *)
Theorem C137_expand : forall a g prk tail info len, 2 * spec_size a <= zlen prk -> HKDF_Expand a g (prk ++ tail) info len = HKDF_Expand a g prk info len.
Proof.
  intros a g prk tail info len H. unfold HKDF_Expand. f_equal. generalize (Z.to_nat len) as fuel. intros fuel. generalize 1 as n. generalize (@nil Z) at 2 4 as last. generalize (@nil Z) as buffer. revert g.
  induction fuel as [|f IH]; intros g buffer last n; cbn [expand_loop]; [reflexivity|]. destruct (zlen buffer <? len); [|reflexivity]. rewrite C137_mac by exact H.
  destruct (HMAC a g (last ++ info ++ [w8 n]) prk); cbn [bind]; [apply IH | reflexivity..].
Qed.
Print Assumptions C137_mac.
Print Assumptions C137_extract.
Print Assumptions C137_expand.

(** So there are different keys of one length with the same MAC for every text, with every hash; ... *)
Definition long_key (last : Z) : list Z := repeat 7 128 ++ [last].
Theorem C137_whole_key_refuted : exists key key', bytes key /\ bytes key' /\ length key = length key' /\ key <> key' /\
  forall a g text, HMAC a g text key = HMAC a g text key'.
Proof.
  exists (long_key 1), (long_key 2). unfold long_key. split; [|split; [|split; [reflexivity|split]]].
  1, 2: apply Forall_app; split; [apply Forall_forall; intros x X; apply repeat_spec in X; subst x; unfold byte; lia | repeat constructor; unfold byte; lia].
  - intros E. apply app_inv_head in E. discriminate E.
  - intros a g text. rewrite !C137_mac; [reflexivity|..]; destruct a; vm_compute; discriminate.
Qed.
Print Assumptions C137_whole_key_refuted.
(** ... with MD5 already for keys of 33 bytes, which by RFC 2104 go into the MAC unchanged. *)
Definition key33 (last : Z) : list Z := repeat 7 32 ++ [last].
Example C137_case : 2 * spec_size AMD5 <= zlen (repeat 7 32) /\ key33 1 <> key33 2 /\ (forall g text, HMAC AMD5 g text (key33 1) = HMAC AMD5 g text (key33 2)) /\
  hmac_alg AMD5 (key33 1) [] <> hmac_alg AMD5 (key33 2) [].
Proof.
  split; [vm_compute; discriminate|]. split; [discriminate|]. split; [|vm_compute; discriminate].
  intros g text. unfold key33. rewrite !C137_mac by (vm_compute; discriminate). reflexivity.
Qed.
