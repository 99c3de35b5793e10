(** Property C113: what encoding to and decoding from base64 show about the data. *)
From Coq Require Import String.
From Verif Require Import Base BaseP M_Base64 S_Base64 P_Base64 M_Hash M_HKDF M_Bignum M_Mont M_RSA M_Leak M_X509 S_X509 P_X509 P_Pem Prop_X509 M_LeakText.
Open Scope list_scope.
Open Scope Z_scope.

(** The observer: the table indices, in order. *)
Fixpoint indices (l : list event) : list Z :=
  match l with
  | [] => []
  | At i :: l' => i :: indices l'
  | _ :: l' => indices l'
  end.
Lemma indices_app a b : indices (a ++ b) = indices a ++ indices b.
Proof. induction a as [|[x|n x|i] a IH]; cbn [app indices]; [reflexivity | exact IH | exact IH | rewrite IH; reflexivity]. Qed.

(** ** The results are those of the other model *)
Lemma dec_step_value s v : snd (dec_step_t s v) = Ok (dec_step s v).
Proof. unfold dec_step_t, dec_step, tbind. cbn [emit snd fst]. cbv zeta. destruct (_ =? -1); [reflexivity|]. cbv zeta. destruct (negb _); reflexivity. Qed.
Lemma enc_step_value tbl nl s b : snd (enc_step_t tbl nl s b) = Ok (enc_step tbl nl s b).
Proof. unfold enc_step_t, enc_step, look_t, tbind. cbn [emit snd fst]. cbv zeta. destruct (_ =? 3); [|reflexivity]. cbn [snd]. destruct (_ =? 19); reflexivity. Qed.
Lemma fold_value {A} (step : A -> Z -> traced A) f : (forall s x, snd (step s x) = Ok (f s x)) -> forall l s, snd (fold_t step l s) = Ok (fold_left f l s).
Proof. intros H. induction l as [|x l IH]; intros s; [reflexivity|]. cbn [fold_t fold_left]. unfold tbind at 1. cbn [emit snd]. cbv zeta. cbn [snd]. unfold tbind. rewrite H. cbv zeta. cbn [snd]. apply IH. Qed.
Theorem C113_same_result : forall text data nl omit cs, snd (base64d_t text) = Ok (base64d text) /\ snd (base64_t data nl omit cs) = Ok (base64 data nl omit cs).
Proof.
  intros. split.
  - unfold base64d_t, base64d. unfold tbind at 1. rewrite (fold_value _ _ dec_step_value). cbv zeta. cbn [snd]. unfold tbind. cbn [emit snd]. cbv zeta. cbn [snd]. destruct (_ =? 2); [reflexivity|]. destruct (_ =? 3); reflexivity.
  - unfold base64_t, base64. cbv zeta. unfold tbind at 1. rewrite (fold_value _ _ (enc_step_value _ _)). cbn [snd]. unfold tbind at 1. cbn [emit snd]. destruct (_ =? 1); [reflexivity|]. destruct (_ =? 2); reflexivity.
Qed.
Print Assumptions C113_same_result.

(** ** Decoding: the indices are the text *)
Lemma dec_indices : forall l s, indices (fst (fold_t dec_step_t l s)) = l.
Proof.
  induction l as [|x l IH]; intros s; [reflexivity|]. cbn [fold_t]. unfold tbind at 1. cbn [emit snd fst]. unfold tbind. rewrite dec_step_value. cbv zeta. cbn [fst]. rewrite !indices_app, IH. cbn [indices app].
  unfold dec_step_t, tbind. cbn [emit snd fst]. cbv zeta. destruct (_ =? -1); [reflexivity|]. cbv zeta. destruct (negb _); reflexivity.
Qed.
Theorem C113_decode : forall text, indices (fst (base64d_t text)) = text.
Proof.
  intros text. unfold base64d_t. unfold tbind at 1. rewrite (fold_value _ _ dec_step_value). cbv zeta. cbn [fst]. rewrite indices_app, dec_indices. rewrite <- (app_nil_r text) at 4. f_equal.
  unfold tbind. cbn [emit snd fst]. cbv zeta. destruct (_ =? 2); [reflexivity|]. destruct (_ =? 3); reflexivity.
Qed.
Print Assumptions C113_decode.
(** Loading a private key from a PEM file shows the key file, whatever is written around the key. *)
Theorem C113_key_refuted : exists look : list event -> list Z, forall text body der after, ~ In 45 text -> bytes der -> wrapped body der -> zlen (text ++ pem "RSA PRIVATE KEY" body ++ after) < 2 ^ 63 ->
  let m := pem_decode_t BEGIN_KEY END_KEY (text ++ pem "RSA PRIVATE KEY" body ++ after) in snd m = Ok der /\ look (fst m) = der.
Proof.
  exists (fun l => base64d (indices l)). intros text body der after HT HD HW HL m. subst m. rewrite pem_key_block in *. destruct key_markers as [K1 K2].
  pose proof (pem_decode_ok _ _ text body der after K1 K2 HT HD HW HL) as P. unfold pem_decode_t, pem_decode in *. cbv zeta in *. unfold tbind. cbn [snd fst app]. destruct (substr _ _ _) as [t| | |]; try discriminate P. cbn [bind] in P. injection P as P.
  destruct (C113_same_result t [] false false PlusSlash) as [V _]. cbv zeta. cbn [snd fst]. rewrite C113_decode, V, P. split; reflexivity.
Qed.
Print Assumptions C113_key_refuted.

(** ** Encoding: the indices are the six bit groups of the data *)
Lemma land_dr x : 0 <= Z.land x 63 < 64. Proof. rewrite land63. apply Z.mod_pos_bound. lia. Qed.
Lemma digs_look cs l : Forall dr l -> digs (map (look (getLookupFor cs)) l) = l.
Proof. intros H. rewrite <- (digs_map_alpha cs l H) at 2. f_equal. apply map_ext_in. intros i Hi. apply look_alpha. rewrite Forall_forall in H. exact (H i Hi). Qed.
Lemma enc_indices cs nl : forall l s, digs (e_out (fold_left (enc_step (getLookupFor cs) nl) l s)) = digs (e_out s) ++ indices (fst (fold_t (enc_step_t (getLookupFor cs) nl) l s)).
Proof.
  induction l as [|x l IH]; intros s; [cbn; rewrite app_nil_r; reflexivity|]. cbn [fold_t fold_left]. unfold tbind at 1. cbn [emit snd fst]. unfold tbind. rewrite enc_step_value. cbv zeta. cbn [fst]. rewrite !indices_app, IH. change (indices [Loop true]) with (@nil Z). cbn [app]. rewrite app_assoc. f_equal.
  unfold enc_step, enc_step_t, look_t, tbind. cbn [emit snd fst]. cbv zeta. destruct (_ =? 3); [|cbn; rewrite app_nil_r; reflexivity]. cbn [snd fst].
  set (v := w32 _). assert (K : forall y, digs (e_out s ++ map (look (getLookupFor cs)) [Z.land (Z.shiftr v 18) 63; Z.land (Z.shiftr v 12) 63; Z.land (Z.shiftr v 6) 63; Z.land (Z.shiftr v 0) 63] ++ y) = digs (e_out s) ++ [Z.land (Z.shiftr v 18) 63; Z.land (Z.shiftr v 12) 63; Z.land (Z.shiftr v 6) 63; Z.land (Z.shiftr v 0) 63] ++ digs y).
  { intros y. rewrite !digs_app, digs_look by (repeat constructor; apply land_dr). reflexivity. }
  cbn [map] in K. clearbody v. pose proof (K []) as K0. rewrite app_nil_r in K0. destruct (_ =? 19); [destruct nl|]; cbn [e_out ret emit fst snd indices app].
  - rewrite <- app_assoc. rewrite (K [10]). reflexivity.
  - exact K0.
  - exact K0.
Qed.
Theorem C113_encode : forall data nl omit cs, bytes data -> indices (fst (base64_t data nl omit cs)) = digits data.
Proof.
  intros data nl omit cs HD. rewrite <- (digs_base64 data nl omit cs HD). unfold base64_t, base64. cbv zeta. unfold tbind at 1. rewrite (fold_value _ _ (enc_step_value _ _)). cbn [fst]. rewrite indices_app.
  pose proof (enc_indices cs nl data (mkE [] 0 0 0)) as E. cbn [e_out digs map filter app] in E. rewrite <- E. clear E. set (s := fold_left _ _ _). clearbody s.
  assert (NL : forall o, digs (if nl then o ++ [10] else o) = digs o) by (intros o; destruct nl; [rewrite digs_app; apply app_nil_r | reflexivity]).
  assert (K : forall is y, Forall dr is -> digs y = [] -> digs (e_out s ++ map (look (getLookupFor cs)) is ++ y) = digs (e_out s) ++ is) by (intros is y H0 H1; rewrite !digs_app, digs_look, H1, app_nil_r by exact H0; reflexivity).
  rewrite NL. unfold tbind, look_t. cbn [emit snd fst]. destruct (_ =? 1); [|destruct (_ =? 2)]; cbn [emit ret snd fst indices app].
  - rewrite <- (K [Z.land (Z.shiftr (e_value s) 2) 63; Z.land (w32 (Z.shiftl (e_value s) 4)) 63] (if omit then [] else [61; 61])); [reflexivity | repeat constructor; apply land_dr | destruct omit; reflexivity].
  - rewrite <- (K [Z.land (Z.shiftr (e_value s) 10) 63; Z.land (Z.shiftr (e_value s) 4) 63; Z.land (w32 (Z.shiftl (e_value s) 2)) 63] (if omit then [] else [61])); [reflexivity | repeat constructor; apply land_dr | destruct omit; reflexivity].
  - apply app_nil_r.
Qed.
Print Assumptions C113_encode.
Theorem C113_encode_refuted : exists look : list event -> list Z, forall data nl omit cs, bytes data -> look (fst (base64_t data nl omit cs)) = data.
Proof. exists (fun l => undigits (indices l)). intros data nl omit cs HD. rewrite C113_encode by exact HD. apply undigits_digits, HD. Qed.

(** ** An observer of cache lines *)
(** With the table at the start of a line of 64 bytes, the line of an index is all that is seen of
    it.  Of a text in the alphabet that is whether a character is a letter (or '_'). *)
Definition coarse (e : event) : event := match e with At i => At (i / 64) | _ => e end.
Definition letter (c : Z) : bool := 64 <=? c.
Fixpoint letters (l : list event) : list bool :=
  match l with
  | [] => []
  | At i :: l' => (i =? 1) :: letters l'
  | _ :: l' => letters l'
  end.
Lemma letters_indices l : letters (map coarse l) = map (fun i => i / 64 =? 1) (indices l).
Proof. induction l as [|[x|n x|i] l IH]; cbn [map coarse letters indices]; [reflexivity | exact IH | exact IH | rewrite IH; reflexivity]. Qed.
Lemma line_letter c : in_alphabet c = true -> c / 64 = Z.b2z (letter c) /\ (c / 64 =? 1) = letter c.
Proof.
  intros H. assert (0 <= c < 128) by (unfold in_alphabet in H; lia). unfold letter. destruct (64 <=? c) eqn:E; (assert (c / 64 = 1 \/ c / 64 = 0) as [R|R]; [lia|..]); rewrite R; split; try reflexivity; exfalso; pose proof (Z.div_mod c 64); pose proof (Z.mod_pos_bound c 64); lia.
Qed.
Lemma dec_coarse : forall l l', forallb in_alphabet l = true -> forallb in_alphabet l' = true -> map letter l = map letter l' -> forall s s', d_count s = d_count s' ->
  map coarse (fst (fold_t dec_step_t l s)) = map coarse (fst (fold_t dec_step_t l' s')) /\ d_count (fold_left dec_step l s) = d_count (fold_left dec_step l' s').
Proof.
  induction l as [|x l IH]; intros [|y l'] H H' E s s' C; try discriminate E; [split; [reflexivity | exact C]|]. cbn [forallb map] in *. apply andb_true_iff in H, H'. destruct H as [Hx H], H' as [Hy H']. injection E as Exy E.
  assert (K : map coarse (fst (dec_step_t s x)) = map coarse (fst (dec_step_t s' y)) /\ d_count (dec_step s x) = d_count (dec_step s' y)).
  { assert (Bx : byte x) by (unfold in_alphabet in Hx; unfold byte; lia). assert (By : byte y) by (unfold in_alphabet in Hy; unfold byte; lia).
    pose proof (dig_alphabet x Bx) as Dx. pose proof (dig_alphabet y By) as Dy. rewrite Hx in Dx. rewrite Hy in Dy. unfold dig in Dx, Dy. cbn [negb] in Dx, Dy.
    unfold dec_step_t, dec_step, tbind. cbn [emit snd fst]. cbv zeta. rewrite Dx, Dy, <- C. destruct (line_letter x Hx) as [Lx _], (line_letter y Hy) as [Ly _].
    destruct (negb _); cbn [fst ret app map coarse d_count]; rewrite Lx, Ly, Exy; split; reflexivity. }
  cbn [fold_t fold_left]. unfold tbind. cbn [emit snd fst]. rewrite !dec_step_value. cbv zeta. cbn [fst]. rewrite !map_app. destruct (IH l' H H' E _ _ (proj2 K)) as [I1 I2]. rewrite (proj1 K), I1. split; [reflexivity | exact I2].
Qed.
Theorem C113_cache_lines : forall text text', forallb in_alphabet text = true -> forallb in_alphabet text' = true ->
  (map coarse (fst (base64d_t text)) = map coarse (fst (base64d_t text')) <-> map letter text = map letter text').
Proof.
  intros t t' H H'. split; intros E.
  - apply (f_equal letters) in E. rewrite !letters_indices, !C113_decode in E. assert (K : forall l, forallb in_alphabet l = true -> map (fun i => i / 64 =? 1) l = map letter l).
    { intros l F. apply map_ext_in. intros c Hc. rewrite forallb_forall in F. apply line_letter, F, Hc. }
    rewrite !K in E by assumption. exact E.
  - destruct (dec_coarse t t' H H' E (mkD [] 0 0) (mkD [] 0 0) eq_refl) as [K1 K2]. unfold base64d_t, tbind. rewrite !(fold_value _ _ dec_step_value). cbn [emit snd fst].
    rewrite !map_app, K1. f_equal. rewrite K2. destruct (_ =? 2); [reflexivity|]. destruct (_ =? 3); reflexivity.
Qed.
Print Assumptions C113_cache_lines.

Example C113_case : indices (fst (base64d_t [81; 85; 74; 68])) = [81; 85; 74; 68] /\ base64d [81; 85; 74; 68] = [65; 66; 67] /\ indices (fst (base64_t [65; 66; 67] true false PlusSlash)) = [16; 20; 9; 3] /\
  map letter [81; 85; 74; 68] <> map letter [81; 85; 74; 48].
Proof. repeat split; try reflexivity. discriminate. Qed.
