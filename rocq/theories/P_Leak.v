(** Proofs about M_Leak: its results are those of the other models, and comparison of two runs. *)
From Verif Require Import Base BaseP M_Bignum P_Bignum M_X25519 M_Mont M_RSA M_Leak.
Open Scope Z_scope.

(** ** The results are those of the models without a record *)
Lemma snd_tbind {A B} (m : traced A) (f : A -> traced B) : snd (tbind m f) = bind (snd m) (fun a => snd (f a)).
Proof. unfold tbind. destruct (snd m); reflexivity. Qed.
Lemma bind_ext {A B} (r : res A) (f f' : A -> res B) : (forall a, f a = f' a) -> bind r f = bind r f'.
Proof. intros H. destruct r; cbn [bind]; auto. Qed.

Lemma add_value : forall v rhs i t, snd (add_from_t i t v rhs) = Ok (add_from t v rhs).
Proof.
  induction v as [|x v IH]; intros [|y rhs] i t; try reflexivity. cbn [add_from_t]. cbv zeta. unfold emit, ret. repeat (rewrite snd_tbind; cbn [snd bind]). rewrite IH. cbn [bind].
  cbn [add_from]. cbv zeta. destruct (add_from _ v rhs). reflexivity.
Qed.
Lemma sub_value : forall v rhs i t, snd (sub_from_t i t v rhs) = Ok (sub_from t v rhs).
Proof.
  induction v as [|x v IH]; intros [|y rhs] i t; try reflexivity. cbn [sub_from_t]. cbv zeta. unfold choose, emit, ret. repeat (rewrite snd_tbind; cbn [snd bind]). rewrite IH. cbn [bind].
  cbn [sub_from]. cbv zeta. destruct (t =? 0); cbn [negb]; destruct (sub_from _ v rhs); reflexivity.
Qed.
Lemma add_t_value v rhs : snd (add_t v rhs) = Ok (add v rhs). Proof. apply add_value. Qed.
Lemma sub_t_value v rhs : snd (sub_t v rhs) = Ok (sub v rhs). Proof. apply sub_value. Qed.
Lemma init_words_value : forall l v, snd (init_words_t v l) = init_words v l.
Proof. induction l as [|x l IH]; intros v; [reflexivity|]. cbn [init_words_t init_words]. unfold emit. repeat (rewrite snd_tbind; cbn [snd bind]). unfold set_t at 1. cbn [snd]. apply bind_ext. intros a; apply IH. Qed.
Lemma of_list_t_value bits l : snd (of_list_t bits l) = of_list bits l. Proof. apply init_words_value. Qed.
Lemma convert_t_value K bits v : snd (convert_t K bits v) = Ok (convert K bits v).
Proof. unfold convert_t. destruct (K =? bits) eqn:E; [unfold convert; rewrite E; reflexivity | reflexivity]. Qed.
Lemma mul_rows_value : forall a b x i, snd (mul_rows_t i a b x) = mul_rows a b x.
Proof.
  induction a as [|y a IH]; intros b x i; [reflexivity|]. cbn [mul_rows_t mul_rows]. unfold emit. repeat (rewrite snd_tbind; cbn [snd bind]). cbn [snd]. apply bind_ext. intros [|lo x']; [reflexivity|].
  rewrite snd_tbind, IH. apply bind_ext. reflexivity.
Qed.
Lemma mul_t_value bits a b : snd (mul_t bits a b) = mul bits a b. Proof. apply mul_rows_value. Qed.
Lemma bit_t_value v n : snd (bit_t v n) = bit v n. Proof. unfold bit_t, bit. rewrite snd_tbind. reflexivity. Qed.
Lemma set_bit_t_value v n : snd (set_bit_t v n) = set_bit v n. Proof. unfold set_bit_t, set_bit. rewrite snd_tbind. reflexivity. Qed.
Lemma clear_bit_t_value v n : snd (clear_bit_t v n) = clear_bit v n. Proof. unfold clear_bit_t, clear_bit. rewrite snd_tbind. reflexivity. Qed.

Lemma ec_add_t_value a b : snd (ec_add_t a b) = ec_add a b.
Proof.
  unfold ec_add_t, ec_add. rewrite snd_tbind, add_t_value. cbn [bind]. destruct (add a b) as [o v]. cbn [fst snd]. rewrite snd_tbind. cbn [snd of_u32_t emit bind]. rewrite snd_tbind, add_t_value. cbn [bind].
  destruct (add v _) as [o2 v2]. cbn [fst snd]. rewrite snd_tbind. reflexivity.
Qed.
Lemma ec_mul32_t_value a b : snd (ec_mul32_t a b) = ec_mul32 a b.
Proof.
  unfold ec_mul32_t, ec_mul32. rewrite snd_tbind. cbn [mul32_t emit snd bind]. rewrite snd_tbind. cbn [get_t snd]. apply bind_ext. intros x8. cbv zeta. rewrite snd_tbind. cbn [slice_t snd]. apply bind_ext. intros lo.
  rewrite snd_tbind, of_list_t_value. apply bind_ext. intros hi. apply ec_add_t_value.
Qed.
Lemma ec_mul_t_value a b : snd (ec_mul_t a b) = ec_mul a b.
Proof.
  unfold ec_mul_t, ec_mul. rewrite snd_tbind, mul_t_value. apply bind_ext. intros x. rewrite snd_tbind. cbn [slice_t snd]. apply bind_ext. intros up. rewrite snd_tbind. cbn [slice_t snd]. apply bind_ext. intros lw.
  rewrite snd_tbind. cbn [mul32_t emit snd bind]. rewrite snd_tbind. cbn [slice_t snd]. apply bind_ext. intros ul. rewrite snd_tbind. cbn [get_t snd]. apply bind_ext. intros u8. rewrite snd_tbind, ec_add_t_value. apply bind_ext. intros s.
  rewrite snd_tbind. cbn [of_u32_t emit snd bind]. apply ec_add_t_value.
Qed.
Lemma ec_sub_t_value a b : snd (ec_sub_t a b) = Ok (ec_sub a b).
Proof.
  unfold ec_sub_t, ec_sub. rewrite snd_tbind, sub_t_value. cbn [bind]. destruct (sub a b) as [uf v]. cbv zeta. cbn [fst snd]. rewrite snd_tbind. cbn [choose emit snd bind]. rewrite snd_tbind, add_t_value. cbn [bind].
  destruct (add v _) as [o1 v2]. cbn [fst snd]. rewrite snd_tbind. cbn [and_also emit snd bind]. rewrite snd_tbind. cbn [choose emit snd bind]. rewrite snd_tbind, add_t_value. cbn [bind]. destruct (add v2 _) as [o2 v3]. cbn [fst snd].
  rewrite snd_tbind. cbn [and_also emit snd bind]. rewrite snd_tbind. cbn [and_also emit snd bind]. rewrite snd_tbind. cbn [choose emit snd bind]. rewrite snd_tbind, add_t_value. reflexivity.
Qed.
Lemma applyModulus_t_value v : snd (applyModulus_t v) = Ok (applyModulus v).
Proof.
  unfold applyModulus_t, applyModulus. rewrite snd_tbind, sub_t_value. cbn [bind]. destruct (sub v modulus) as [uf nv]. cbn [fst snd]. rewrite snd_tbind. cbn [choose emit snd bind]. rewrite snd_tbind, add_t_value. cbn [bind].
  destruct (add nv _) as [o nv2]. cbn [fst snd]. rewrite snd_tbind, sub_t_value. cbn [bind]. destruct (sub nv2 modulus) as [uf2 nv3]. cbn [fst snd]. rewrite snd_tbind. cbn [choose emit snd bind]. rewrite snd_tbind, add_t_value. cbn [bind].
  destruct (add nv3 _) as [o4 nv4]. reflexivity.
Qed.
Lemma normalize_t_value v : snd (normalize_t v) = normalize v.
Proof.
  unfold normalize_t, normalize. rewrite snd_tbind, clear_bit_t_value. apply bind_ext; intros ?. rewrite snd_tbind, clear_bit_t_value. apply bind_ext; intros ?. rewrite snd_tbind, clear_bit_t_value. apply bind_ext; intros ?.
  rewrite snd_tbind, set_bit_t_value. apply bind_ext; intros ?. apply clear_bit_t_value.
Qed.
Lemma squares_t_value : forall n v, snd (squares_t n v) = squares n v.
Proof. induction n as [|n IH]; intros v; [reflexivity|]. cbn [squares_t squares]. rewrite snd_tbind. unfold ec_square_t. rewrite ec_mul_t_value. apply bind_ext. exact IH. Qed.
Lemma ec_inverse_t_value z : snd (ec_inverse_t z) = M_X25519.inverse z.
Proof. unfold ec_inverse_t, M_X25519.inverse, ec_square_t. repeat (rewrite snd_tbind, ?ec_mul_t_value, ?squares_t_value; apply bind_ext; intros ?). apply ec_mul_t_value. Qed.
Lemma ladder_step_t_value k u t s : snd (ladder_step_t k u t s) = ladder_step k u t s.
Proof.
  destruct s as [[[[x2 z2] x3] z3] sw]. unfold ladder_step_t, ladder_step, ec_square_t. rewrite snd_tbind, bit_t_value. apply bind_ext. intros kt. cbv zeta. rewrite snd_tbind. cbn [ctime_swap_t emit snd bind].
  destruct (ctime_swap _ x2 x3) as [a b]. cbn [fst snd]. rewrite snd_tbind. cbn [ctime_swap_t emit snd bind]. destruct (ctime_swap _ z2 z3) as [c d]. cbn [fst snd].
  repeat (rewrite snd_tbind, ?ec_mul_t_value, ?ec_add_t_value, ?ec_mul32_t_value, ?ec_sub_t_value; (cbn [bind]; fail || (apply bind_ext; intros ?) || cbn [bind])). reflexivity.
Qed.
Lemma ladder_t_value : forall n k u s, snd (ladder_t n k u s) = ladder n k u s.
Proof. induction n as [|n IH]; intros k u s; [reflexivity|]. cbn [ladder_t ladder]. unfold emit. repeat (rewrite snd_tbind; cbn [snd bind]). rewrite ladder_step_t_value. apply bind_ext. intros s'. apply IH. Qed.
Theorem X25519_t_value k u : snd (X25519_t k u) = X25519 k u.
Proof.
  unfold X25519_t, X25519. rewrite snd_tbind, normalize_t_value. apply bind_ext; intros k'. rewrite snd_tbind, of_list_t_value. apply bind_ext; intros one. rewrite snd_tbind, of_list_t_value. apply bind_ext; intros nul.
  rewrite snd_tbind, ladder_t_value. apply bind_ext; intros [[[[x2 z2] x3] z3] sw]. rewrite snd_tbind. cbn [ctime_swap_t emit snd bind]. destruct (ctime_swap sw x2 x3) as [a b]. rewrite snd_tbind. cbn [ctime_swap_t emit snd bind].
  destruct (ctime_swap sw z2 z3) as [c d]. cbn [fst snd]. rewrite snd_tbind, ec_inverse_t_value. apply bind_ext; intros i. rewrite snd_tbind, ec_mul_t_value. apply bind_ext; intros rv. apply applyModulus_t_value.
Qed.
Lemma redc_t_value n N Ninv v : snd (redc_t n N Ninv v) = redc n N Ninv v.
Proof.
  unfold redc_t, redc. rewrite snd_tbind. cbn [slice_t snd]. apply bind_ext; intros v0. rewrite snd_tbind, mul_t_value. apply bind_ext; intros vn. rewrite snd_tbind. cbn [slice_t snd]. apply bind_ext; intros m.
  rewrite snd_tbind, mul_t_value. apply bind_ext; intros mn. rewrite snd_tbind, add_t_value. cbn [bind]. destruct (add v mn) as [c vm]. cbn [fst snd]. rewrite snd_tbind. cbn [slice_t snd]. apply bind_ext; intros t.
  rewrite snd_tbind, sub_t_value. reflexivity.
Qed.
Lemma mont_of_t_value n st x : snd (mont_of_t n st x) = mont_of n st x.
Proof. unfold mont_of_t, mont_of. rewrite snd_tbind, mul_t_value. apply bind_ext; intros. apply redc_t_value. Qed.
Lemma mont_mul_t_value n st x y : snd (mont_mul_t n st x y) = mont_mul n st x y.
Proof. unfold mont_mul_t, mont_mul. rewrite snd_tbind, mul_t_value. apply bind_ext; intros. apply redc_t_value. Qed.
Lemma mont_square_t_value n st x : snd (mont_square_t n st x) = mont_square n st x.
Proof. unfold mont_square_t, mont_square, square. rewrite snd_tbind, mul_t_value. apply bind_ext; intros. apply redc_t_value. Qed.
Lemma mont_out_t_value n st x : snd (mont_out_t n st x) = mont_out n st x.
Proof. unfold mont_out_t, mont_out. rewrite snd_tbind, convert_t_value. apply redc_t_value. Qed.
Lemma exp_loop_t_value : forall count i n st e v b one, snd (exp_loop_t count i n st e v b one) = exp_loop count i n st e v b one.
Proof.
  induction count as [|count IH]; intros i n st e v b one; [reflexivity|]. cbn [exp_loop_t exp_loop]. unfold emit. repeat (rewrite snd_tbind; cbn [snd bind]). rewrite bit_t_value. apply bind_ext; intros x.
  rewrite snd_tbind. cbn [choose emit snd bind]. rewrite snd_tbind, mont_mul_t_value. replace (if negb (x =? 0) then b else one) with (if x =? 0 then one else b) by (destruct (x =? 0); reflexivity). apply bind_ext; intros v'.
  rewrite snd_tbind, mont_square_t_value. apply bind_ext; intros b'. apply IH.
Qed.
Lemma mont_exp_t_value n st x e : snd (mont_exp_t n st x e) = mont_exp n st x e.
Proof. unfold mont_exp_t, mont_exp. rewrite snd_tbind. cbn [of_u32_t emit snd bind]. rewrite snd_tbind, mont_of_t_value. apply bind_ext; intros one. apply exp_loop_t_value. Qed.
Theorem rsadp_t_value n k m : snd (rsadp_t n k m) = rsadp n k m.
Proof. unfold rsadp_t, rsadp. rewrite snd_tbind, mont_of_t_value. apply bind_ext; intros v. rewrite snd_tbind, mont_exp_t_value. apply bind_ext; intros r. apply mont_out_t_value. Qed.

(** ** Comparing two runs *)
(** Both runs succeed, show the observer the same, and their results are related by [Q]. *)
Definition alike {A} (ob : event -> bool) (m m' : traced A) (Q : A -> A -> Prop) : Prop :=
  filter ob (fst m) = filter ob (fst m') /\ exists a a', snd m = Ok a /\ snd m' = Ok a' /\ Q a a'.
Lemma alike_bind {A B} ob (m m' : traced A) (f f' : A -> traced B) P Q :
  alike ob m m' P -> (forall a a', P a a' -> alike ob (f a) (f' a') Q) -> alike ob (tbind m f) (tbind m' f') Q.
Proof.
  intros (T & a & a' & E & E' & HP) H. destruct (H a a' HP) as (T2 & b & b' & F & F' & HQ). unfold alike, tbind. rewrite E, E'. cbn [fst snd]. rewrite !filter_app, T, T2. split; [reflexivity|]. exists b, b'. auto.
Qed.
Lemma alike_emit {A} ob es (a a' : A) (Q : A -> A -> Prop) : Q a a' -> alike ob (emit es a) (emit es a') Q.
Proof. intros H. split; [reflexivity|]. exists a, a'. cbn [emit snd]. auto. Qed.
Lemma alike_ret {A} ob (a a' : A) (Q : A -> A -> Prop) : Q a a' -> alike ob (ret a) (ret a') Q.
Proof. apply (alike_emit ob []). Qed.
Lemma alike_weaken {A} ob (m m' : traced A) (P Q : A -> A -> Prop) : alike ob m m' P -> (forall a a', P a a' -> Q a a') -> alike ob m m' Q.
Proof. intros (T & a & a' & E & E' & HP) H. split; [exact T|]. exists a, a'. auto. Qed.
Definition blind (ob : event -> bool) : Prop := forall line b, ob (Choose line b) = false.
Lemma alike_choose {A} ob line b b' (x y x' y' : A) (Q : A -> A -> Prop) : blind ob -> Q x x' -> Q x y' -> Q y x' -> Q y y' -> alike ob (choose line b x y) (choose line b' x' y') Q.
Proof. intros HO H1 H2 H3 H4. split; [cbn [choose emit fst filter]; rewrite !HO; reflexivity|]. eexists _, _. split; [reflexivity|]. split; [reflexivity|]. destruct b, b'; assumption. Qed.
Lemma alike_and ob line b b' c c' : blind ob -> alike ob (and_also line b c) (and_also line b' c') (fun _ _ => True).
Proof. intros HO. split; [cbn [and_also emit fst filter]; rewrite !HO; reflexivity|]. eexists _, _. repeat split. Qed.
(** Numbers of [n] words. *)
Definition wide (n : nat) (a a' : list Z) : Prop := length a = n /\ length a' = n.
Definition free {A} (a a' : A) : Prop := True.
Definition pair_wide (n : nat) (a a' : bool * list Z) : Prop := wide n (snd a) (snd a').

Lemma get_ok (v : list Z) i : 0 <= i < zlen v -> exists x, getz v i = Ok x.
Proof.
  intros H. unfold getz. replace (0 <=? i) with true by lia. destruct (nth_error v (Z.to_nat i)) as [x|] eqn:E; [exists x; reflexivity|]. apply nth_error_None in E. unfold zlen in H. lia.
Qed.
Lemma set_ok (v : list Z) i x : 0 <= i < zlen v -> exists r, setz v i x = Ok r /\ length r = length v.
Proof.
  intros H. unfold setz. replace ((0 <=? i) && (i <? zlen v)) with true by lia. eexists. split; [reflexivity|]. unfold upd, zlen in *. rewrite app_length, firstn_length.
  destruct (skipn (Z.to_nat i) v) as [|y t] eqn:E; pose proof (skipn_length (Z.to_nat i) v) as L; rewrite E in L; cbn [length] in *; lia.
Qed.
Section Runs.
  Context (ob : event -> bool).
  Lemma get_alike n v v' i : wide n v v' -> 0 <= i < Z.of_nat n -> alike ob (get_t v i) (get_t v' i) free.
  Proof.
    intros [L L'] H. split; [reflexivity|]. destruct (get_ok v i) as [x E]; [unfold zlen; lia|]. destruct (get_ok v' i) as [x' E']; [unfold zlen; lia|]. exists x, x'. repeat split; assumption.
  Qed.
  Lemma set_alike n v v' i x x' : wide n v v' -> 0 <= i < Z.of_nat n -> alike ob (set_t v i x) (set_t v' i x') (wide n).
  Proof.
    intros [L L'] H. split; [reflexivity|]. destruct (set_ok v i x) as (r & E & F); [unfold zlen; lia|]. destruct (set_ok v' i x') as (r' & E' & F'); [unfold zlen; lia|]. exists r, r'. unfold wide. repeat split; (assumption || lia).
  Qed.
  Lemma bit_alike n v v' i : wide n v v' -> 0 <= i < 32 * Z.of_nat n -> alike ob (bit_t v i) (bit_t v' i) free.
  Proof. intros H R. apply (alike_bind _ _ _ _ _ free); [apply (get_alike n); [exact H|]; split; [apply Z.div_pos; lia | apply Z.div_lt_upper_bound; lia]|]. intros a a' _. apply alike_ret. exact I. Qed.
  Lemma set_bit_alike n v v' i : wide n v v' -> 0 <= i < 32 * Z.of_nat n -> alike ob (set_bit_t v i) (set_bit_t v' i) (wide n).
  Proof. intros H R. assert (Q : 0 <= i / 32 < Z.of_nat n) by (split; [apply Z.div_pos; lia | apply Z.div_lt_upper_bound; lia]). apply (alike_bind _ _ _ _ _ free); [apply (get_alike n); assumption|]. intros a a' _. apply set_alike; assumption. Qed.
  Lemma clear_bit_alike n v v' i : wide n v v' -> 0 <= i < 32 * Z.of_nat n -> alike ob (clear_bit_t v i) (clear_bit_t v' i) (wide n).
  Proof. intros H R. assert (Q : 0 <= i / 32 < Z.of_nat n) by (split; [apply Z.div_pos; lia | apply Z.div_lt_upper_bound; lia]). apply (alike_bind _ _ _ _ _ free); [apply (get_alike n); assumption|]. intros a a' _. apply set_alike; assumption. Qed.
  Lemma of_u32_length bits x : 0 < bits -> length (of_u32 bits x) = Z.to_nat (nwords bits).
  Proof.
    intros H. unfold of_u32, zero_words, upd. set (k := Z.to_nat (nwords bits)). assert (0 < k)%nat by (unfold k, nwords; assert (1 <= (bits + 31) / 32) by (apply Z.div_le_lower_bound; lia); lia).
    destruct k as [|k]; [lia|]. cbn [repeat firstn skipn app length]. rewrite repeat_length. reflexivity.
  Qed.
  Lemma of_u32_alike bits x x' : 0 < bits -> alike ob (of_u32_t bits x) (of_u32_t bits x') (wide (Z.to_nat (nwords bits))).
  Proof. intros H. apply alike_emit. split; apply of_u32_length; exact H. Qed.
  Lemma init_alike : forall l l' v v' n, length l = length l' -> (length l <= n)%nat -> wide n v v' -> alike ob (init_words_t v l) (init_words_t v' l') (wide n).
  Proof.
    induction l as [|x l IH]; intros [|x' l'] v v' n LL LN W; try discriminate LL; cbn [init_words_t]; [apply alike_emit; exact W|]. cbn [length] in *.
    apply (alike_bind _ _ _ _ _ free); [apply alike_emit; exact I|]. intros _ _ _. replace (zlen l') with (zlen l) by (unfold zlen; lia).
    apply (alike_bind _ _ _ _ _ (wide n)); [apply set_alike; [exact W | unfold zlen; lia]|]. intros a a' H. apply IH; [lia | lia | exact H].
  Qed.
  Lemma of_list_alike bits l l' : length l = length l' -> Z.of_nat (length l) <= nwords bits -> alike ob (of_list_t bits l) (of_list_t bits l') (wide (Z.to_nat (nwords bits))).
  Proof. intros L B. apply init_alike; [exact L | lia | split; apply repeat_length]. Qed.
  Lemma convert_length K bits v : 0 <= K -> 0 <= bits -> length v = Z.to_nat (nwords K) -> length (convert K bits v) = Z.to_nat (nwords bits).
  Proof.
    intros HK HB L. unfold convert. destruct (Z.eqb_spec K bits); [subst; exact L|]. rewrite app_length, repeat_length, firstn_length, L. assert (Z.min K bits / 32 <= nwords K) by (unfold nwords; apply Z.div_le_mono; lia). assert (Z.min K bits / 32 <= nwords bits) by (unfold nwords; apply Z.div_le_mono; lia). lia.
  Qed.
  Lemma convert_alike K bits v v' : 0 <= K -> 0 <= bits -> wide (Z.to_nat (nwords K)) v v' -> alike ob (convert_t K bits v) (convert_t K bits v') (wide (Z.to_nat (nwords bits))).
  Proof.
    intros HK HB [L L']. pose proof (convert_length K bits v HK HB L) as C. pose proof (convert_length K bits v' HK HB L') as C'. unfold convert_t. destruct (Z.eqb_spec K bits) as [->|]; [apply alike_ret; split; assumption | apply alike_emit; split; assumption].
  Qed.
  Lemma slice_alike n K start v v' : wide n v v' -> 0 <= start -> 0 <= K -> start / 32 + nwords K <= Z.of_nat n -> alike ob (slice_t K start v) (slice_t K start v') (wide (Z.to_nat (nwords K))).
  Proof.
    intros [L L'] HS HK B. split; [reflexivity|]. assert (0 <= start / 32) by (apply Z.div_pos; lia). assert (0 <= nwords K) by (unfold nwords; apply Z.div_pos; lia). cbn [slice_t snd]. unfold slice_, slice.
    replace (_ && _ && (_ <=? zlen v)) with true by (unfold zlen; lia). replace (_ && _ && (_ <=? zlen v')) with true by (unfold zlen; lia). eexists _, _. split; [reflexivity|]. split; [reflexivity|].
    split; rewrite firstn_length, skipn_length; lia.
  Qed.
  Lemma add_alike : forall n v v' r r' i t t', wide n v v' -> wide n r r' -> alike ob (add_from_t i t v r) (add_from_t i t' v' r') (pair_wide n).
  Proof.
    induction n as [|n IH]; intros v v' r r' i t t' [L1 L2] [L3 L4]; destruct v as [|x v], v' as [|x' v'], r as [|y r], r' as [|y' r']; try discriminate; cbn [add_from_t length] in *; [apply alike_emit; split; reflexivity|].
    apply (alike_bind _ _ _ _ _ free); [apply alike_emit; exact I|]. intros _ _ _. cbv zeta. apply (alike_bind _ _ _ _ _ (pair_wide n)); [apply IH; split; lia|]. intros a a' [H1 H2]. apply alike_ret. split; cbn [snd length]; lia.
  Qed.
  Lemma add_t_alike n v v' r r' : wide n v v' -> wide n r r' -> alike ob (add_t v r) (add_t v' r') (pair_wide n).
  Proof. apply add_alike. Qed.
  Lemma mul32_length : forall a t b, length (mul32_from t a b) = S (length a).
  Proof. induction a as [|x a IH]; intros t b; [reflexivity|]. cbn [mul32_from]. cbv zeta. cbn [length]. rewrite IH. reflexivity. Qed.
  Lemma mul32_alike n a a' b b' : wide n a a' -> alike ob (mul32_t a b) (mul32_t a' b') (wide (S n)).
  Proof. intros [L L']. unfold mul32_t, zlen. rewrite L, L'. apply alike_emit. unfold mul32. split; rewrite mul32_length; lia. Qed.
  Lemma mul_row_length : forall b x ai t, (length b < length x)%nat -> exists r, mul_row ai b x t = Ok r /\ length r = length x.
  Proof.
    induction b as [|y b IH]; intros [|z x] ai t L; cbn [length] in L; try lia; cbn [mul_row]; [eexists; split; reflexivity|]. cbv zeta. destruct (IH x ai (Z.shiftr (w64 (t + w64 (w64 (ai * y) + z))) 32) ltac:(lia)) as (r & -> & E). cbn [bind]. eexists. split; [reflexivity|]. cbn [length]. lia.
  Qed.
  Lemma mul_rows_alike : forall n m a a' b b' x x' i, wide n a a' -> wide m b b' -> wide (n + m) x x' -> alike ob (mul_rows_t i a b x) (mul_rows_t i a' b' x') (wide (n + m)).
  Proof.
    induction n as [|n IH]; intros m a a' b b' x x' i [L1 L2] [L3 L4] [L5 L6]; destruct a as [|y a], a' as [|y' a']; try discriminate; cbn [mul_rows_t length] in *; [apply alike_emit; split; assumption|].
    apply (alike_bind _ _ _ _ _ free); [apply alike_emit; exact I|]. intros _ _ _. rewrite L3, L4. apply (alike_bind _ _ _ _ _ (wide (S n + m))).
    - split; [reflexivity|]. destruct (mul_row_length b x y 0 ltac:(lia)) as (r & E & F). destruct (mul_row_length b' x' y' 0 ltac:(lia)) as (r' & E' & F'). exists r, r'. cbn [snd]. unfold wide. repeat split; (assumption || lia).
    - intros [|lo r] [|lo' r'] [H1 H2]; try discriminate. cbn [length] in *. apply (alike_bind _ _ _ _ _ (wide (n + m))); [apply IH; split; lia|]. intros q q' [Q1 Q2]. apply alike_ret. split; cbn [length]; lia.
  Qed.
  Lemma mul_alike n a a' b b' : wide n a a' -> wide n b b' -> alike ob (mul_t (bits_of n) a b) (mul_t (bits_of n) a' b') (wide (n + n)).
  Proof.
    intros H1 H2. apply mul_rows_alike; [exact H1 | exact H2|]. unfold zero_words, nwords. split; rewrite repeat_length; replace (2 * bits_of n + 31) with (31 + (Z.of_nat (n + n)) * 32) by lia; rewrite Z.div_add, (Z.div_small 31 32) by lia; lia.
  Qed.
  Lemma map2_length {A B C} (f : A -> B -> C) : forall a b, length a = length b -> length (map2 f a b) = length a.
  Proof. induction a as [|x a IH]; intros [|y b] L; try discriminate L; [reflexivity|]. cbn [map2 length] in *. f_equal. apply IH. lia. Qed.
  Lemma ctime_swap_alike n d d' a a' b b' : wide n a a' -> wide n b b' -> alike ob (ctime_swap_t d a b) (ctime_swap_t d' a' b') (fun p p' => wide n (fst p) (fst p') /\ wide n (snd p) (snd p')).
  Proof.
    intros [L1 L2] [L3 L4]. unfold ctime_swap_t. rewrite L1, L2. apply alike_emit. unfold ctime_swap, xor_, and_, wide. cbn [fst snd].
    repeat split; repeat (rewrite map2_length || rewrite map_length); lia.
  Qed.

  (** *** x25519.h *)
  Lemma ec_add_alike a a' b b' : wide 8 a a' -> wide 8 b b' -> alike ob (ec_add_t a b) (ec_add_t a' b') (wide 8).
  Proof.
    intros H1 H2. apply (alike_bind _ _ _ _ _ (pair_wide 8)); [apply add_t_alike; assumption|]. intros r r' R. apply (alike_bind _ _ _ _ _ (wide 8)); [apply (of_u32_alike 256); lia|]. intros o o' O.
    apply (alike_bind _ _ _ _ _ (pair_wide 8)); [apply add_t_alike; assumption|]. intros q q' Q. apply (alike_bind _ _ _ _ _ free); [apply (get_alike 8); [exact Q | lia]|]. intros w w' _. apply set_alike; [exact Q | lia].
  Qed.
  Lemma ec_mul32_alike a a' b b' : wide 8 a a' -> alike ob (ec_mul32_t a b) (ec_mul32_t a' b') (wide 8).
  Proof.
    intros H. apply (alike_bind _ _ _ _ _ (wide 9)); [apply mul32_alike; exact H|]. intros x x' X. apply (alike_bind _ _ _ _ _ free); [apply (get_alike 9); [exact X | lia]|]. intros y y' _. cbv zeta.
    apply (alike_bind _ _ _ _ _ (wide 8)); [apply (slice_alike 9 256); [exact X | lia | lia | vm_compute; discriminate]|]. intros lo lo' LO.
    apply (alike_bind _ _ _ _ _ (wide 8)); [apply (of_list_alike 256); [reflexivity | vm_compute; discriminate]|]. intros hi hi' HI. apply ec_add_alike; assumption.
  Qed.
  Lemma ec_mul_alike a a' b b' : wide 8 a a' -> wide 8 b b' -> alike ob (ec_mul_t a b) (ec_mul_t a' b') (wide 8).
  Proof.
    intros H1 H2. apply (alike_bind _ _ _ _ _ (wide 16)); [apply (mul_alike 8); assumption|]. intros x x' X.
    apply (alike_bind _ _ _ _ _ (wide 8)); [apply (slice_alike 16 256); [exact X | lia | lia | vm_compute; discriminate]|]. intros up up' UP.
    apply (alike_bind _ _ _ _ _ (wide 8)); [apply (slice_alike 16 256); [exact X | lia | lia | vm_compute; discriminate]|]. intros lw lw' LW.
    apply (alike_bind _ _ _ _ _ (wide 9)); [apply mul32_alike; exact UP|]. intros u u' U. apply (alike_bind _ _ _ _ _ (wide 8)); [apply (slice_alike 9 256); [exact U | lia | lia | vm_compute; discriminate]|]. intros ul ul' UL.
    apply (alike_bind _ _ _ _ _ free); [apply (get_alike 9); [exact U | lia]|]. intros y y' _. apply (alike_bind _ _ _ _ _ (wide 8)); [apply ec_add_alike; assumption|]. intros s s' HS.
    apply (alike_bind _ _ _ _ _ (wide 8)); [apply (of_u32_alike 256); lia|]. intros o o' O. apply ec_add_alike; assumption.
  Qed.
  Lemma normalize_alike v v' : wide 8 v v' -> alike ob (normalize_t v) (normalize_t v') (wide 8).
  Proof.
    intros H. unfold normalize_t. apply (alike_bind _ _ _ _ _ (wide 8)); [apply clear_bit_alike; [exact H | lia]|]. clear H. intros ? ? H. apply (alike_bind _ _ _ _ _ (wide 8)); [apply clear_bit_alike; [exact H | lia]|]. clear H. intros ? ? H.
    apply (alike_bind _ _ _ _ _ (wide 8)); [apply clear_bit_alike; [exact H | lia]|]. clear H. intros ? ? H. apply (alike_bind _ _ _ _ _ (wide 8)); [apply set_bit_alike; [exact H | lia]|]. clear H. intros ? ? H. apply clear_bit_alike; [exact H | lia].
  Qed.
  Lemma squares_alike : forall n v v', wide 8 v v' -> alike ob (squares_t n v) (squares_t n v') (wide 8).
  Proof. induction n as [|n IH]; intros v v' H; [apply alike_ret; exact H|]. cbn [squares_t]. apply (alike_bind _ _ _ _ _ (wide 8)); [apply ec_mul_alike; exact H|]. exact IH. Qed.
  Lemma ec_inverse_alike z z' : wide 8 z z' -> alike ob (ec_inverse_t z) (ec_inverse_t z') (wide 8).
  Proof.
    intros H. unfold ec_inverse_t, ec_square_t. repeat (apply (alike_bind _ _ _ _ _ (wide 8)); [first [apply ec_mul_alike | apply squares_alike]; assumption | intros ? ? ?]). apply ec_mul_alike; assumption.
  Qed.
  (** With choices hidden. *)
  Context (HB : blind ob).
  Lemma sub_alike : forall n v v' r r' i t t', wide n v v' -> wide n r r' -> alike ob (sub_from_t i t v r) (sub_from_t i t' v' r') (pair_wide n).
  Proof.
    induction n as [|n IH]; intros v v' r r' i t t' [L1 L2] [L3 L4]; destruct v as [|x v], v' as [|x' v'], r as [|y r], r' as [|y' r']; try discriminate; cbn [sub_from_t length] in *; [apply alike_emit; split; reflexivity|].
    apply (alike_bind _ _ _ _ _ free); [apply alike_emit; exact I|]. intros _ _ _. apply (alike_bind _ _ _ _ _ free); [apply alike_choose; (assumption || exact I)|]. intros bo bo' _. apply (alike_bind _ _ _ _ _ free); [apply alike_emit; exact I|]. intros _ _ _.
    cbv zeta. apply (alike_bind _ _ _ _ _ (pair_wide n)); [apply IH; split; lia|]. intros a a' [H1 H2]. apply alike_ret. split; cbn [snd length]; lia.
  Qed.
  Lemma sub_t_alike n v v' r r' : wide n v v' -> wide n r r' -> alike ob (sub_t v r) (sub_t v' r') (pair_wide n).
  Proof. apply sub_alike. Qed.
  Lemma pick_alike line b b' : alike ob (choose line b modulus zero) (choose line b' modulus zero) (wide 8).
  Proof. apply alike_choose; [exact HB | split; reflexivity..]. Qed.
  Lemma ec_sub_alike a a' b b' : wide 8 a a' -> wide 8 b b' -> alike ob (ec_sub_t a b) (ec_sub_t a' b') (wide 8).
  Proof.
    intros H1 H2. apply (alike_bind _ _ _ _ _ (pair_wide 8)); [apply sub_t_alike; assumption|]. intros r r' R. cbv zeta. apply (alike_bind _ _ _ _ _ (wide 8)); [apply pick_alike|]. intros m m' M.
    apply (alike_bind _ _ _ _ _ (pair_wide 8)); [apply add_t_alike; assumption|]. intros r1 r1' R1. apply (alike_bind _ _ _ _ _ free); [apply alike_and; exact HB|]. intros c c' _. apply (alike_bind _ _ _ _ _ (wide 8)); [apply pick_alike|]. intros m2 m2' M2.
    apply (alike_bind _ _ _ _ _ (pair_wide 8)); [apply add_t_alike; assumption|]. intros r2 r2' R2. apply (alike_bind _ _ _ _ _ free); [apply alike_and; exact HB|]. intros c3 c3' _. apply (alike_bind _ _ _ _ _ free); [apply alike_and; exact HB|]. intros c4 c4' _.
    apply (alike_bind _ _ _ _ _ (wide 8)); [apply pick_alike|]. intros m3 m3' M3. apply (alike_bind _ _ _ _ _ (pair_wide 8)); [apply add_t_alike; assumption|]. intros r3 r3' R3. apply alike_ret. exact R3.
  Qed.
  Lemma applyModulus_alike v v' : wide 8 v v' -> alike ob (applyModulus_t v) (applyModulus_t v') (wide 8).
  Proof.
    intros H. assert (M : wide 8 modulus modulus) by (split; reflexivity). apply (alike_bind _ _ _ _ _ (pair_wide 8)); [apply sub_t_alike; assumption|]. intros r r' R. apply (alike_bind _ _ _ _ _ (wide 8)); [apply pick_alike|]. intros m m' M1.
    apply (alike_bind _ _ _ _ _ (pair_wide 8)); [apply add_t_alike; assumption|]. intros r2 r2' R2. apply (alike_bind _ _ _ _ _ (pair_wide 8)); [apply sub_t_alike; assumption|]. intros r3 r3' R3. apply (alike_bind _ _ _ _ _ (wide 8)); [apply pick_alike|]. intros m2 m2' M2.
    apply (alike_bind _ _ _ _ _ (pair_wide 8)); [apply add_t_alike; assumption|]. intros r4 r4' R4. apply alike_ret. exact R4.
  Qed.
  Definition wide_state (s s' : state) : Prop :=
    let '(x2, z2, x3, z3, _) := s in let '(x2', z2', x3', z3', _) := s' in wide 8 x2 x2' /\ wide 8 z2 z2' /\ wide 8 x3 x3' /\ wide 8 z3 z3'.
  Lemma ladder_step_alike k k' u u' t s s' : wide 8 k k' -> wide 8 u u' -> 0 <= t < 256 -> wide_state s s' -> alike ob (ladder_step_t k u t s) (ladder_step_t k' u' t s') wide_state.
  Proof.
    destruct s as [[[[x2 z2] x3] z3] sw], s' as [[[[x2' z2'] x3'] z3'] sw']. intros HK HU HT (W1 & W2 & W3 & W4). unfold ladder_step_t. apply (alike_bind _ _ _ _ _ free); [apply (bit_alike 8); [exact HK | lia]|]. intros b b' _. cbv zeta.
    apply (alike_bind _ _ _ _ _ (fun p p' => wide 8 (fst p) (fst p') /\ wide 8 (snd p) (snd p'))); [apply ctime_swap_alike; assumption|]. intros x x' [X1 X2].
    apply (alike_bind _ _ _ _ _ (fun p p' => wide 8 (fst p) (fst p') /\ wide 8 (snd p) (snd p'))); [apply ctime_swap_alike; assumption|]. intros z z' [Z1 Z2]. unfold ec_square_t.
    repeat (apply (alike_bind _ _ _ _ _ (wide 8)); [first [apply ec_mul_alike; assumption | apply ec_add_alike; assumption | apply ec_sub_alike; assumption | apply ec_mul32_alike; assumption] | intros ? ? ?]).
    apply alike_ret. repeat split; match goal with H : wide _ ?a ?b |- length ?a = _ => apply H | H : wide _ ?a ?b |- length ?b = _ => apply H end.
  Qed.
  Lemma ladder_alike : forall n k k' u u' s s', (n <= 256)%nat -> wide 8 k k' -> wide 8 u u' -> wide_state s s' -> alike ob (ladder_t n k u s) (ladder_t n k' u' s') wide_state.
  Proof.
    induction n as [|n IH]; intros k k' u u' s s' HN HK HU HS; cbn [ladder_t]; [apply alike_emit; exact HS|]. apply (alike_bind _ _ _ _ _ free); [apply alike_emit; exact I|]. intros _ _ _.
    apply (alike_bind _ _ _ _ _ wide_state); [apply ladder_step_alike; (assumption || lia)|]. intros q q' Q. apply IH; (assumption || lia).
  Qed.
  Lemma X25519_alike k k' u u' : wide 8 k k' -> wide 8 u u' -> alike ob (X25519_t k u) (X25519_t k' u') (wide 8).
  Proof.
    intros HK HU. unfold X25519_t. apply (alike_bind _ _ _ _ _ (wide 8)); [apply normalize_alike; exact HK|]. intros q q' Q. apply (alike_bind _ _ _ _ _ (wide 8)); [apply (of_list_alike 256); [reflexivity | vm_compute; discriminate]|]. intros one one' O1.
    apply (alike_bind _ _ _ _ _ (wide 8)); [apply (of_list_alike 256); [reflexivity | vm_compute; discriminate]|]. intros nul nul' O2. apply (alike_bind _ _ _ _ _ wide_state); [apply ladder_alike; try assumption; [lia | repeat split; first [apply O1 | apply O2 | apply HU]]|].
    intros [[[[x2 z2] x3] z3] sw] [[[[x2' z2'] x3'] z3'] sw'] (W1 & W2 & W3 & W4).
    apply (alike_bind _ _ _ _ _ (fun p p' => wide 8 (fst p) (fst p') /\ wide 8 (snd p) (snd p'))); [apply ctime_swap_alike; assumption|]. intros x x' [X1 X2].
    apply (alike_bind _ _ _ _ _ (fun p p' => wide 8 (fst p) (fst p') /\ wide 8 (snd p) (snd p'))); [apply ctime_swap_alike; assumption|]. intros z z' [Z1 Z2].
    apply (alike_bind _ _ _ _ _ (wide 8)); [apply ec_inverse_alike; exact Z1|]. intros i i' HI. apply (alike_bind _ _ _ _ _ (wide 8)); [apply ec_mul_alike; assumption|]. intros rv rv' RV. apply applyModulus_alike; exact RV.
  Qed.

  (** *** mont.h *)
  Lemma words_n n : nwords (bits_of n) = Z.of_nat n.
  Proof. unfold nwords. replace (bits_of n + 31) with (31 + Z.of_nat n * 32) by lia. rewrite Z.div_add, (Z.div_small 31 32) by lia. lia. Qed.
  Lemma redc_alike n N N' I0 I0' v v' : wide n N N' -> wide n I0 I0' -> wide (n + n) v v' -> alike ob (redc_t n N I0 v) (redc_t n N' I0' v') (wide n).
  Proof.
    intros H1 H2 H3. assert (S0 : forall x x', wide (n + n) x x' -> alike ob (slice_t (bits_of n) 0 x) (slice_t (bits_of n) 0 x') (wide n)).
    { intros x x' X. pose proof (slice_alike (n + n) (bits_of n) 0 x x' X) as Q. rewrite words_n, Nat2Z.id in Q. apply Q; [lia | lia | rewrite Z.div_0_l; lia]. }
    unfold redc_t. apply (alike_bind _ _ _ _ _ (wide n)); [apply S0; exact H3|]. intros a a' A. apply (alike_bind _ _ _ _ _ (wide (n + n))); [apply mul_alike; assumption|]. intros b b' B. apply (alike_bind _ _ _ _ _ (wide n)); [apply S0; exact B|]. intros m m' M.
    apply (alike_bind _ _ _ _ _ (wide (n + n))); [apply mul_alike; assumption|]. intros mn mn' MN. apply (alike_bind _ _ _ _ _ (pair_wide (n + n))); [apply add_t_alike; assumption|]. intros q q' Q.
    apply (alike_bind _ _ _ _ _ (wide n)). { pose proof (slice_alike (n + n) (bits_of n) (bits_of n) _ _ Q) as R. rewrite words_n, Nat2Z.id in R. apply R; [lia | lia|]. rewrite Z.mul_comm, Z.div_mul by lia. lia. }
    intros t t' T. apply (alike_bind _ _ _ _ _ (pair_wide n)); [apply sub_t_alike; assumption|]. intros r r' [R1 R2]. destruct T as [T1 T2]. apply alike_choose; [exact HB | split; assumption..].
  Qed.
  Definition wide_mstate n (s s' : mstate) : Prop := wide n (mN s) (mN s') /\ wide n (mNinv s) (mNinv s') /\ wide n (mR2 s) (mR2 s').
  Lemma mont_of_alike n s s' x x' : wide_mstate n s s' -> wide n x x' -> alike ob (mont_of_t n s x) (mont_of_t n s' x') (wide n).
  Proof. intros (H1 & H2 & H3) H. apply (alike_bind _ _ _ _ _ (wide (n + n))); [apply mul_alike; assumption|]. intros p p' P. apply redc_alike; assumption. Qed.
  Lemma mont_mul_alike n s s' x x' y y' : wide_mstate n s s' -> wide n x x' -> wide n y y' -> alike ob (mont_mul_t n s x y) (mont_mul_t n s' x' y') (wide n).
  Proof. intros (H1 & H2 & H3) H H'. apply (alike_bind _ _ _ _ _ (wide (n + n))); [apply mul_alike; assumption|]. intros p p' P. apply redc_alike; assumption. Qed.
  Lemma mont_square_alike n s s' x x' : wide_mstate n s s' -> wide n x x' -> alike ob (mont_square_t n s x) (mont_square_t n s' x') (wide n).
  Proof. intros (H1 & H2 & H3) H. apply (alike_bind _ _ _ _ _ (wide (n + n))); [apply mul_alike; assumption|]. intros p p' P. apply redc_alike; assumption. Qed.
  Lemma mont_out_alike n s s' x x' : wide_mstate n s s' -> wide n x x' -> alike ob (mont_out_t n s x) (mont_out_t n s' x') (wide n).
  Proof.
    intros (H1 & H2 & H3) H. apply (alike_bind _ _ _ _ _ (wide (n + n))); [|intros v v' V; apply redc_alike; assumption].
    pose proof (convert_alike (bits_of n) (2 * bits_of n) x x') as C. replace (2 * bits_of n) with (bits_of (n + n)) in C |- * by lia. rewrite !words_n, !Nat2Z.id in C. apply C; [lia | lia | exact H].
  Qed.
  Lemma exp_loop_alike : forall count i n s s' e e' v v' b b' o o', 0 <= i -> i + Z.of_nat count <= bits_of n -> wide_mstate n s s' -> wide n e e' -> wide n v v' -> wide n b b' -> wide n o o' ->
    alike ob (exp_loop_t count i n s e v b o) (exp_loop_t count i n s' e' v' b' o') (wide n).
  Proof.
    induction count as [|count IH]; intros i n s s' e e' v v' b b' o o' I0 I1 HS HE HV [B1 B2] [O1 O2]; cbn [exp_loop_t]; [apply alike_emit; exact HV|]. apply (alike_bind _ _ _ _ _ free); [apply alike_emit; exact I|]. intros _ _ _.
    apply (alike_bind _ _ _ _ _ free); [apply (bit_alike n); [exact HE | lia]|]. intros x x' _. apply (alike_bind _ _ _ _ _ (wide n)); [apply alike_choose; [exact HB | split; assumption..]|]. intros f f' F.
    apply (alike_bind _ _ _ _ _ (wide n)); [apply mont_mul_alike; assumption|]. intros v1 v1' V1. apply (alike_bind _ _ _ _ _ (wide n)); [apply mont_square_alike; [exact HS | split; assumption]|]. intros b1 b1' HB1. apply IH; (assumption || lia || (split; assumption)).
  Qed.
  Lemma mont_exp_alike n s s' x x' e e' : (0 < n)%nat -> wide_mstate n s s' -> wide n x x' -> wide n e e' -> alike ob (mont_exp_t n s x e) (mont_exp_t n s' x' e') (wide n).
  Proof.
    intros Hn HS HX HE. apply (alike_bind _ _ _ _ _ (wide n)). { pose proof (of_u32_alike (bits_of n) 1 1 ltac:(lia)) as Q. rewrite words_n, Nat2Z.id in Q. exact Q. }
    intros u u' U. apply (alike_bind _ _ _ _ _ (wide n)); [apply mont_of_alike; assumption|]. intros o o' O. apply exp_loop_alike; (assumption || lia).
  Qed.
  Lemma rsadp_alike n k k' m m' : (0 < n)%nat -> wide_mstate n (priv_s k) (priv_s k') -> wide n (priv_d k) (priv_d k') -> wide n m m' -> alike ob (rsadp_t n k m) (rsadp_t n k' m') (wide n).
  Proof.
    intros Hn HS HD HM. apply (alike_bind _ _ _ _ _ (wide n)); [apply mont_of_alike; assumption|]. intros v v' V. apply (alike_bind _ _ _ _ _ (wide n)); [apply mont_exp_alike; assumption|]. intros r r' R. apply mont_out_alike; assumption.
  Qed.
End Runs.
