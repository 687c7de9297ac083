(** Facts about Base. *)
From Verif Require Import Base.

Lemma beqb_refl b : Byte.eqb b b = true.
Proof. destruct b; reflexivity. Qed.

Lemma beqb_spec a b : reflect (a = b) (Byte.eqb a b).
Proof.
  destruct (Byte.eqb a b) eqn:E; constructor.
  - now apply byte_dec_bl.
  - intros ->. now rewrite beqb_refl in E.
Qed.

Lemma beqb_eq a b : Byte.eqb a b = true <-> a = b.
Proof. destruct (beqb_spec a b); split; congruence. Qed.

Lemma beqb_neq a b : Byte.eqb a b = false <-> a <> b.
Proof. destruct (beqb_spec a b); split; congruence. Qed.

Lemma b2n_bound b : b2n b < 256.
Proof. unfold b2n. pose proof (to_N_bounded b). lia. Qed.

Lemma n2b_b2n b : n2b (b2n b) = b.
Proof.
  unfold n2b. rewrite N.mod_small by apply b2n_bound.
  unfold b2n. now rewrite of_to_N.
Qed.

Lemma b2n_n2b n : b2n (n2b n) = n mod 256.
Proof.
  unfold n2b. destruct (Byte.of_N (n mod 256)) eqn:E.
  - apply to_of_N in E. exact E.
  - apply of_N_None_iff in E. assert (n mod 256 < 256) by (apply N.mod_lt; lia). lia.
Qed.

Lemma b2n_n2b_small n : n < 256 -> b2n (n2b n) = n.
Proof. intros. rewrite b2n_n2b. now apply N.mod_small. Qed.

Lemma b2n_inj a b : b2n a = b2n b -> a = b.
Proof. intros H. now rewrite <- (n2b_b2n a), <- (n2b_b2n b), H. Qed.

Lemma n2b_inj_mod a b : n2b a = n2b b -> a mod 256 = b mod 256.
Proof. intros H. now rewrite <- !b2n_n2b, H. Qed.

Lemma bytes_eqb_refl a : bytes_eqb a a = true.
Proof. induction a; cbn; auto. now rewrite beqb_refl. Qed.

Lemma bytes_eqb_eq a b : bytes_eqb a b = true <-> a = b.
Proof.
  revert b; induction a as [|x a IH]; destruct b as [|y b]; cbn; try (split; congruence).
  rewrite andb_true_iff, beqb_eq, IH. split; [intros [-> ->]; auto|intros H; inversion H; auto].
Qed.

Lemma bytes_eqb_spec a b : reflect (a = b) (bytes_eqb a b).
Proof.
  destruct (bytes_eqb a b) eqn:E; constructor.
  - now apply bytes_eqb_eq.
  - intros ->. now rewrite bytes_eqb_refl in E.
Qed.

Lemma bytes_eqb_neq a b : bytes_eqb a b = false <-> a <> b.
Proof. destruct (bytes_eqb_spec a b); split; congruence. Qed.

Lemma bytes_eq_dec (a b : bytes) : {a = b} + {a <> b}.
Proof. destruct (bytes_eqb_spec a b); auto. Qed.

Lemma bytes_ltb_irrefl a : bytes_ltb a a = false.
Proof. induction a; cbn; auto. now rewrite N.ltb_irrefl. Qed.

Lemma bytes_ltb_trans a b c : bytes_ltb a b = true -> bytes_ltb b c = true -> bytes_ltb a c = true.
Proof.
  revert b c; induction a as [|x a IH]; destruct b as [|y b], c as [|z c]; cbn; try congruence; auto.
  destruct (N.ltb_spec (b2n x) (b2n y)), (N.ltb_spec (b2n y) (b2n z)),
    (N.ltb_spec (b2n x) (b2n z)); try lia; auto;
  destruct (N.ltb_spec (b2n y) (b2n x)), (N.ltb_spec (b2n z) (b2n y)),
    (N.ltb_spec (b2n z) (b2n x)); try lia; try congruence.
  apply IH.
Qed.

Lemma bytes_ltb_total a b : bytes_ltb a b = true \/ a = b \/ bytes_ltb b a = true.
Proof.
  revert b; induction a as [|x a IH]; destruct b as [|y b]; cbn; auto.
  destruct (N.ltb_spec (b2n x) (b2n y)); auto.
  destruct (N.ltb_spec (b2n y) (b2n x)); auto.
  assert (x = y) by (apply b2n_inj; lia). subst y.
  destruct (IH b) as [?|[->|?]]; auto.
Qed.

Lemma bytes_ltb_neq a b : bytes_ltb a b = true -> a <> b.
Proof. intros H ->. now rewrite bytes_ltb_irrefl in H. Qed.

Lemma be_val_app_gen l1 l2 a :
  fold_left (fun a b => a * 256 + b2n b) (l1 ++ l2) a =
  fold_left (fun a b => a * 256 + b2n b) l2 (fold_left (fun a b => a * 256 + b2n b) l1 a).
Proof. apply fold_left_app. Qed.

Lemma be_val_snoc l b : be_val (l ++ [b]) = be_val l * 256 + b2n b.
Proof. unfold be_val. now rewrite fold_left_app. Qed.

Lemma be_bytes_length k n : length (be_bytes k n) = k.
Proof. revert n; induction k; intros; cbn; auto. rewrite app_length, IHk. cbn. lia. Qed.

Lemma be_val_be_bytes k n : be_val (be_bytes k n) = n mod 256 ^ N.of_nat k.
Proof.
  revert n; induction k as [|k IH]; intros.
  - cbn. now rewrite N.mod_1_r.
  - cbn [be_bytes]. rewrite be_val_snoc, IH, b2n_n2b.
    replace (N.of_nat (S k)) with (N.succ (N.of_nat k)) by lia.
    rewrite N.pow_succ_r'.
    rewrite (N.mod_mul_r n 256 (256 ^ N.of_nat k)); try lia.
Qed.

Lemma be_val_be_bytes_small k n : n < 256 ^ N.of_nat k -> be_val (be_bytes k n) = n.
Proof. intros. rewrite be_val_be_bytes. now apply N.mod_small. Qed.

Lemma be_val_bound l : be_val l < 256 ^ N.of_nat (length l).
Proof.
  induction l as [|b l IH] using rev_ind; [cbn; lia|].
  rewrite be_val_snoc, app_length. cbn [length].
  replace (N.of_nat (length l + 1)) with (N.succ (N.of_nat (length l))) by lia.
  rewrite N.pow_succ_r'. pose proof (b2n_bound b). lia.
Qed.

Lemma be_bytes_be_val l : be_bytes (length l) (be_val l) = l.
Proof.
  induction l as [|b l IH] using rev_ind; auto.
  rewrite be_val_snoc, app_length. cbn [length]. rewrite Nat.add_1_r. cbn [be_bytes].
  pose proof (b2n_bound b).
  replace ((be_val l * 256 + b2n b) / 256) with (be_val l) by lia.
  rewrite IH. f_equal. f_equal.
  rewrite <- (n2b_b2n b) at 2. unfold n2b. do 2 f_equal.
  replace ((be_val l * 256 + b2n b) mod 256) with (b2n b) by lia.
  now rewrite N.mod_small by lia.
Qed.

Lemma be_bytes_be_val_k k l : length l = k -> be_bytes k (be_val l) = l.
Proof. intros <-. apply be_bytes_be_val. Qed.

Lemma be_val_inj l1 l2 : length l1 = length l2 -> be_val l1 = be_val l2 -> l1 = l2.
Proof. intros HL HV. rewrite <- (be_bytes_be_val l1), <- (be_bytes_be_val l2), HL, HV. auto. Qed.

Lemma be_bytes_inj k a b :
  a < 256 ^ N.of_nat k -> b < 256 ^ N.of_nat k -> be_bytes k a = be_bytes k b -> a = b.
Proof.
  intros Ha Hb H. rewrite <- (be_val_be_bytes_small k a Ha), <- (be_val_be_bytes_small k b Hb).
  now rewrite H.
Qed.

Lemma takeN_app_exact {A} (l1 l2 : list A) : takeN (N.of_nat (length l1)) (l1 ++ l2) = l1.
Proof. unfold takeN. rewrite Nnat.Nat2N.id. rewrite firstn_app, Nat.sub_diag, firstn_all. cbn. apply app_nil_r. Qed.

Lemma dropN_app_exact {A} (l1 l2 : list A) : dropN (N.of_nat (length l1)) (l1 ++ l2) = l2.
Proof. unfold dropN. rewrite Nnat.Nat2N.id. rewrite skipn_app, Nat.sub_diag, skipn_all. reflexivity. Qed.

Lemma takeN_dropN {A} n (l : list A) : takeN n l ++ dropN n l = l.
Proof. apply firstn_skipn. Qed.

(** Decimal text *)
Lemma is_digit_spec b : is_digit b = true <-> 48 <= b2n b <= 57.
Proof. unfold is_digit. lia. Qed.

Lemma digit_byte d : d < 10 -> b2n (n2b (48 + d)) = 48 + d.
Proof. intros. apply b2n_n2b_small. lia. Qed.

Lemma is_digit_n2b d : d < 10 -> is_digit (n2b (48 + d)) = true.
Proof. intros. apply is_digit_spec. rewrite digit_byte; lia. Qed.

Lemma digits_val_app_gen l a :
  fold_left (fun a b => a * 10 + (b2n b - 48)) l a
  = a * 10 ^ N.of_nat (length l) + digits_val l.
Proof.
  unfold digits_val. revert a; induction l as [|b l IH]; intros; cbn [fold_left length].
  - cbn. lia.
  - rewrite IH, (IH (0 * 10 + (b2n b - 48))).
    replace (N.of_nat (S (length l))) with (N.succ (N.of_nat (length l))) by lia.
    rewrite N.pow_succ_r'. lia.
Qed.

Lemma digits_val_cons b l : digits_val (b :: l) = (b2n b - 48) * 10 ^ N.of_nat (length l) + digits_val l.
Proof. unfold digits_val at 1. cbn [fold_left]. rewrite digits_val_app_gen. lia. Qed.

Lemma digits_val_snoc l b : digits_val (l ++ [b]) = digits_val l * 10 + (b2n b - 48).
Proof. unfold digits_val. now rewrite fold_left_app. Qed.

Lemma dec_go_digits fuel n acc :
  Forall (fun b => is_digit b = true) acc -> Forall (fun b => is_digit b = true) (dec_go fuel n acc).
Proof.
  revert n acc; induction fuel as [|f IH]; intros; cbn [dec_go]; auto.
  assert (n mod 10 < 10) by (apply N.mod_lt; lia).
  destruct (n <? 10); [|apply IH]; constructor; auto using is_digit_n2b.
Qed.

Lemma dec_digits n : Forall (fun b => is_digit b = true) (dec n).
Proof. apply dec_go_digits. constructor. Qed.

Lemma dec_go_app fuel n acc : dec_go fuel n acc = dec_go fuel n [] ++ acc.
Proof.
  revert n acc; induction fuel as [|f IH]; intros; cbn [dec_go]; auto.
  destruct (n <? 10); auto.
  rewrite IH, (IH _ [_]), <- app_assoc. auto.
Qed.

Lemma size_nat_div10 n : 10 <= n -> (N.size_nat (n / 10) < N.size_nat n)%nat.
Proof.
  intros H.
  assert (E : forall m, N.size_nat m = N.to_nat (N.size m)) by (destruct m; cbn; [auto|]; induction p; cbn; lia).
  rewrite !E.
  destruct (N.eq_dec (n / 10) 0) as [Z|NZ]; [lia|].
  rewrite !N.size_log2 by lia.
  assert (N.log2 (n / 10) < N.log2 n).
  { apply N.log2_lt_pow2; [lia|].
    pose proof (N.log2_spec n ltac:(lia)) as [_ U].
    rewrite N.pow_succ_r' in U. lia. }
  lia.
Qed.

Lemma dec_go_val fuel n : (N.size_nat n < fuel)%nat -> digits_val (dec_go fuel n []) = n.
Proof.
  revert n; induction fuel as [|f IH]; intros n Hf; [lia|]. cbn [dec_go].
  assert (n mod 10 < 10) by (apply N.mod_lt; lia).
  destruct (N.ltb_spec n 10).
  - unfold digits_val. cbn [fold_left]. rewrite digit_byte by lia. lia.
  - rewrite dec_go_app, digits_val_snoc, IH.
    + rewrite digit_byte; lia.
    + pose proof (size_nat_div10 n). lia.
Qed.

Lemma dec_val n : digits_val (dec n) = n.
Proof. apply dec_go_val. lia. Qed.

Lemma dec_inj a b : dec a = dec b -> a = b.
Proof. intros H. now rewrite <- (dec_val a), <- (dec_val b), H. Qed.

Lemma dec_go_nonnil fuel n acc : fuel <> O -> dec_go fuel n acc <> [].
Proof.
  intros Hf E. destruct fuel as [|f]; [congruence|]. cbn [dec_go] in E.
  destruct (n <? 10); [discriminate|].
  rewrite dec_go_app in E. destruct (dec_go f (n / 10) []); discriminate.
Qed.

Lemma dec_nonnil n : dec n <> [].
Proof. apply dec_go_nonnil. discriminate. Qed.

(** No leading zero except for 0 itself. *)
Lemma dec_small n : n < 10 -> dec n = [n2b (48 + n)].
Proof.
  intros. unfold dec. cbn [dec_go].
  destruct (N.ltb_spec n 10); [|lia]. now rewrite N.mod_small by lia.
Qed.

Lemma dec_go_head fuel n : (N.size_nat n < fuel)%nat -> 0 < n ->
  exists b r, dec_go fuel n [] = b :: r /\ 49 <= b2n b <= 57.
Proof.
  revert n; induction fuel as [|f IH]; intros n Hf Hn; [lia|]. cbn [dec_go].
  destruct (N.ltb_spec n 10).
  - eexists _, _. split; [reflexivity|]. rewrite digit_byte; lia.
  - rewrite dec_go_app. destruct (IH (n / 10)) as (b & r & E & Hb).
    + pose proof (size_nat_div10 n). lia.
    + lia.
    + rewrite E. eexists _, _. split; [reflexivity|]. auto.
Qed.

Lemma dec_head n : 0 < n -> exists b r, dec n = b :: r /\ 49 <= b2n b <= 57.
Proof. apply dec_go_head. lia. Qed.

(** Canonical digit strings are exactly the [dec] images. *)
Lemma digits_val_lt l : Forall (fun b => is_digit b = true) l -> digits_val l < 10 ^ N.of_nat (length l).
Proof.
  induction l as [|b l IH]; intros HF; [cbn; lia|].
  inversion HF; subst. rewrite digits_val_cons.
  apply is_digit_spec in H1. specialize (IH H2). cbn [length].
  replace (N.of_nat (S (length l))) with (N.succ (N.of_nat (length l))) by lia.
  rewrite N.pow_succ_r'. nia.
Qed.

Lemma digits_val_inj l1 l2 :
  length l1 = length l2 ->
  Forall (fun b => is_digit b = true) l1 -> Forall (fun b => is_digit b = true) l2 ->
  digits_val l1 = digits_val l2 -> l1 = l2.
Proof.
  revert l2; induction l1 as [|a l1 IH]; destruct l2 as [|b l2]; cbn [length]; intros HL H1 H2 HV; try lia; auto.
  inversion H1 as [|? ? Ha Hl1]; inversion H2 as [|? ? Hb Hl2]; subst.
  rewrite !digits_val_cons in HV.
  pose proof (digits_val_lt l1 ltac:(auto)). pose proof (digits_val_lt l2 ltac:(auto)).
  assert (EL : length l1 = length l2) by lia. rewrite EL in *.
  apply is_digit_spec in Ha, Hb.
  set (P := 10 ^ N.of_nat (length l2)) in *.
  assert (b2n a - 48 = b2n b - 48) by nia.
  f_equal; [apply b2n_inj; lia|].
  apply IH; auto. nia.
Qed.

Lemma digits_val_ge b l : 49 <= b2n b -> 10 ^ N.of_nat (length l) <= digits_val (b :: l).
Proof. intros. rewrite digits_val_cons. nia. Qed.

Lemma dec_canonical b l :
  49 <= b2n b <= 57 -> Forall (fun b => is_digit b = true) l -> dec (digits_val (b :: l)) = b :: l.
Proof.
  intros Hb HF.
  assert (Hd : is_digit b = true) by (apply is_digit_spec; lia).
  set (n := digits_val (b :: l)).
  assert (Hlo : 10 ^ N.of_nat (length l) <= n) by (apply digits_val_ge; lia).
  assert (Hhi : n < 10 ^ N.of_nat (length (b :: l))) by (apply digits_val_lt; constructor; auto).
  assert (Hpos : 0 < n). { pose proof (N.pow_nonzero 10 (N.of_nat (length l))). lia. }
  destruct (dec_head n Hpos) as (c & r & E & Hc).
  assert (HF2 := dec_digits n). rewrite E in HF2 |- *.
  assert (HV := dec_val n). rewrite E in HV.
  assert (Hlo2 : 10 ^ N.of_nat (length r) <= n) by (rewrite <- HV; apply digits_val_ge; lia).
  assert (Hhi2 : n < 10 ^ N.of_nat (length (c :: r))) by (rewrite <- HV; apply digits_val_lt; auto).
  assert (length r = length l).
  { cbn [length] in *.
    destruct (Nat.lt_trichotomy (length r) (length l)) as [L|[L|L]]; auto; exfalso.
    - assert (10 ^ N.of_nat (S (length r)) <= 10 ^ N.of_nat (length l)) by (apply N.pow_le_mono_r; lia). lia.
    - assert (10 ^ N.of_nat (S (length l)) <= 10 ^ N.of_nat (length r)) by (apply N.pow_le_mono_r; lia). lia. }
  apply digits_val_inj; auto.
  cbn; lia.
Qed.

Lemma dec_zero : dec 0 = ["0"%byte].
Proof. reflexivity. Qed.

Lemma starts_with_app p l : starts_with p (p ++ l) = true.
Proof. induction p; cbn; auto. now rewrite beqb_refl. Qed.

Lemma starts_with_spec p l : starts_with p l = true <-> exists r, l = p ++ r.
Proof.
  split.
  - revert l; induction p as [|x p IH]; intros l H; [exists l; auto|].
    destruct l as [|y l]; cbn in H; [discriminate|].
    apply andb_true_iff in H as [H1 H2]. apply beqb_eq in H1. subst.
    destruct (IH _ H2) as [r ->]. now exists r.
  - intros [r ->]. apply starts_with_app.
Qed.

Lemma zip_length {A B} (a : list A) (b : list B) : length (zip a b) = Nat.min (length a) (length b).
Proof. revert b; induction a; destruct b; cbn; auto. Qed.

Lemma skipn_add {A} a b (l : list A) : skipn (a + b) l = skipn b (skipn a l).
Proof.
  revert l; induction a as [|a IH]; intros l; [reflexivity|].
  destruct l as [|x l]; cbn [Nat.add skipn]; [now rewrite skipn_nil|apply IH].
Qed.
