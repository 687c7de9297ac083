(** Printing an address and parsing the text gives the address. *)
From Verif Require Import Base BaseFacts M_Net M_IpText.

(** ** Decimal octets *)
Lemma digit10 b : is_digit b = true -> digit_val 10 b = Some (b2n b - 48).
Proof.
  intros H. apply is_digit_spec in H. unfold digit_val.
  destruct (N.leb_spec 48 (b2n b)), (N.leb_spec (b2n b) 57); try lia. cbn [andb].
  destruct (N.ltb_spec (b2n b - 48) 10); [reflexivity|lia].
Qed.

Lemma digit10_none b : is_digit b = false -> digit_val 10 b = None.
Proof.
  intros H. unfold digit_val, is_digit in *. rewrite H. pose proof (b2n_bound b).
  destruct ((97 <=? b2n b) && (b2n b <=? 102)) eqn:E1.
  - destruct (N.ltb_spec (b2n b - 87) 10); [lia|reflexivity].
  - destruct ((65 <=? b2n b) && (b2n b <=? 70)) eqn:E2; [|reflexivity].
    destruct (N.ltb_spec (b2n b - 55) 10); [lia|reflexivity].
Qed.

Lemma take_run_app radix ds vs r :
  Forall2 (fun b v => digit_val radix b = Some v) ds vs ->
  match r with [] => True | c :: _ => digit_val radix c = None end ->
  take_run radix (ds ++ r) = (vs, r).
Proof.
  induction 1 as [|b v ds vs Hb HF IH]; intros Hr; cbn [take_run app].
  - destruct r as [|c r]; [reflexivity|]. cbn [take_run]. now rewrite Hr.
  - now rewrite Hb, IH.
Qed.

Lemma Forall2_digits ds : Forall (fun b => is_digit b = true) ds ->
  Forall2 (fun b v => digit_val 10 b = Some v) ds (map (fun b => b2n b - 48) ds).
Proof. induction 1; cbn; constructor; auto using digit10. Qed.

Lemma run_val_digits ds : run_val 10 (map (fun b => b2n b - 48) ds) = digits_val ds.
Proof.
  unfold run_val, digits_val. generalize 0 as a.
  induction ds as [|b ds IH]; intros; cbn; auto.
Qed.

Lemma dec_len3 n : n < 1000 -> (length (dec n) <= 3)%nat.
Proof.
  intros H. destruct (N.eq_dec n 0) as [->|NZ]; [rewrite dec_zero; cbn; lia|].
  destruct (dec_head n) as (b & r & E & Hb); [lia|].
  pose proof (digits_val_ge b r ltac:(lia)) as G. pose proof (dec_val n) as V. rewrite E in V. rewrite V in G.
  rewrite E. cbn [length].
  destruct (Nat.le_gt_cases (length r) 2) as [|HL]; [lia|].
  assert (10 ^ 3 <= 10 ^ N.of_nat (length r)) by (apply N.pow_le_mono_r; lia).
  change (10 ^ 3) with 1000 in *. lia.
Qed.

Lemma read_octet_dec n r : n < 256 ->
  match r with [] => True | c :: _ => is_digit c = false end ->
  read_octet (dec n ++ r) = Some (n, r).
Proof.
  intros Hn Hr. unfold read_octet, read_number.
  erewrite take_run_app.
  2:{ apply Forall2_digits, dec_digits. }
  2:{ destruct r as [|c r]; auto. now apply digit10_none. }
  rewrite map_length, run_val_digits, dec_val.
  pose proof (dec_len3 n ltac:(lia)). pose proof (dec_nonnil n).
  destruct (Nat.eqb_spec (length (dec n)) 0) as [E|_]; [destruct (dec n); [tauto|discriminate]|].
  destruct (Nat.ltb_spec 3 (length (dec n))); [lia|].
  assert (E : negb false && Nat.ltb 1 (length (dec n)) && (hd 0 (map (fun b => b2n b - 48) (dec n)) =? 0) = false).
  { destruct (N.eq_dec n 0) as [->|NZ]; [reflexivity|].
    destruct (dec_head n) as (b & r0 & -> & Hb); [lia|]. cbn [map hd].
    destruct (N.eqb_spec (b2n b - 48) 0); [lia|]. apply andb_false_r. }
  rewrite E. destruct (N.ltb_spec 255 n); [lia|reflexivity].
Qed.

Lemma be_val4 a b c d : be_val [a; b; c; d] = ((b2n a * 256 + b2n b) * 256 + b2n c) * 256 + b2n d.
Proof. reflexivity. Qed.

Lemma be_bytes4 n : exists a b c d, be_bytes 4 n = [a; b; c; d].
Proof.
  pose proof (be_bytes_length 4 n) as H. destruct (be_bytes 4 n) as [|a [|b [|c [|d [|]]]]]; try discriminate.
  eauto.
Qed.

Lemma read_ipv4_show n r : n < 2 ^ 32 ->
  match r with [] => True | c :: _ => is_digit c = false end ->
  read_ipv4 (show_ipv4 n ++ r) = Some (n, r).
Proof.
  intros Hn Hr. unfold show_ipv4. destruct (be_bytes4 n) as (a & b & c & d & E).
  pose proof (be_val_be_bytes_small 4 n Hn) as V. rewrite E in *. rewrite be_val4 in V.
  rewrite <- !app_assoc. cbn [app]. unfold read_ipv4.
  rewrite read_octet_dec by (auto using b2n_bound; reflexivity). cbn [obind read_char].
  rewrite beqb_refl. cbn [obind].
  rewrite read_octet_dec by (auto using b2n_bound; reflexivity). cbn [obind read_char].
  rewrite beqb_refl. cbn [obind].
  rewrite read_octet_dec by (auto using b2n_bound; reflexivity). cbn [obind read_char].
  rewrite beqb_refl. cbn [obind].
  rewrite read_octet_dec by (auto using b2n_bound). cbn [obind].
  now rewrite V.
Qed.

(** ** Hexadecimal groups *)
Lemma digit16_hex d : d < 16 -> digit_val 16 (hex_digit d) = Some d.
Proof.
  intros H. unfold hex_digit, digit_val.
  destruct (N.ltb_spec d 10).
  - rewrite b2n_n2b_small by lia.
    destruct (N.leb_spec 48 (48 + d)), (N.leb_spec (48 + d) 57); try lia. cbn [andb].
    destruct (N.ltb_spec (48 + d - 48) 16); [|lia]. f_equal. lia.
  - rewrite b2n_n2b_small by lia.
    destruct (N.leb_spec (87 + d) 57); [lia|]. rewrite andb_false_r.
    destruct (N.leb_spec 97 (87 + d)), (N.leb_spec (87 + d) 102); try lia. cbn [andb].
    destruct (N.ltb_spec (87 + d - 87) 16); [|lia]. f_equal. lia.
Qed.

Lemma hex_go_spec fuel n : (1 <= fuel)%nat -> n < 16 ^ N.of_nat fuel ->
  exists vs, (forall acc, exists ds, hex_go fuel n acc = ds ++ acc /\
                Forall2 (fun b v => digit_val 16 b = Some v) ds vs) /\
             run_val 16 vs = n /\ vs <> [] /\ (forall k, (1 <= k)%nat -> n < 16 ^ N.of_nat k -> (length vs <= k)%nat).
Proof.
  revert n; induction fuel as [|f IH]; intros n Hf Hn; [lia|].
  assert (Hm : n mod 16 < 16) by (apply N.mod_lt; lia).
  destruct (N.ltb_spec n 16) as [H|H].
  - exists [n]. split; [|split; [reflexivity|split; [discriminate|intros; cbn [length]; lia]]].
    intros acc. exists [hex_digit n]. cbn [hex_go]. destruct (N.ltb_spec n 16); [|lia].
    rewrite N.mod_small by lia. split; [reflexivity|]. constructor; auto using digit16_hex.
  - assert (Hf' : (1 <= f)%nat). { destruct f; [change (16 ^ N.of_nat 1) with 16 in Hn; lia|lia]. }
    assert (Hd : n / 16 < 16 ^ N.of_nat f).
    { apply N.div_lt_upper_bound; [lia|]. rewrite Nat2N.inj_succ, N.pow_succ_r' in Hn. exact Hn. }
    destruct (IH (n / 16) Hf' Hd) as (vs & H1 & H2 & H3 & H4).
    exists (vs ++ [n mod 16]). split; [|split; [|split]].
    + intros acc. cbn [hex_go]. destruct (N.ltb_spec n 16); [lia|].
      destruct (H1 (hex_digit (n mod 16) :: acc)) as (ds & -> & HF).
      exists (ds ++ [hex_digit (n mod 16)]). rewrite <- app_assoc. split; [reflexivity|].
      apply Forall2_app; auto. constructor; auto using digit16_hex.
    + unfold run_val in *. rewrite fold_left_app, H2. cbn [fold_left].
      pose proof (N.div_mod n 16). lia.
    + destruct vs; discriminate.
    + intros k Hk Hn'. rewrite app_length. cbn [length].
      destruct k as [|k]; [lia|]. destruct k as [|k]; [change (16 ^ N.of_nat 1) with 16 in Hn'; lia|].
      assert (length vs <= S k)%nat; [|lia]. apply H4; [lia|].
      apply N.div_lt_upper_bound; [lia|].
      rewrite Nat2N.inj_succ, N.pow_succ_r' in Hn'. exact Hn'.
Qed.

Lemma pow16_size n : n < 16 ^ N.of_nat (S (N.size_nat n)).
Proof.
  rewrite Nat2N.inj_succ.
  assert (E : N.of_nat (N.size_nat n) = N.size n).
  { destruct n; cbn; [auto|]. induction p; cbn; lia. }
  rewrite E. apply N.lt_le_trans with (2 ^ N.size n); [apply N.size_gt|].
  apply N.le_trans with (16 ^ N.size n); [apply N.pow_le_mono_l; lia|].
  rewrite N.pow_succ_r'. lia.
Qed.

Lemma hex_spec n : n < 65536 ->
  exists vs, Forall2 (fun b v => digit_val 16 b = Some v) (hex n) vs /\ run_val 16 vs = n /\
             (1 <= length vs <= 4)%nat.
Proof.
  intros Hn. unfold hex.
  destruct (hex_go_spec (S (N.size_nat n)) n) as (vs & H1 & H2 & H3 & H4); [lia|apply pow16_size|].
  exists vs. destruct (H1 []) as (ds & -> & HF). rewrite app_nil_r. split; [exact HF|]. split; [exact H2|].
  split.
  - destruct vs; [congruence|cbn; lia].
  - apply H4; [lia|]. exact Hn.
Qed.

Definition colon_or_end (r : bytes) : Prop :=
  match r with [] => True | c :: _ => c = ":"%byte end.

Lemma read_hex n r : n < 65536 -> colon_or_end r ->
  read_number 16 4 true 65535 (hex n ++ r) = Some (n, r).
Proof.
  intros Hn Hr. destruct (hex_spec n Hn) as (vs & HF & HV & HL). unfold read_number.
  erewrite take_run_app; eauto.
  2:{ destruct r; auto. cbn in Hr. subst. reflexivity. }
  destruct (Nat.eqb_spec (length vs) 0); [lia|]. destruct (Nat.ltb_spec 4 (length vs)); [lia|].
  cbn [negb andb]. rewrite HV. destruct (N.ltb_spec 65535 n); [lia|reflexivity].
Qed.

(** Text whose first non-decimal character is not '.' is not dotted IPv4. *)
Lemma read_ipv4_none inp :
  match snd (take_run 10 inp) with [] => True | c :: _ => c <> "."%byte end -> read_ipv4 inp = None.
Proof.
  intros H. unfold read_ipv4, read_octet, read_number.
  destruct (take_run 10 inp) as [ds r]. cbn [snd] in H.
  repeat match goal with |- context [if ?b then None else _] => destruct b; [reflexivity|] end.
  cbn [obind]. destruct r as [|c r]; [reflexivity|]. cbn [read_char].
  destruct (beqb_spec c "."); [congruence|reflexivity].
Qed.

Lemma take_run10_hex l r vs : Forall2 (fun b v => digit_val 16 b = Some v) l vs -> colon_or_end r ->
  match snd (take_run 10 (l ++ r)) with [] => True | c :: _ => c <> "."%byte end.
Proof.
  intros HF Hr. induction HF as [|b v l vs Hb HF IH].
  - cbn [app]. destruct r as [|c r]; cbn [take_run snd]; auto. cbn in Hr; subst. cbn. discriminate.
  - cbn [app take_run]. destruct (digit_val 10 b) eqn:E.
    + destruct (take_run 10 (l ++ r)); auto.
    + cbn. intros ->. discriminate.
Qed.

Lemma read_ipv4_hex n r : n < 65536 -> colon_or_end r -> read_ipv4 (hex n ++ r) = None.
Proof.
  intros Hn Hr. destruct (hex_spec n Hn) as (vs & HF & _ & _).
  apply read_ipv4_none. eapply take_run10_hex; eauto.
Qed.

Lemma read_ipv4_colon r : read_ipv4 (":"%byte :: r) = None.
Proof. apply read_ipv4_none. cbn. discriminate. Qed.

(** Reading hex groups up to a "::" or the end of the text. *)
Definition stop (r : bytes) : Prop := r = [] \/ exists r', r = ":"%byte :: ":"%byte :: r'.

Lemma stop_colon r : stop r -> colon_or_end r.
Proof. intros [->|(r' & ->)]; cbn; auto. Qed.

Lemma read_groups_stop limit first r : stop r -> read_groups limit first r = ([], false, r).
Proof.
  intros H. destruct limit as [|l]; [reflexivity|]. cbn [read_groups].
  assert (E4 : read_sep first read_ipv4 r = None).
  { destruct H as [->|(r' & ->)]; destruct first; reflexivity. }
  assert (E6 : read_sep first (read_number 16 4 true 65535) r = None).
  { destruct H as [->|(r' & ->)]; destruct first; reflexivity. }
  rewrite E4, E6. destruct l; reflexivity.
Qed.

Fixpoint colon_segs (l : list N) : bytes :=
  match l with [] => [] | x :: r => ":"%byte :: hex x ++ colon_segs r end.

Lemma join_segs_cons x l : join_segs (x :: l) = hex x ++ colon_segs l.
Proof.
  revert x; induction l as [|y l IH]; intros x; [cbn; now rewrite app_nil_r|].
  change (join_segs (x :: y :: l)) with (hex x ++ [":"%byte] ++ join_segs (y :: l)). now rewrite IH.
Qed.

Lemma colon_segs_colon l r : colon_or_end r -> colon_or_end (colon_segs l ++ r).
Proof. destruct l; cbn; auto. Qed.

Lemma read_groups_more l : forall limit r,
  Forall (fun g => g < 65536) l -> (length l <= limit)%nat -> stop r ->
  read_groups limit false (colon_segs l ++ r) = (l, false, r).
Proof.
  induction l as [|x l IH]; intros limit r HF HL Hr; [now apply read_groups_stop|].
  inversion HF as [|? ? Hx HF']; subst. cbn [length] in HL. destruct limit as [|limit]; [lia|].
  cbn [read_groups colon_segs]. cbn [app]. rewrite <- app_assoc.
  assert (Hc : colon_or_end (colon_segs l ++ r)) by auto using colon_segs_colon, stop_colon.
  cbn [read_sep read_char]. rewrite beqb_refl. cbn [obind].
  rewrite read_ipv4_hex by auto. rewrite read_hex by auto.
  rewrite IH by (auto; lia). destruct limit; reflexivity.
Qed.

Lemma read_groups_join l limit r :
  Forall (fun g => g < 65536) l -> (length l <= limit)%nat -> stop r ->
  read_groups limit true (join_segs l ++ r) = (l, false, r).
Proof.
  intros HF HL Hr. destruct l as [|x l]; [now apply read_groups_stop|].
  rewrite join_segs_cons, <- app_assoc. inversion HF as [|? ? Hx HF']; subst. cbn [length] in HL.
  destruct limit as [|limit]; [lia|]. cbn [read_groups read_sep].
  assert (Hc : colon_or_end (colon_segs l ++ r)) by auto using colon_segs_colon, stop_colon.
  rewrite read_ipv4_hex by auto. rewrite read_hex by auto.
  rewrite read_groups_more by (auto; lia). destruct limit; reflexivity.
Qed.

(** ** Segments *)
Lemma segs_of_length k n : length (segs_of k n) = k.
Proof. revert n; induction k as [|k IH]; intros; cbn; auto. rewrite app_length, IH. cbn. lia. Qed.

Lemma segs_of_bound k n : Forall (fun g => g < 65536) (segs_of k n).
Proof.
  revert n; induction k as [|k IH]; intros; cbn [segs_of]; [constructor|].
  apply Forall_app. split; auto. constructor; auto. apply N.mod_lt. lia.
Qed.

Lemma segs_val_of k n : segs_val (segs_of k n) = n mod 65536 ^ N.of_nat k.
Proof.
  revert n; induction k as [|k IH]; intros.
  - cbn. now rewrite N.mod_1_r.
  - cbn [segs_of]. unfold segs_val in *. rewrite fold_left_app, IH. cbn [fold_left].
    rewrite Nat2N.inj_succ, N.pow_succ_r'.
    rewrite N.mod_mul_r by (try lia; apply N.pow_nonzero; lia). lia.
Qed.

Lemma segments_val n : n < 2 ^ 128 -> segs_val (segments n) = n.
Proof.
  intros H. unfold segments. rewrite segs_val_of. apply N.mod_small.
  change (65536 ^ N.of_nat 8) with (2 ^ 128). exact H.
Qed.

(** The run returned by [zero_run] is a run of zeros. *)
Definition zeros_at (segs : list N) (p : nat * nat) : Prop :=
  (fst p + snd p <= length segs)%nat /\ firstn (snd p) (skipn (fst p) segs) = repeat 0 (snd p).

Lemma zeros_at_0 segs s : (s <= length segs)%nat -> zeros_at segs (s, O).
Proof. split; cbn; [lia|reflexivity]. Qed.

Lemma zero_run_spec done todo cur best :
  zeros_at (done ++ todo) best ->
  (snd cur = O \/ (fst cur + snd cur = length done)%nat /\ zeros_at (done ++ todo) cur) ->
  zeros_at (done ++ todo) (zero_run (length done) todo cur best).
Proof.
  revert done cur best; induction todo as [|s todo IH]; intros done cur best Hb Hc; [exact Hb|].
  cbn [zero_run]. 
  replace (S (length done)) with (length (done ++ [s])) by (rewrite app_length; cbn; lia).
  replace (done ++ s :: todo) with ((done ++ [s]) ++ todo) in * by now rewrite <- app_assoc.
  destruct (N.eqb_spec s 0) as [->|NZ].
  - set (cur' := (if Nat.eqb (snd cur) 0 then length done else fst cur, S (snd cur))).
    assert (Hc' : (fst cur' + snd cur' = length (done ++ [0%N]))%nat /\ zeros_at ((done ++ [0]) ++ todo) cur').
    { rewrite app_length. cbn [length]. unfold cur'. destruct cur as [cs cn]. cbn [fst snd] in *.
      destruct (Nat.eqb_spec cn 0) as [->|Hn].
      - split; [cbn; lia|]. split; cbn [fst snd].
        + rewrite !app_length. cbn. lia.
        + rewrite <- app_assoc. rewrite skipn_app, skipn_all, Nat.sub_diag. reflexivity.
      - destruct Hc as [|(Hend & Hlen & Hz)]; [lia|]. cbn [fst snd] in *. split; [cbn; lia|].
        split; cbn [fst snd]; [rewrite !app_length; cbn; lia|].
        rewrite <- Nat.add_1_r, repeat_app, <- Hz.
        rewrite <- (firstn_skipn cn (skipn cs ((done ++ [0]) ++ todo))) at 1.
        rewrite firstn_app, firstn_firstn.
        assert (L : length (firstn cn (skipn cs ((done ++ [0]) ++ todo))) = cn).
        { rewrite firstn_length, skipn_length. lia. }
        rewrite L. replace (cn + 1 - cn)%nat with 1%nat by lia. rewrite Nat.min_r by lia.
        f_equal. rewrite <- skipn_add. replace (cs + cn)%nat with (length done) by lia.
        rewrite <- app_assoc, skipn_app, skipn_all, Nat.sub_diag. reflexivity. }
    apply IH; [|right; exact Hc'].
    destruct (Nat.ltb (snd best) (snd cur')); [apply Hc'|exact Hb].
  - apply IH; [exact Hb|left; reflexivity].
Qed.

Lemma read_char_eq c r : read_char c (c :: r) = Some r.
Proof. cbn. now rewrite beqb_refl. Qed.

Lemma read_groups_mapped l g m : g < 65536 -> m < 2 ^ 32 ->
  read_groups (S (S (S l))) true (hex g ++ ":"%byte :: show_ipv4 m) = ([g; m / 65536; m mod 65536], true, []).
Proof.
  intros Hg Hm. cbn [read_groups read_sep]. rewrite read_ipv4_hex by (cbn; auto; lia).
  rewrite read_hex by (cbn; auto; lia). rewrite read_char_eq. cbn [obind].
  pose proof (read_ipv4_show m [] Hm Logic.I) as R. rewrite app_nil_r in R. now rewrite R.
Qed.

Lemma read_ipv6_show n : n < 2 ^ 128 -> read_ipv6 (show_ipv6 n) = Some (n, []).
Proof.
  intros Hn. unfold show_ipv6. destruct (N.eqb_spec (n / 2 ^ 32) 65535) as [E|NE].
  - unfold read_ipv6.
    assert (H4 : n mod 2 ^ 32 < 2 ^ 32) by (apply N.mod_lt; lia).
    replace (bs "::ffff:" ++ show_ipv4 (n mod 2 ^ 32)) with
      (":"%byte :: ":"%byte :: bs "ffff:" ++ show_ipv4 (n mod 2 ^ 32)) by reflexivity.
    rewrite read_groups_stop by (right; eauto). cbn [length Nat.eqb].
    rewrite read_char_eq. cbn [obind]. rewrite read_char_eq. cbn [obind].
    change (8 - (0 + 1))%nat with 7%nat.
    replace (bs "ffff:" ++ show_ipv4 (n mod 2 ^ 32)) with (hex 65535 ++ ":"%byte :: show_ipv4 (n mod 2 ^ 32))
      by reflexivity.
    rewrite read_groups_mapped by (auto; lia).
    cbn [app length repeat]. do 2 f_equal. unfold segs_val. cbn [fold_left Nat.sub app repeat].
    change (2 ^ 32) with 4294967296 in *.
    pose proof (N.div_mod n 4294967296 ltac:(lia)) as D. rewrite E in D.
    pose proof (N.div_mod (n mod 4294967296) 65536 ltac:(lia)) as D2. lia.
  - pose proof (segments_val n Hn) as V. pose proof (segs_of_length 8 n) as HL. pose proof (segs_of_bound 8 n) as HB.
    fold (segments n) in HL, HB.
    pose proof (zero_run_spec [] (segments n) (O, O) (O, O)) as Z. cbn [length app] in Z.
    destruct (zero_run 0 (segments n) (O, O) (O, O)) as [start len].
    destruct Z as [Z1 Z2]; [apply zeros_at_0; lia|left; reflexivity|]. cbn [fst snd] in *.
    destruct (Nat.ltb_spec 1 len) as [H1|H1].
    + unfold read_ipv6. replace (bs "::") with [":"%byte; ":"%byte] by reflexivity.
      assert (HBs : Forall (fun g => g < 65536) (firstn start (segments n)) /\
                    Forall (fun g => g < 65536) (skipn (start + len) (segments n))).
      { rewrite skipn_add. rewrite <- (firstn_skipn start (segments n)) in HB. apply Forall_app in HB as [A B].
        rewrite <- (firstn_skipn len (skipn start (segments n))) in B. apply Forall_app in B as [_ B]. auto. }
      destruct HBs as [HB1 HB2].
      assert (HL1 : length (firstn start (segments n)) = start) by (rewrite firstn_length; lia).
      assert (HL2 : length (skipn (start + len) (segments n)) = (8 - start - len)%nat) by (rewrite skipn_length; lia).
      rewrite read_groups_join by (first [exact HB1 | lia | right; eexists; reflexivity]).
      rewrite HL1. destruct (Nat.eqb_spec start 8); [lia|].
      cbn [app]. rewrite read_char_eq. cbn [obind]. rewrite read_char_eq. cbn [obind].
      pose proof (read_groups_join (skipn (start + len) (segments n)) (8 - (start + 1)) [] HB2) as R.
      rewrite app_nil_r in R. rewrite R by (first [lia | left; reflexivity]).
      rewrite HL2. replace (8 - start - (8 - start - len))%nat with len by lia.
      rewrite <- Z2, skipn_add, firstn_skipn, firstn_skipn, V. reflexivity.
    + unfold read_ipv6. pose proof (read_groups_join (segments n) 8 [] HB) as R. rewrite app_nil_r in R.
      rewrite R by (first [lia | left; reflexivity]). rewrite HL. cbn [Nat.eqb]. now rewrite V.
Qed.

Lemma read_ipv4_show6 n : n < 2 ^ 128 -> read_ipv4 (show_ipv6 n) = None.
Proof.
  intros Hn. unfold show_ipv6. destruct (n / 2 ^ 32 =? 65535); [apply read_ipv4_colon|].
  pose proof (segs_of_length 8 n) as HL. pose proof (segs_of_bound 8 n) as HB. fold (segments n) in *.
  assert (G : forall l r, Forall (fun g => g < 65536) l -> l <> [] \/ r <> [] -> colon_or_end r -> read_ipv4 (join_segs l ++ r) = None).
  { intros l r HF Hne Hr. destruct l as [|x l].
    - destruct r as [|c r]; [destruct Hne; congruence|]. cbn in Hr. subst. apply read_ipv4_colon.
    - rewrite join_segs_cons, <- app_assoc. inversion HF; subst. apply read_ipv4_hex; auto.
      now apply colon_segs_colon. }
  destruct (zero_run 0 (segments n) (O, O) (O, O)) as [start len]. destruct (Nat.ltb 1 len).
  - apply G; [|right; discriminate|reflexivity].
    rewrite <- (firstn_skipn start (segments n)) in HB. now apply Forall_app in HB.
  - rewrite <- (app_nil_r (join_segs _)). apply G; [auto| |exact Logic.I].
    left. intros E. rewrite E in HL. discriminate.
Qed.

Lemma parse_show_ip i : wf_ip i -> parse_ip (show_ip i) = Some i.
Proof.
  destruct i as [n|n]; cbn [wf_ip show_ip]; intros H; unfold parse_ip.
  - pose proof (read_ipv4_show n [] H Logic.I) as R. rewrite app_nil_r in R. now rewrite R.
  - now rewrite read_ipv4_show6, read_ipv6_show.
Qed.
