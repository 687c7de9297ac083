From Verif Require Import Base BaseFacts S_Types M_Net M_Util M_Types.

Lemma hex_sym_spec b : hex_sym b = hex_value b.
Proof. destruct b; reflexivity. Qed.
Lemma b32_sym_spec b : b32_sym b = base32_value b.
Proof. destruct b; reflexivity. Qed.
Lemma hex_sym_lt b v : hex_sym b = Some v -> v < 16.
Proof. destruct b; cbn; intros E; try discriminate; injection E as <-; lia. Qed.
Lemma b32_sym_lt b v : b32_sym b = Some v -> v < 32.
Proof. destruct b; cbn; intros E; try discriminate; injection E as <-; lia. Qed.

Lemma be_val_fold l : forall a, fold_left (fun a b => a * 256 + b2n b) l a = a * 256 ^ N.of_nat (length l) + be_val l.
Proof.
  unfold be_val. induction l as [|b l IH]; intros a; cbn [fold_left length]; [lia|].
  rewrite IH, (IH (0 * 256 + b2n b)), Nat2N.inj_succ, N.pow_succ_r'. lia.
Qed.

Lemma be_val_cons b l : be_val (b :: l) = b2n b * 256 ^ N.of_nat (length l) + be_val l.
Proof. unfold be_val at 1. cbn [fold_left]. rewrite be_val_fold. lia. Qed.

Lemma be_val_app a b : be_val (a ++ b) = be_val a * 256 ^ N.of_nat (length b) + be_val b.
Proof. unfold be_val at 1. rewrite fold_left_app, be_val_fold. reflexivity. Qed.

(** ** Hexadecimal *)
Lemma hex_decode_sound : forall n s, (length s <= n)%nat -> forall h, hex_decode s = Some h ->
  length s = (2 * length h)%nat /\ number 16 hex_value s = Some (be_val h) /\ is_numeral hex_value s.
Proof.
  induction n as [|n IH]; intros s L h H.
  - destruct s; [|cbn in L; lia]. injection H as <-. repeat split. constructor.
  - destruct s as [|a [|b r]]; [injection H as <-; repeat split; constructor|discriminate|].
    cbn [hex_decode] in H.
    destruct (hex_sym a) as [x|] eqn:Ea; [|discriminate].
    destruct (hex_sym b) as [y|] eqn:Eb; [|discriminate].
    destruct (hex_decode r) as [t|] eqn:Er; [|discriminate]. cbn [obind] in H. injection H as <-.
    cbn [length] in L. destruct (IH r ltac:(lia) t Er) as (H1 & H2 & H3).
    pose proof (hex_sym_lt _ _ Ea). pose proof (hex_sym_lt _ _ Eb).
    rewrite hex_sym_spec in Ea, Eb.
    split; [cbn [length]; lia|]. split.
    + cbn [number length]. rewrite Ea, Eb, H2. cbn [obind]. f_equal.
      rewrite be_val_cons, b2n_n2b_small by lia. rewrite H1.
      replace (N.of_nat (S (2 * length t))) with (1 + 2 * N.of_nat (length t)) by lia.
      replace (N.of_nat (2 * length t)) with (2 * N.of_nat (length t)) by lia.
      rewrite N.pow_add_r, N.pow_mul_r. change (16 ^ 1) with 16. change (16 ^ 2) with 256. lia.
    + constructor; [congruence|]. constructor; [congruence|exact H3].
Qed.

Lemma hex_decode_complete : forall n s, (length s = 2 * n)%nat -> is_numeral hex_value s ->
  exists h, hex_decode s = Some h /\ length h = n.
Proof.
  induction n as [|n IH]; intros s L H.
  - destruct s; [|discriminate]. exists []. auto.
  - destruct s as [|a [|b r]]; cbn [length] in L; try lia.
    inversion H as [|? ? Ha H']; subst. inversion H' as [|? ? Hb Hr]; subst.
    destruct (IH r ltac:(lia) Hr) as (t & Et & Lt).
    cbn [hex_decode]. rewrite !hex_sym_spec.
    destruct (hex_value a) as [x|]; [|congruence]. destruct (hex_value b) as [y|]; [|congruence].
    cbn [obind]. rewrite Et. cbn [obind]. eexists. split; [reflexivity|]. cbn; lia.
Qed.

(** ** Base 32 *)
Lemma fold32 l : forall a, fold_left (fun x v => x * 32 + v) l a = a * 32 ^ N.of_nat (length l) + fold_left (fun x v => x * 32 + v) l 0.
Proof.
  induction l as [|v l IH]; intros a; cbn [fold_left length]; [lia|].
  rewrite IH, (IH (0 * 32 + v)). rewrite Nat2N.inj_succ, N.pow_succ_r'. lia.
Qed.

Lemma fold32_lt l : Forall (fun v => v < 32) l -> fold_left (fun x v => x * 32 + v) l 0 < 32 ^ N.of_nat (length l).
Proof.
  induction l as [|v l IH]; intros HF; [cbn; lia|]. inversion HF as [|? ? Hv Hl]; subst.
  cbn [fold_left length]. rewrite fold32, Nat2N.inj_succ, N.pow_succ_r'. specialize (IH Hl). nia.
Qed.

Lemma b32_vals_spec s vs : b32_vals s = Some vs ->
  length vs = length s /\ Forall (fun v => v < 32) vs /\ is_numeral base32_value s /\
  number 32 base32_value s = Some (fold_left (fun x v => x * 32 + v) vs 0).
Proof.
  revert vs; induction s as [|c r IH]; intros vs H; cbn [b32_vals] in H.
  - injection H as <-. repeat split; constructor.
  - destruct (b32_sym c) as [v|] eqn:E; [|discriminate]. cbn [obind] in H.
    destruct (b32_vals r) as [t|]; [|discriminate]. injection H as <-.
    destruct (IH t eq_refl) as (H1 & H2 & H3 & H4). pose proof (b32_sym_lt _ _ E).
    rewrite b32_sym_spec in E.
    split; [cbn; lia|]. split; [constructor; auto|]. split; [constructor; [congruence|auto]|].
    cbn [number]. rewrite E, H4. cbn [obind fold_left]. rewrite (fold32 t (0 * 32 + v)), H1. f_equal.
Qed.

Lemma b32_vals_complete s : is_numeral base32_value s -> exists vs, b32_vals s = Some vs.
Proof.
  induction 1 as [|c r Hc HF (vs & IH)]; [eexists; reflexivity|].
  cbn [b32_vals]. rewrite b32_sym_spec. destruct (base32_value c); [|congruence].
  cbn [obind]. rewrite IH. eexists; reflexivity.
Qed.

Lemma b32_blocks_spec : forall n fuel vs, (length vs = 8 * n)%nat -> (n <= fuel)%nat -> Forall (fun v => v < 32) vs ->
  exists h, b32_blocks fuel vs = Some h /\ length h = (5 * n)%nat /\ be_val h = fold_left (fun x v => x * 32 + v) vs 0.
Proof.
  induction n as [|n IH]; intros fuel vs L HF HB.
  - destruct vs; [|discriminate]. exists []. destruct fuel; auto.
  - destruct vs as [|a [|b [|c [|d [|e [|f [|g [|h r]]]]]]]]; cbn [length] in L; try lia.
    destruct fuel as [|fuel]; [lia|].
    change (a :: b :: c :: d :: e :: f :: g :: h :: r) with ([a; b; c; d; e; f; g; h] ++ r) in HB.
    apply Forall_app in HB as [HB1 HB2].
    destruct (IH fuel r ltac:(lia) ltac:(lia) HB2) as (t & Et & Lt & Vt).
    cbn [b32_blocks]. rewrite Et. cbn [obind]. eexists. split; [reflexivity|].
    pose proof (fold32_lt _ HB1) as HL. change (32 ^ N.of_nat (length [a; b; c; d; e; f; g; h])) with (256 ^ N.of_nat 5) in HL.
    split; [rewrite app_length, be_bytes_length; lia|].
    rewrite be_val_app, be_val_be_bytes_small by exact HL.
    change (a :: b :: c :: d :: e :: f :: g :: h :: r) with ([a; b; c; d; e; f; g; h] ++ r).
    rewrite fold_left_app, (fold32 r), Vt. do 2 f_equal.
    replace (length r) with (8 * n)%nat by lia. rewrite Lt.
    replace (N.of_nat (5 * n)) with (5 * N.of_nat n) by lia. replace (N.of_nat (8 * n)) with (8 * N.of_nat n) by lia.
    rewrite !N.pow_mul_r. reflexivity.
Qed.

(** ** Parsing *)
Lemma parse_accepts s : (exists h, parse_info_hash s = Ok h) <->
  (length s = 40%nat /\ is_numeral hex_value s) \/ (length s = 32%nat /\ is_numeral base32_value s).
Proof.
  unfold parse_info_hash, from_base32, from_hex, b32_decode, info_hash_of_vec. split.
  - intros [h H]. destruct (Nat.eqb_spec (length s) 32) as [L|L].
    + right. split; [exact L|]. destruct (b32_vals s) eqn:E; [|discriminate].
      now apply b32_vals_spec in E.
    + left. destruct (hex_decode s) as [v|] eqn:E; [|discriminate].
      destruct (hex_decode_sound _ _ (le_n _) _ E) as (H1 & _ & H3).
      destruct (Nat.eqb_spec (length v) 20); [|discriminate]. split; [lia|auto].
  - intros [[L H]|[L H]].
    + rewrite L. cbn [Nat.eqb]. destruct (hex_decode_complete 20 s L H) as (h & -> & Lh). rewrite Lh.
      cbn [Nat.eqb]. eauto.
    + rewrite L. cbn [Nat.eqb]. destruct (b32_vals_complete s H) as (vs & E). rewrite E. cbn [obind].
      apply b32_vals_spec in E as (H1 & H2 & _).
      destruct (b32_blocks_spec 4 (length vs) vs) as (h & -> & Lh & _); auto; try lia.
      rewrite Lh. cbn [Nat.eqb Nat.mul Nat.add]. eauto.
Qed.

Lemma parse_numeric s h : parse_info_hash s = Ok h ->
  length h = 20%nat /\
  ((length s = 40%nat /\ number 16 hex_value s = Some (be_val h)) \/
   (length s = 32%nat /\ number 32 base32_value s = Some (be_val h))).
Proof.
  unfold parse_info_hash, from_base32, from_hex, b32_decode, info_hash_of_vec.
  destruct (Nat.eqb_spec (length s) 32) as [L|L].
  - destruct (b32_vals s) as [vs|] eqn:E; [|discriminate]. cbn [obind].
    apply b32_vals_spec in E as (H1 & H2 & _ & H4).
    destruct (b32_blocks_spec 4 (length vs) vs) as (h' & -> & Lh & V); auto; try lia.
    rewrite Lh. cbn [Nat.eqb Nat.mul Nat.add]. intros [= <-]. split; [exact Lh|].
    right. rewrite V. auto.
  - destruct (hex_decode s) as [v|] eqn:E; [|discriminate].
    destruct (hex_decode_sound _ _ (le_n _) _ E) as (H1 & H2 & _).
    destruct (Nat.eqb_spec (length v) 20); [|discriminate]. intros [= <-]. split; [auto|]. left. split; [lia|auto].
Qed.

Lemma hex_digit_back d : d < 16 -> hex_sym (hex_digit d) = Some d /\ lower_hex_digit (hex_digit d).
Proof.
  intros H. assert (C : In d [0;1;2;3;4;5;6;7;8;9;10;11;12;13;14;15]) by (cbn [In]; lia).
  cbn [In] in C.
  repeat (destruct C as [<-|C]; [split; [reflexivity|cbn; auto 20]|]). destruct C.
Qed.

Lemma hex_decode_show h : hex_decode (show_info_hash h) = Some h.
Proof.
  induction h as [|b h IH]; [reflexivity|]. cbn [show_info_hash flat_map app hex_decode].
  pose proof (b2n_bound b).
  destruct (hex_digit_back (b2n b / 16)) as [-> _]; [lia|].
  destruct (hex_digit_back (b2n b mod 16)) as [-> _]; [lia|].
  cbn [obind]. unfold show_info_hash in IH. rewrite IH. cbn [obind]. f_equal. f_equal.
  replace (b2n b / 16 * 16 + b2n b mod 16) with (b2n b) by lia. apply n2b_b2n.
Qed.

Lemma show_length h : length (show_info_hash h) = (2 * length h)%nat.
Proof. induction h; cbn [show_info_hash flat_map]; [auto|]. rewrite app_length. cbn [length]. unfold show_info_hash in IHh. lia. Qed.

Lemma show_hex h : Forall lower_hex_digit (show_info_hash h).
Proof.
  induction h as [|b h IH]; cbn [show_info_hash flat_map]; [constructor|].
  pose proof (b2n_bound b). cbn [app].
  constructor; [apply hex_digit_back; lia|]. constructor; [apply hex_digit_back; lia|]. exact IH.
Qed.

Lemma show_parse h : length h = 20%nat ->
  parse_info_hash (show_info_hash h) = Ok h /\
  length (show_info_hash h) = 40%nat /\ Forall lower_hex_digit (show_info_hash h).
Proof.
  intros L. unfold parse_info_hash, from_hex, info_hash_of_vec. rewrite hex_decode_show, show_length, L.
  cbn [Nat.eqb Nat.mul Nat.add]. auto using show_hex.
Qed.

(** ** Peer ids *)
Lemma generate_len prefix rng : length (generate_peer_id prefix rng) = 20%nat.
Proof. unfold generate_peer_id. now rewrite map_length, seq_length. Qed.

Lemma generate_go prefix rng m : forall k (p : bytes), skipn k prefix = p ->
  map (fun i => match nth_error prefix i with Some b => b | None => rng i end) (seq k m) =
  firstn m p ++ map rng (seq (k + length p) (m - length p)).
Proof.
  induction m as [|m IH]; intros k p E; [reflexivity|].
  cbn [seq map]. rewrite (IH (S k) (skipn 1 p)).
  2:{ rewrite <- E, <- skipn_add. f_equal. lia. }
  assert (N : nth_error prefix k = nth_error p 0).
  { rewrite <- E. clear. revert k; induction prefix as [|b q IH]; intros [|k]; auto. apply (IH k). }
  rewrite N. destruct p as [|b p].
  - cbn [nth_error skipn firstn app length]. rewrite firstn_nil, !Nat.add_0_r, !Nat.sub_0_r. reflexivity.
  - cbn [nth_error skipn firstn app length]. replace (S k + length p)%nat with (k + S (length p))%nat by lia. reflexivity.
Qed.

Lemma generate_eq prefix rng :
  generate_peer_id prefix rng = firstn 20 prefix ++ map rng (seq (length prefix) (20 - length prefix)).
Proof. exact (generate_go prefix rng 20 0 prefix eq_refl). Qed.

Lemma generate_ok prefix rng : (forall i, is_alnum (rng i) = true) ->
  length (generate_peer_id prefix rng) = 20%nat /\
  exists tail, generate_peer_id prefix rng = firstn 20 prefix ++ tail /\
               Forall (fun b => is_alnum b = true) tail.
Proof.
  intros H. split; [apply generate_len|]. eexists. split; [apply generate_eq|].
  apply Forall_forall. intros b Hb. apply in_map_iff in Hb as (i & <- & _). apply H.
Qed.
