(** Lemmas for C42-C46, C73. *)
From Verif Require Import Base BaseFacts M_Sha1 M_Rc4 M_Mse S_Mse.

Ltac conjs := repeat match goal with |- _ /\ _ => split end.

(** *** RC4 *)
Lemma lxor_mod a b : N.lxor a b mod 256 = N.lxor (a mod 256) (b mod 256).
Proof.
  change 256 with (2 ^ 8). rewrite <- !N.land_ones. apply N.bits_inj. intros i.
  rewrite !N.lxor_spec, !N.land_spec, N.lxor_spec. destruct (N.testbit a i), (N.testbit b i), (N.testbit (N.ones 8) i); reflexivity.
Qed.
Lemma xor_twice x k : n2b (N.lxor (b2n (n2b (N.lxor (b2n x) k))) k) = x.
Proof.
  apply b2n_inj. rewrite !b2n_n2b, lxor_mod, N.mod_mod, lxor_mod by lia.
  rewrite N.lxor_assoc, N.lxor_nilpotent, N.lxor_0_r. apply N.mod_small, b2n_bound.
Qed.
Lemma rc4_app a b st : rc4_apply st (a ++ b) =
  (let (a', st1) := rc4_apply st a in let (b', st2) := rc4_apply st1 b in (a' ++ b', st2)).
Proof.
  revert st; induction a as [|x a IH]; intros st; cbn [app rc4_apply].
  - now destruct rc4_apply.
  - destruct (rc4_next st) as [k st1]. rewrite IH. destruct (rc4_apply st1 a) as [a' st2], (rc4_apply st2 b); reflexivity.
Qed.
Lemma rc4_length st b : length (fst (rc4_apply st b)) = length b.
Proof.
  revert st; induction b as [|x b IH]; intros st; cbn [rc4_apply]; [reflexivity|].
  destruct (rc4_next st) as [k st1]. specialize (IH st1). destruct (rc4_apply st1 b). cbn [fst length] in *. congruence.
Qed.
Lemma rc4_state st a b : length a = length b -> snd (rc4_apply st a) = snd (rc4_apply st b).
Proof.
  revert st b; induction a as [|x a IH]; intros st [|y b] L; try discriminate L; cbn [rc4_apply]; [reflexivity|].
  destruct (rc4_next st) as [k st1]. injection L as L. specialize (IH st1 b L).
  destruct (rc4_apply st1 a), (rc4_apply st1 b). exact IH.
Qed.
Lemma rc4_inv st b : rc4_apply st (fst (rc4_apply st b)) = (b, snd (rc4_apply st b)).
Proof.
  revert st; induction b as [|x b IH]; intros st; cbn [rc4_apply]; [reflexivity|].
  destruct (rc4_next st) as [k st1] eqn:E. specialize (IH st1). destruct (rc4_apply st1 b) as [b' st2].
  cbn [fst snd rc4_apply] in *. rewrite E, IH, xor_twice. reflexivity.
Qed.
Lemma ks_decode_app k a b : ks_decode k (a ++ b) =
  (let (a', k1) := ks_decode k a in let (b', k2) := ks_decode k1 b in (a' ++ b', k2)).
Proof.
  destruct k; cbn [ks_decode]; [reflexivity|]. rewrite rc4_app. destruct (rc4_apply incoming a) as [a' i1]. cbn [ks_decode].
  destruct (rc4_apply i1 b); reflexivity.
Qed.
Lemma ks_decode_nil k : ks_decode k [] = ([], k). Proof. destruct k; reflexivity. Qed.
Lemma ks_decode_length k b : length (fst (ks_decode k b)) = length b.
Proof. destruct k; cbn [ks_decode]; [reflexivity|]. pose proof (rc4_length incoming b). destruct rc4_apply; exact H. Qed.
Lemma ks_encode_app k a b : ks_encode k (a ++ b) =
  (let (a', k1) := ks_encode k a in let (b', k2) := ks_encode k1 b in (a' ++ b', k2)).
Proof.
  destruct k; cbn [ks_encode]; [reflexivity|]. rewrite rc4_app. destruct (rc4_apply outgoing a) as [a' i1]. cbn [ks_encode].
  destruct (rc4_apply i1 b); reflexivity.
Qed.
Lemma ks_encode_nil k : ks_encode k [] = ([], k). Proof. destruct k; reflexivity. Qed.

(** *** Modular exponentiation *)
Lemma modpow_pos_spec b e m : m <> 0 -> modpow_pos b e m = b ^ Npos e mod m.
Proof.
  intros NZ. induction e as [e IH|e IH|]; cbn [modpow_pos].
  - rewrite IH. replace (Npos e~1) with (Npos e + Npos e + 1) by lia. rewrite !N.pow_add_r, N.pow_1_r.
    rewrite <- N.mul_mod by auto. rewrite N.mul_mod_idemp_l by auto. reflexivity.
  - rewrite IH. replace (Npos e~0) with (Npos e + Npos e) by lia. rewrite N.pow_add_r. now rewrite <- N.mul_mod by auto.
  - now rewrite N.pow_1_r.
Qed.
Lemma modpow_spec b e m : m <> 0 -> modpow b e m = b ^ e mod m.
Proof. intros NZ. destruct e; [reflexivity|]. now apply modpow_pos_spec. Qed.
Lemma pow_mod_l a n m : m <> 0 -> (a mod m) ^ n mod m = a ^ n mod m.
Proof.
  intros NZ. induction n as [|n IH] using N.peano_ind; [reflexivity|].
  rewrite !N.pow_succ_r', N.mul_mod, IH, N.mod_mod by auto. now rewrite <- N.mul_mod by auto.
Qed.
Lemma P_eq : P = prime_modulus. Proof. reflexivity. Qed.
Lemma P_pos : P <> 0. Proof. discriminate. Qed.
Lemma P_bound : P < 256 ^ N.of_nat 96. Proof. apply N.ltb_lt. vm_compute. reflexivity. Qed.
Global Opaque P prime_modulus.
Lemma residue_bytes n : be_val (key_bytes (n mod P)) = n mod P.
Proof. unfold key_bytes. apply be_val_be_bytes_small. eapply N.lt_trans; [apply N.mod_lt, P_pos|apply P_bound]. Qed.
Lemma key_length n : length (key_bytes n) = 96%nat. Proof. apply be_bytes_length. Qed.
(** Diffie-Hellman *)
Lemma shared_comm a b : shared (public b) a = shared (public a) b.
Proof.
  unfold shared, public. rewrite !residue_bytes, !pow_mod_l by apply P_pos. f_equal. f_equal.
  rewrite <- !N.pow_mul_r. f_equal. lia.
Qed.

(** *** The input loop *)
Lemma blen_app (a b : bytes) : blen (a ++ b) = blen a + blen b.
Proof. unfold blen. rewrite app_length. lia. Qed.
Lemma splitN_short n b c : n <= blen b -> splitN n (b ++ c) = (fst (splitN n b), snd (splitN n b) ++ c).
Proof.
  intros H. unfold splitN, blen in *. cbn [fst snd]. rewrite firstn_app, skipn_app.
  replace (N.to_nat n - length b)%nat with 0%nat by lia. cbn [firstn skipn]. now rewrite app_nil_r.
Qed.
Definition enter (provide : N) (st : hs_state) (buf : bytes) : res hs_error (hs_state * bytes) :=
  match st with
  | Packet4 ks Vc => in_vc provide ks buf
  | Packet4 ks Select => in_select provide ks buf
  | Packet4 ks (LenPadD m) => in_len ks m buf
  | Packet4 ks (PadD m needed) => in_padd ks m needed buf
  | st => Ok (st, buf)
  end.
Lemma handle_input_enter s b : handle_input s b =
  (let? (st, rest) := enter (h_provide s) (h_state s) (h_input s ++ b) in Ok (set_input s st rest)).
Proof. unfold handle_input, enter. destruct (h_state s) as [|ks []|]; reflexivity. Qed.
Definition resume (provide : N) (r : res hs_error (hs_state * bytes)) (b : bytes) : res hs_error (hs_state * bytes) :=
  let? (st, rest) := r in enter provide st (rest ++ b).
Lemma in_padd_app pv ks m n buf b : in_padd ks m n (buf ++ b) = resume pv (in_padd ks m n buf) b.
Proof.
  unfold in_padd. rewrite blen_app. destruct (N.leb_spec n (blen buf)) as [L|L].
  - rewrite !N.min_l by lia. rewrite splitN_short by auto. destruct (splitN n buf) as [p rest]. cbn [fst snd].
    destruct (ks_decode ks p) as [x ks']. replace (n - n) with 0 by lia. cbn [N.eqb]. reflexivity.
  - rewrite (N.min_r n (blen buf)) by lia.
    assert (E : splitN (blen buf) buf = (buf, [])).
    { unfold splitN, blen. rewrite Nat2N.id, firstn_all, skipn_all. reflexivity. }
    rewrite E. destruct (ks_decode ks buf) as [x ks1] eqn:K1. destruct (N.eqb_spec (n - blen buf) 0); [lia|].
    unfold resume. cbn [res_bind enter]. cbn [app]. unfold in_padd.
    replace (N.min n (blen buf + blen b)) with (blen buf + N.min (n - blen buf) (blen b)) by lia.
    assert (E2 : splitN (blen buf + N.min (n - blen buf) (blen b)) (buf ++ b) =
            (buf ++ fst (splitN (N.min (n - blen buf) (blen b)) b), snd (splitN (N.min (n - blen buf) (blen b)) b))).
    { unfold splitN. cbn [fst snd]. generalize (N.min (n - blen buf) (blen b)) as q. intros q. rewrite N2Nat.inj_add.
      unfold blen. rewrite !Nat2N.id, firstn_app_2. f_equal. rewrite skipn_app. rewrite skipn_all2 by lia. cbn [app]. f_equal. lia. }
    rewrite E2. destruct (splitN (N.min (n - blen buf) (blen b)) b) as [p rest]. cbn [fst snd].
    rewrite ks_decode_app, K1. destruct (ks_decode ks1 p) as [y ks2].
    replace (n - (blen buf + N.min (n - blen buf) (blen b))) with (n - blen buf - N.min (n - blen buf) (blen b)) by lia.
    reflexivity.
Qed.
Lemma in_len_app pv ks m buf b : in_len ks m (buf ++ b) = resume pv (in_len ks m buf) b.
Proof.
  unfold in_len at 2. destruct (N.ltb_spec (blen buf) 2) as [L|L]; [reflexivity|].
  unfold in_len. rewrite blen_app. destruct (N.ltb_spec (blen buf + blen b) 2); [lia|].
  rewrite splitN_short by auto. destruct (splitN 2 buf) as [p rest]. cbn [fst snd]. destruct (ks_decode ks p). apply in_padd_app.
Qed.
Lemma in_select_app pv ks buf b : in_select pv ks (buf ++ b) = resume pv (in_select pv ks buf) b.
Proof.
  unfold in_select at 2. destruct (N.ltb_spec (blen buf) 4) as [L|L]; [reflexivity|].
  unfold in_select. rewrite blen_app. destruct (N.ltb_spec (blen buf + blen b) 4); [lia|].
  rewrite splitN_short by auto. destruct (splitN 4 buf) as [p rest]. cbn [fst snd]. destruct (ks_decode ks p).
  destruct (negb (count_ones (be_val b0) =? 1)); [reflexivity|]. destruct (method_of (be_val b0)); [|reflexivity].
  destruct (negb (set_contains pv c)); [reflexivity|]. apply in_len_app.
Qed.
Lemma in_vc_app pv ks buf b : in_vc pv ks (buf ++ b) = resume pv (in_vc pv ks buf) b.
Proof.
  unfold in_vc at 2. destruct (N.ltb_spec (blen buf) 8) as [L|L]; [reflexivity|].
  unfold in_vc. rewrite blen_app. destruct (N.ltb_spec (blen buf + blen b) 8); [lia|].
  rewrite splitN_short by auto. destruct (splitN 8 buf) as [p rest]. cbn [fst snd]. destruct (ks_decode ks p).
  destruct (negb (forallb (Byte.eqb x00) b0)); [reflexivity|]. apply in_select_app.
Qed.
Lemma enter_app pv st buf b : enter pv st (buf ++ b) = resume pv (enter pv st buf) b.
Proof.
  destruct st as [k|ks [| |m|m n]|ks]; cbn [enter]; try reflexivity.
  - apply in_vc_app.
  - apply in_select_app.
  - apply in_len_app.
  - apply in_padd_app.
Qed.
(** Feeding two pieces is feeding their concatenation. *)
Lemma handle_input_app s a b : handle_input s (a ++ b) = (let? s1 := handle_input s a in handle_input s1 b).
Proof.
  rewrite !handle_input_enter, app_assoc, enter_app. unfold resume.
  destruct (enter (h_provide s) (h_state s) (h_input s ++ a)) as [[st rest]|e]; [|reflexivity].
  cbn [res_bind]. rewrite handle_input_enter. unfold set_input. cbn [h_state h_input h_provide]. reflexivity.
Qed.
Fixpoint feed (s : shaker) (l : list bytes) : res hs_error shaker :=
  match l with [] => Ok s | b :: r => let? s1 := handle_input s b in feed s1 r end.

(** *** The driver *)
Definition stable (s : shaker) : Prop := handle_input s [] = Ok s.
Lemma handle_input_stable s b s1 : handle_input s b = Ok s1 -> stable s1.
Proof. intros H. pose proof (handle_input_app s b []) as E. rewrite app_nil_r, H in E. cbn [res_bind] in E. unfold stable. now rewrite <- E. Qed.
Lemma handle_input_fields s b s1 : handle_input s b = Ok s1 ->
  h_output s1 = h_output s /\ h_timeout s1 = h_timeout s /\ h_provide s1 = h_provide s /\ h_skey s1 = h_skey s /\ h_padc_len s1 = h_padc_len s.
Proof.
  rewrite handle_input_enter. destruct enter as [[st rest]|]; [|discriminate]. cbn [res_bind]. intros E. injection E as <-. unfold set_input. cbn. auto.
Qed.
Definition clear (s : shaker) : shaker := mkShaker (h_state s) None (h_padc_len s) (h_skey s) None (h_input s) (h_provide s).
Lemma clear_id s : h_output s = None -> h_timeout s = None -> clear s = s.
Proof. destruct s; cbn. intros -> ->. reflexivity. Qed.
Definition dl_of (s : shaker) (deadline : option N) (now : N) : outcome (option N) :=
  match h_timeout s with
  | Some secs => match instant_add now secs with Ret d => Ret (Some d) | Panic => Panic end
  | None => Ret deadline
  end.
Definition after_wait (f : nat) (s : shaker) (deadline : option N) (now : N) (reads : script) : list (N * bytes) * hs_out :=
  let read (t : N) (r : read_result) (reads' : script) :=
    match r with
    | RData b => match handle_input s b with Err e => ([], HFail t e) | Ok s2 => hs_loop f s2 deadline t reads' end
    | REof => ([], HFail t HDisconnect)
    | RError => ([], HFail t HRecv)
    end in
  let expire (d : N) :=
    match handle_timeout s with Err e => ([], HFail d e) | Ok s2 => hs_loop f s2 None d reads end in
  match reads, deadline with
  | (t, r) :: reads', Some d => if N.max now t <=? d then read (N.max now t) r reads' else expire d
  | (t, r) :: reads', None => read (N.max now t) r reads'
  | [], Some d => expire d
  | [], None => ([], HWait)
  end.
Lemma hs_loop_S f s dl now reads : hs_loop (S f) s dl now reads =
  match into_keystream s with
  | Some (ks, rest) => ([], HDone now ks rest reads)
  | None =>
      let out := match h_output s with Some b => [(now, b)] | None => [] end in
      match dl_of s dl now with
      | Panic => (out, HPanic)
      | Ret dl' => let (out', r) := after_wait f (clear s) dl' now reads in (out ++ out', r)
      end
  end.
Proof. reflexivity. Qed.
Lemma pair_nil {A B} (p : list A * B) : (let (a, b) := p in ([] ++ a, b)) = p. Proof. destruct p; reflexivity. Qed.
Lemma hs_loop_wait f s dl now reads : into_keystream s = None -> h_output s = None -> h_timeout s = None ->
  hs_loop (S f) s dl now reads = after_wait f s dl now reads.
Proof.
  intros K O T. rewrite hs_loop_S, K, O. unfold dl_of. rewrite T. cbn zeta. rewrite pair_nil, clear_id by auto. reflexivity.
Qed.
(** The first iteration, or the one after the deadline: writing comes first. *)
Lemma hs_loop_out f s dl now reads : into_keystream s = None ->
  hs_loop (S f) s dl now reads =
  let out := match h_output s with Some b => [(now, b)] | None => [] end in
  match dl_of s dl now with
  | Panic => (out, HPanic)
  | Ret dl' => let (out', r) := hs_loop (S f) (clear s) dl' now reads in (out ++ out', r)
  end.
Proof. intros K. rewrite hs_loop_S, K. cbn zeta. destruct dl_of; [|reflexivity]. rewrite hs_loop_wait; auto. Qed.
Lemma data_cons e l : data (e :: l) = data_of e ++ data l. Proof. reflexivity. Qed.
Lemma data_app a b : data (a ++ b) = data a ++ data b.
Proof. unfold data. now rewrite map_app, concat_app. Qed.
Lemma only_data_cons t r l : only_data ((t, r) :: l) -> (exists b, r = RData b) /\ only_data l.
Proof. intros H. split; [eapply H; left; reflexivity|]. intros t' r' I'. eapply H. right. exact I'. Qed.

Lemma phase2 evs : forall f s now tail, stable s -> h_output s = None -> h_timeout s = None -> only_data evs ->
  (length evs + length tail < f)%nat ->
  match handle_input s (data evs) with
  | Err e => exists t, hs_loop f s None now (evs ++ tail) = ([], HFail t e)
  | Ok s' =>
      match into_keystream s' with
      | Some (ks, total) => exists t rest later, hs_loop f s None now (evs ++ tail) = ([], HDone t ks rest (later ++ tail)) /\
          rest ++ data later = total /\ only_data later
      | None => exists t, hs_loop f s None now (evs ++ tail) = hs_loop (f - length evs) s' None t tail
      end
  end.
Proof.
  induction evs as [|[t r] evs IH]; intros f s now tail ST O T OD F.
  - change (data []) with (@nil byte). rewrite ST. destruct (into_keystream s) as [[ks total]|] eqn:K.
    + exists now, total, []. destruct f; [cbn [length] in F; lia|]. cbn [app]. rewrite hs_loop_S, K. conjs; auto.
      apply app_nil_r.
    + exists now. cbn [app length]. rewrite Nat.sub_0_r. reflexivity.
  - apply only_data_cons in OD as ((b & ->) & OD). rewrite data_cons. cbn [data_of snd].
    destruct f; [cbn [length] in F; lia|]. cbn [length] in F.
    destruct (into_keystream s) as [[ks total]|] eqn:K.
    + unfold into_keystream in K. destruct (h_state s) eqn:S1; try discriminate K. injection K as -> <-.
      unfold handle_input. rewrite S1. unfold into_keystream, set_input. cbn [h_state h_input].
      exists now, (h_input s), ((t, RData b) :: evs). rewrite hs_loop_S. unfold into_keystream. rewrite S1.
      conjs; auto. intros t' r' [E|E]; [injection E as <- <-; eauto|eauto].
    + rewrite handle_input_app, <- app_comm_cons, hs_loop_wait by auto. unfold after_wait.
      destruct (handle_input s b) as [s1|e] eqn:H1; cbn [res_bind]; [|eauto].
      pose proof (handle_input_fields _ _ _ H1) as (O1 & T1 & _).
      apply (IH f s1 (N.max now t) tail); try assumption; try congruence; try lia. eapply handle_input_stable, H1.
Qed.

Lemma phase1 evs k d : forall f s now tail, h_state s = Packet2 k -> h_output s = None -> h_timeout s = None -> only_data evs ->
  (forall e, In e evs -> fst e <= d) -> now <= d -> (length evs + length tail < f)%nat ->
  exists t, t <= d /\ hs_loop f s (Some d) now (evs ++ tail) =
            hs_loop (f - length evs) (set_input s (Packet2 k) (h_input s ++ data evs)) (Some d) t tail.
Proof.
  induction evs as [|[t r] evs IH]; intros f s now tail S1 O T OD TD ND F.
  - exists now. split; auto. change (data []) with (@nil byte). rewrite app_nil_r. cbn [app length]. rewrite Nat.sub_0_r.
    replace (set_input s (Packet2 k) (h_input s)) with s; [reflexivity|]. destruct s; cbn in *; subst. reflexivity.
  - apply only_data_cons in OD as ((b & ->) & OD). destruct f; [cbn [length] in F; lia|]. cbn [length] in F.
    pose proof (TD _ (or_introl eq_refl)) as TT. cbn [fst] in TT.
    rewrite <- app_comm_cons, hs_loop_wait; auto; [|unfold into_keystream; now rewrite S1]. unfold after_wait.
    rewrite (proj2 (N.leb_le _ _)) by lia. unfold handle_input. rewrite S1.
    destruct (IH f (set_input s (Packet2 k) (h_input s ++ b)) (N.max now t) tail) as (t' & L' & E); auto; try lia.
    { intros e I1. apply TD. right. exact I1. }
    exists t'. split; auto. rewrite E. cbn [length Nat.sub]. f_equal. unfold set_input. cbn [h_output h_padc_len h_skey h_timeout h_provide h_input].
    rewrite data_cons, app_assoc. reflexivity.
Qed.
Lemma expire_step f s d now tail k : h_state s = Packet2 k -> h_output s = None -> h_timeout s = None ->
  (forall e r, tail = e :: r -> d < fst e) ->
  hs_loop (S f) s (Some d) now tail = match handle_timeout s with Err e => ([], HFail d e) | Ok s2 => hs_loop f s2 None d tail end.
Proof.
  intros S1 O T TL. rewrite hs_loop_wait; auto; [|unfold into_keystream; now rewrite S1]. unfold after_wait.
  destruct tail as [|[t r] tail]; [reflexivity|]. specialize (TL _ _ eq_refl). cbn [fst] in TL.
  destruct (N.leb_spec (N.max now t) d); [lia|reflexivity].
Qed.

(** *** Packet 3 *)
Definition header3 (padc_len : N) : bytes := repeat x00 8 ++ be_bytes 4 2 ++ be_bytes 2 padc_len ++ repeat x00 (N.to_nat padc_len) ++ be_bytes 2 0.
Definition packet3 (secret skey : bytes) (padc_len : N) : bytes :=
  sha1 (bs "req1" ++ secret) ++ xor (sha1 (bs "req2" ++ skey)) (sha1 (bs "req3" ++ secret)) ++
  fst (rc4_apply (cipher (bs "keyA") secret skey) (header3 padc_len)).
Definition out_state (secret skey : bytes) (padc_len : N) : rc4 := snd (rc4_apply (cipher (bs "keyA") secret skey) (header3 padc_len)).
Lemma repeat_length_eq {A} (x : A) n : length (repeat x n) = n. Proof. apply repeat_length. Qed.
Lemma handle_timeout_spec s k : h_state s = Packet2 k -> h_provide s = 2 ->
  handle_timeout s =
  if (96 <=? blen (h_input s)) && (blen (h_input s) <=? 608) then
    let secret := shared (firstn 96 (h_input s)) k in
    Ok (mkShaker (Packet4 (KRc4 (out_state secret (h_skey s) (h_padc_len s)) (cipher (bs "keyB") secret (h_skey s))) Vc)
          (Some (packet3 secret (h_skey s) (h_padc_len s))) (h_padc_len s) (h_skey s) (h_timeout s) [] 2)
  else Err (Packet2Len (blen (h_input s))).
Proof.
  intros S1 PV. unfold handle_timeout. rewrite S1, PV. unfold MIN_PACKET2_LEN, MAX_PACKET2_LEN, MODULUS_BYTES.
  destruct ((96 <=? blen (h_input s)) && (blen (h_input s) <=? 608)); cbn [negb]; [|reflexivity]. cbv zeta.
  rewrite <- P_eq, modpow_spec by apply P_pos.
  change (biguint2bytes (be_val (firstn 96 (h_input s)) ^ k mod P)) with (shared (firstn 96 (h_input s)) k).
  generalize (shared (firstn 96 (h_input s)) k) as sec. intros sec.
  unfold packet3, out_state, cipher, header3.
  destruct (rc4_apply (rc4_init (sha1 (bs "keyA" ++ sec ++ h_skey s))) (repeat x00 (N.to_nat 1024))) as [dead1 o1] eqn:E1.
  assert (LD : length dead1 = length (repeat x00 (N.to_nat 1024))).
  { rewrite <- (rc4_length (rc4_init (sha1 (bs "keyA" ++ sec ++ h_skey s))) (repeat x00 (N.to_nat 1024))), E1. reflexivity. }
  pose proof (rc4_state (rc4_init (sha1 (bs "keyB" ++ sec ++ h_skey s))) _ _ LD) as E2.
  destruct (rc4_apply (rc4_init (sha1 (bs "keyB" ++ sec ++ h_skey s))) dead1) as [x i1]. cbn [snd] in E2 |- *.
  rewrite <- E2.
  destruct (rc4_apply o1 (repeat x00 8 ++ be_bytes 4 2 ++ be_bytes 2 (h_padc_len s) ++ repeat x00 (N.to_nat (h_padc_len s)) ++ be_bytes 2 0)) as [enc o2].
  reflexivity.
Qed.
Lemma reads_packet3_ok secret skey padc_len : padc_len <= 512 ->
  reads_packet3 secret skey (packet3 secret skey padc_len) 2 [] (out_state secret skey padc_len).
Proof.
  intros L. exists (repeat x00 (N.to_nat padc_len)), (fst (rc4_apply (cipher (bs "keyA") secret skey) (header3 padc_len))).
  split; [reflexivity|]. split; [rewrite repeat_length; lia|]. rewrite rc4_inv. unfold out_state. f_equal.
  unfold header3, with_len, zeros. change (blen []) with 0. unfold blen. rewrite repeat_length, N2Nat.id. rewrite app_nil_r, <- app_assoc. reflexivity.
Qed.
Definition start4 (secret skey : bytes) (padc_len : N) : shaker :=
  mkShaker (Packet4 (KRc4 (out_state secret skey padc_len) (cipher (bs "keyB") secret skey)) Vc) None padc_len skey None [] 2.
Lemma handshake_run skey secs pada padc key now before after :
  now / 1000000000 + secs < 2 ^ 63 -> only_data before -> split_at (now + ns secs) before after ->
  let d := now + ns secs in
  let p1 := public (be_val key) ++ pada in
  let p2 := data before in
  let secret := shared (firstn 96 p2) (be_val key) in
  handshake skey secs pada padc key now (before ++ after) =
  if (96 <=? blen p2) && (blen p2 <=? 608) then
    let (o, r) := hs_loop (2 + length after) (start4 secret skey padc) None d after in
    ([(now, p1); (d, packet3 secret skey padc)] ++ o, r)
  else ([(now, p1)], HFail d (Packet2Len (blen p2))).
Proof.
  intros NO OD (TB & TA). cbv zeta. unfold handshake. rewrite app_length.
  change (3 + (length before + length after))%nat with (S (2 + (length before + length after))).
  rewrite hs_loop_out by reflexivity. unfold dl_of. cbn [build h_timeout h_output]. unfold instant_add.
  rewrite (proj2 (N.ltb_lt _ _) NO). cbv zeta.
  destruct (phase1 before (be_val key) (now + ns secs) (S (2 + (length before + length after))) (clear (build skey secs pada padc key)) now after)
    as (t & LT & ->); auto; try lia.
  replace (S (2 + (length before + length after)) - length before)%nat with (S (2 + length after)) by lia.
  cbn [clear build h_input]. cbn [app].
  rewrite (expire_step _ _ _ _ _ (be_val key)) by auto.
  rewrite (handle_timeout_spec _ (be_val key)) by reflexivity. cbn [set_input clear build h_state h_input h_output h_skey h_padc_len h_timeout h_provide].
  rewrite <- P_eq, modpow_spec by apply P_pos.
  change (biguint2bytes (2 ^ be_val key mod P)) with (public (be_val key)).
  destruct ((96 <=? blen (data before)) && (blen (data before) <=? 608)); [|reflexivity]. cbv zeta.
  change (2 + length after)%nat with (S (1 + length after)). rewrite hs_loop_out by reflexivity.
  unfold dl_of. cbn [h_timeout h_output]. cbv zeta. unfold clear. cbn [h_state h_padc_len h_skey h_input h_provide].
  unfold start4. destruct hs_loop as [o r]. reflexivity.
Qed.

(** *** Packet 4 *)
Lemma splitN_eq n b : n <= blen b -> exists a r, splitN n b = (a, r) /\ b = a ++ r /\ blen a = n.
Proof.
  intros H. exists (firstn (N.to_nat n) b), (skipn (N.to_nat n) b). unfold splitN, blen in *. conjs; auto.
  - now rewrite firstn_skipn.
  - rewrite firstn_length. lia.
Qed.
Lemma splitN_app a r n : blen a = n -> splitN n (a ++ r) = (a, r).
Proof.
  intros <-. unfold splitN, blen. rewrite Nat2N.id. rewrite firstn_app, skipn_app, Nat.sub_diag, firstn_all, skipn_all. cbn. now rewrite app_nil_r.
Qed.
Lemma zero_bytes b : forallb (Byte.eqb x00) b = true <-> b = zeros (length b).
Proof.
  unfold zeros. induction b as [|x b IH]; cbn [forallb length repeat]; [tauto|].
  rewrite andb_true_iff, beqb_eq, IH. split; [intros (<- & E); congruence|intros E; injection E as -> E; auto].
Qed.
Lemma select_ok cs : (count_ones cs = 1 /\ exists m, method_of cs = Some m /\ set_contains 2 m = true) <-> cs = 2.
Proof.
  split.
  - intros (_ & m & M & C). destruct cs as [|[[]|[]|]]; try discriminate M; auto. injection M as <-. discriminate C.
  - intros ->. split; [reflexivity|]. exists CRc4. auto.
Qed.
Lemma select_step ks b rest : blen b = 4 -> (be_val (fst (ks_decode ks b)) = 2 /\
    in_select 2 ks (b ++ rest) = in_len (snd (ks_decode ks b)) CRc4 rest) \/
  (be_val (fst (ks_decode ks b)) <> 2 /\ exists e, in_select 2 ks (b ++ rest) = Err e).
Proof.
  intros L. unfold in_select. rewrite blen_app, L. destruct (N.ltb_spec (4 + blen rest) 4); [lia|].
  rewrite splitN_app by auto. destruct (ks_decode ks b) as [b' ks']. cbn [fst snd].
  destruct (N.eq_dec (be_val b') 2) as [E|NE].
  - left. split; auto. rewrite E. reflexivity.
  - right. split; auto. destruct (negb (count_ones (be_val b') =? 1)) eqn:C1; [eauto|].
    destruct (method_of (be_val b')) as [m|] eqn:M; [|eauto]. destruct (negb (set_contains 2 m)) eqn:C; [eauto|].
    exfalso. apply NE, select_ok. split.
    + apply negb_false_iff, N.eqb_eq in C1. exact C1.
    + exists m. split; auto. now apply negb_false_iff.
Qed.
(** How far the decrypted reply [p] is right *)
Definition verdict4 (o i : rc4) (c : bytes) (r : res hs_error (hs_state * bytes)) : Prop :=
  let p := fst (rc4_apply i c) in
  (exists padd payload, blen padd < 65536 /\ p = packet4 padd ++ payload /\
     r = Ok (Done (KRc4 o (snd (rc4_apply i (packet4 padd)))), skipn (length (packet4 padd)) c)) \/
  ((8 <= blen p /\ firstn 8 p <> zeros 8 \/
    12 <= blen p /\ firstn 8 p = zeros 8 /\ firstn 4 (skipn 8 p) <> be_bytes 4 2) /\ exists e, r = Err e) \/
  ((blen p < 8 \/ (blen p < 12 /\ firstn 8 p = zeros 8) \/
    exists more padd, blen padd < 65536 /\ more <> [] /\ p ++ more = packet4 padd) /\ exists ks sub rest, r = Ok (Packet4 ks sub, rest)).
Lemma packet4_length padd : blen (packet4 padd) = 14 + blen padd.
Proof. unfold packet4, with_len, zeros. rewrite !blen_app. unfold blen. rewrite repeat_length, !be_bytes_length. lia. Qed.
Lemma be2_of (b : bytes) : blen b = 2 -> b = be_bytes 2 (be_val b).
Proof. unfold blen. intros L. symmetry. apply be_bytes_be_val_k. lia. Qed.
Lemma be_val2_bound (b : bytes) : blen b = 2 -> be_val b < 65536.
Proof. intros L. pose proof (be_val_bound b) as B. unfold blen in L. replace (length b) with 2%nat in B by lia. exact B. Qed.
Lemma rc4_decode_length (st st' : rc4) a b : rc4_apply st a = (b, st') -> blen b = blen a.
Proof. intros E. pose proof (rc4_length st a) as L. rewrite E in L. unfold blen. cbn [fst] in L. lia. Qed.
Lemma firstn_pre {A} (a b : list A) n : length a = n -> firstn n (a ++ b) = a.
Proof. intros <-. rewrite firstn_app, Nat.sub_diag, firstn_all. cbn. apply app_nil_r. Qed.
Lemma skipn_pre {A} (a b : list A) n : length a = n -> skipn n (a ++ b) = b.
Proof. intros <-. rewrite skipn_app, Nat.sub_diag, skipn_all. reflexivity. Qed.
Lemma fst_app_rc4 st a b st' a' : rc4_apply st a = (a', st') -> fst (rc4_apply st (a ++ b)) = a' ++ fst (rc4_apply st' b).
Proof. intros E. rewrite rc4_app, E. destruct (rc4_apply st' b); reflexivity. Qed.
Lemma snd_app_rc4 st a b st' a' : rc4_apply st a = (a', st') -> snd (rc4_apply st (a ++ b)) = snd (rc4_apply st' b).
Proof. intros E. rewrite rc4_app, E. destruct (rc4_apply st' b); reflexivity. Qed.
Lemma blen_zeros n : blen (zeros n) = N.of_nat n. Proof. unfold blen, zeros. now rewrite repeat_length. Qed.
Lemma blen_fst_rc4 st b : blen (fst (rc4_apply st b)) = blen b.
Proof. unfold blen. now rewrite rc4_length. Qed.
Lemma verdict4_ok o i c : verdict4 o i c (in_vc 2 (KRc4 o i) c).
Proof.
  unfold verdict4. cbv zeta. rewrite blen_fst_rc4. unfold in_vc. destruct (N.ltb_spec (blen c) 8) as [L|L].
  { right; right. split; [left; auto|eauto]. }
  destruct (splitN_eq 8 c L) as (a8 & c1 & E & -> & L8). rewrite E. cbn [ks_decode].
  destruct (rc4_apply i a8) as [p8 i1] eqn:D8. rewrite (fst_app_rc4 _ _ _ _ _ D8). pose proof (rc4_decode_length _ _ _ _ D8) as LP8.
  assert (F8 : length p8 = 8%nat) by (unfold blen in *; lia). rewrite (firstn_pre _ _ _ F8), (skipn_pre _ _ _ F8).
  destruct (forallb (Byte.eqb x00) p8) eqn:Z; cbn [negb].
  2:{ right; left. split; [|eauto]. left. split; auto. intros ->. discriminate Z. }
  apply zero_bytes in Z. rewrite F8 in Z. subst p8.
  destruct (N.ltb_spec (blen c1) 4) as [L1|L1].
  { right; right. unfold in_select. rewrite (proj2 (N.ltb_lt _ _) L1). split; [|eauto]. right; left. rewrite blen_app. split; [lia|reflexivity]. }
  destruct (splitN_eq 4 c1 L1) as (a4 & c2 & _ & -> & L4).
  destruct (rc4_apply i1 a4) as [p4 i2] eqn:D4. pose proof (rc4_decode_length _ _ _ _ D4) as LP4. rewrite (fst_app_rc4 _ _ _ _ _ D4).
  assert (F4 : length p4 = 4%nat) by (unfold blen in *; lia). rewrite (firstn_pre _ _ _ F4).
  destruct (select_step (KRc4 o i1) a4 c2 L4) as [(V & ->)|(V & e & ->)]; cbn [ks_decode] in *; rewrite D4 in *; cbn [fst snd] in *.
  2:{ right; left. split; [|eauto]. right. rewrite !blen_app. conjs; [lia|reflexivity|]. intros ->. apply V. reflexivity. }
  assert (P4 : p4 = be_bytes 4 2) by (rewrite <- V; symmetry; apply be_bytes_be_val_k, F4). subst p4. clear V.
  unfold in_len. destruct (N.ltb_spec (blen c2) 2) as [L2|L2].
  { right; right. split; [|eauto]. right; right. set (q := fst (rc4_apply i2 c2)).
    assert (LQ : blen q = blen c2) by (unfold q; now rewrite blen_fst_rc4).
    set (w := q ++ zeros (2 - length q)). assert (LW : blen w = 2) by (unfold w; rewrite blen_app, blen_zeros; unfold blen in *; lia).
    exists (zeros (2 - length q) ++ zeros (N.to_nat (be_val w))), (zeros (N.to_nat (be_val w))). conjs.
    - rewrite blen_zeros, N2Nat.id. apply be_val2_bound, LW.
    - intros X. apply (f_equal (@length _)) in X. rewrite app_length in X. unfold zeros in X. rewrite !repeat_length in X. cbn [length] in X. unfold blen in *. lia.
    - unfold packet4, with_len. rewrite blen_zeros, N2Nat.id, <- (be2_of w LW). unfold w. rewrite <- !app_assoc. reflexivity. }
  destruct (splitN_eq 2 c2 L2) as (a2 & c3 & -> & -> & LA2). cbn [ks_decode].
  destruct (rc4_apply i2 a2) as [p2 i3] eqn:D2. pose proof (rc4_decode_length _ _ _ _ D2) as LP2. rewrite (fst_app_rc4 _ _ _ _ _ D2).
  pose proof (be_val2_bound p2 ltac:(lia)) as BV. assert (P2 : p2 = be_bytes 2 (be_val p2)) by (apply be2_of; lia).
  unfold in_padd. destruct (N.leb_spec (be_val p2) (blen c3)) as [L3|L3].
  - rewrite N.min_l by auto. destruct (splitN_eq _ _ L3) as (ap & c4 & -> & -> & LAP). cbn [ks_decode].
    destruct (rc4_apply i3 ap) as [pp i4] eqn:DP. pose proof (rc4_decode_length _ _ _ _ DP) as LPP. rewrite (fst_app_rc4 _ _ _ _ _ DP).
    replace (be_val p2 - be_val p2) with 0 by lia. cbn [N.eqb].
    assert (PK : zeros 8 ++ be_bytes 4 2 ++ p2 ++ pp = packet4 pp) by (unfold packet4, with_len; rewrite P2; congruence).
    left. exists pp, (fst (rc4_apply i4 c4)). conjs; [lia| |].
    + rewrite <- PK, <- !app_assoc. reflexivity.
    + assert (LPK : length (packet4 pp) = length (a8 ++ a4 ++ a2 ++ ap)).
      { pose proof (packet4_length pp) as Q. rewrite !app_length. unfold blen in *. lia. }
      f_equal. f_equal.
      * f_equal. f_equal. rewrite (rc4_state _ _ _ LPK), (snd_app_rc4 _ _ _ _ _ D8), (snd_app_rc4 _ _ _ _ _ D4), (snd_app_rc4 _ _ _ _ _ D2), DP. reflexivity.
      * rewrite LPK. replace (a8 ++ a4 ++ a2 ++ ap ++ c4) with ((a8 ++ a4 ++ a2 ++ ap) ++ c4) by (rewrite <- !app_assoc; reflexivity).
        symmetry. apply skipn_pre. reflexivity.
  - rewrite N.min_r by lia. assert (SP : splitN (blen c3) c3 = (c3, [])) by (rewrite <- (app_nil_r c3) at 2; now apply splitN_app). rewrite SP. cbn [ks_decode].
    destruct (rc4_apply i3 c3) as [p3 i4] eqn:D3. pose proof (rc4_decode_length _ _ _ _ D3) as LP3. cbn [fst].
    destruct (N.eqb_spec (be_val p2 - blen c3) 0); [lia|].
    right; right. split; [|eauto]. right; right.
    exists (zeros (N.to_nat (be_val p2 - blen c3))), (p3 ++ zeros (N.to_nat (be_val p2 - blen c3))).
    assert (LZ : blen (p3 ++ zeros (N.to_nat (be_val p2 - blen c3))) = be_val p2) by (rewrite blen_app, blen_zeros; lia).
    conjs; [lia| |].
    + intros X. apply (f_equal (@length _)) in X. unfold zeros in X. rewrite repeat_length in X. cbn [length] in X. lia.
    + unfold packet4, with_len. rewrite LZ, <- P2, <- !app_assoc. reflexivity.
Qed.
