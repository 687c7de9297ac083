(** Why the encryption handshake failed: proofs (S_Reason3). *)
From Verif Require Import Base BaseFacts S_Mse S_GetInfo M_Rc4 M_Mse M_GetInfo P_Mse P_Mse2 P_GetInfo6 S_Reason P_Reason S_Reason3.

Lemma ones_bits p : forall n, (Pos.size_nat p <= n)%nat -> ones_pos p = N.of_nat (length (filter (fun k => N.testbit (Npos p) (N.of_nat k)) (seq 0 n))).
Proof.
  assert (SH : forall f n, length (filter f (seq 1 n)) = length (filter (fun k => f (S k)) (seq 0 n))).
  { intros f n. rewrite <- seq_shift. generalize (seq 0 n). induction l as [|a l IH]; cbn; [reflexivity|]. destruct (f (S a)); cbn; now rewrite IH. }
  assert (EX : forall (f g : nat -> bool) l, (forall k, f k = g k) -> filter f l = filter g l).
  { intros f g l H. apply filter_ext. exact H. }
  induction p as [p IH|p IH|]; intros [|n] L; cbn [Pos.size_nat] in L; try lia; cbn [seq filter ones_pos].
  - change (N.testbit (N.pos p~1) (N.of_nat 0)) with true. cbv iota. cbn [length]. rewrite SH, (IH n) by lia.
    rewrite (EX (fun k => N.testbit (N.pos p~1) (N.of_nat (S k))) (fun k => N.testbit (N.pos p) (N.of_nat k))); [lia|].
    intros k. rewrite Nat2N.inj_succ. change (N.pos p~1) with (2 * N.pos p + 1). apply N.testbit_odd_succ. lia.
  - change (N.testbit (N.pos p~0) (N.of_nat 0)) with false. cbv iota. rewrite SH, (IH n) by lia.
    rewrite (EX (fun k => N.testbit (N.pos p~0) (N.of_nat (S k))) (fun k => N.testbit (N.pos p) (N.of_nat k))); [reflexivity|].
    intros k. rewrite Nat2N.inj_succ. change (N.pos p~0) with (2 * N.pos p). apply N.testbit_even_succ. lia.
  - change (N.testbit 1 (N.of_nat 0)) with true. cbv iota. cbn [length]. rewrite SH.
    rewrite (EX (fun k => N.testbit 1 (N.of_nat (S k))) (fun _ => false)).
    + assert (Z : forall l : list nat, filter (fun _ => false) l = []) by (induction l; auto). rewrite Z. reflexivity.
    + intros k. rewrite Nat2N.inj_succ. change 1 with (2 * 0 + 1) at 1. rewrite N.testbit_odd_succ by lia. apply N.bits_0.
Qed.
Lemma size_small p : N.pos p < 2 ^ 32 -> (Pos.size_nat p <= 32)%nat.
Proof.
  assert (G : forall n p, N.pos p < 2 ^ N.of_nat n -> (Pos.size_nat p <= n)%nat).
  { clear. induction n as [|n IH]; intros p L.
    - cbn in L. lia.
    - rewrite Nat2N.inj_succ, N.pow_succ_r' in L. destruct p as [p|p|]; cbn [Pos.size_nat]; [apply le_n_S, IH; lia|apply le_n_S, IH; lia|lia]. }
  intros L. apply G. exact L.
Qed.
Lemma count_set_bits n : n < 2 ^ 32 -> count_ones n = set_bits n.
Proof.
  destruct n as [|p]; intros L; [reflexivity|]. unfold count_ones, set_bits. apply ones_bits, size_small, L.
Qed.

Lemma select_error cs : cs < 2 ^ 32 -> forall e,
  (if negb (count_ones cs =? 1) then Err (SelectNotSingle (count_ones cs))
   else match method_of cs with None => Err (UnknownMethod cs) | Some m => if negb (set_contains 2 m) then Err (UnexpectedSelection m) else Ok tt end) = Err e <->
  (set_bits cs <> 1 /\ e = SelectNotSingle (set_bits cs)) \/ (set_bits cs = 1 /\ cs <> 1 /\ cs <> 2 /\ e = UnknownMethod cs) \/ (cs = 1 /\ e = UnexpectedSelection CPlaintext).
Proof.
  intros L e. rewrite (count_set_bits cs L). destruct (N.eqb_spec (set_bits cs) 1) as [E|NE]; cbn [negb].
  2:{ split; [intros [= <-]; auto|]. intros [(_ & ->)|[(X & _)|(-> & ->)]]; [reflexivity|contradiction|]. now elim NE. }
  destruct (method_of cs) as [m|] eqn:M.
  - assert (C : (cs = 1 /\ m = CPlaintext) \/ (cs = 2 /\ m = CRc4)) by (destruct cs as [|[[]|[]|]]; try discriminate M; injection M as <-; auto).
    destruct C as [(-> & ->)|(-> & ->)]; cbn; (split; [intros X|]).
    + injection X as <-. auto.
    + intros [(X & _)|[(_ & X & _)|(_ & ->)]]; [contradiction|now elim X|reflexivity].
    + discriminate X.
    + intros [(X & _)|[(_ & _ & X & _)|(X & _)]]; [contradiction|now elim X|discriminate].
  - assert (N12 : cs <> 1 /\ cs <> 2) by (split; intros ->; discriminate M). split.
    + intros [= <-]. right; left. tauto.
    + intros [(X & _)|[(_ & _ & _ & ->)|(X & _)]]; [contradiction|reflexivity|tauto].
Qed.
Lemma in_len_ok ks m c : exists r, in_len ks m c = Ok r.
Proof.
  unfold in_len. destruct (blen c <? 2); [eauto|]. destruct (splitN 2 c) as [b r]. destruct (ks_decode ks b) as [b' ks']. unfold in_padd.
  destruct (splitN _ r) as [x y]. destruct (ks_decode ks' x). destruct (_ =? 0); eauto.
Qed.
Lemma reply_fails o i c e : in_vc 2 (KRc4 o i) c = Err e <-> reply_error (fst (rc4_apply i c)) e.
Proof.
  unfold in_vc. destruct (N.ltb_spec (blen c) 8) as [L|L].
  { split; [discriminate|]. intros R. assert (8 <= blen (fst (rc4_apply i c))) by (destruct R; lia). rewrite blen_fst_rc4 in *. lia. }
  destruct (splitN_eq 8 c L) as (a8 & c1 & E & -> & L8). rewrite E. cbn [ks_decode].
  destruct (rc4_apply i a8) as [p8 i1] eqn:D8. rewrite (fst_app_rc4 _ _ _ _ _ D8). pose proof (rc4_decode_length _ _ _ _ D8) as LP8.
  assert (F8 : length p8 = 8%nat) by (unfold blen in *; lia).
  assert (Q8 : firstn 8 (p8 ++ fst (rc4_apply i1 c1)) = p8) by (apply firstn_pre, F8).
  destruct (forallb (Byte.eqb x00) p8) eqn:Z; cbn [negb].
  2:{ assert (NZ : p8 <> zeros 8) by (intros ->; discriminate Z). split.
      - intros [= <-]. apply re_vc; [rewrite blen_app; lia|now rewrite Q8].
      - intros R. destruct R as [| ? X|? X|? X]; [reflexivity|rewrite Q8 in X; contradiction..]. }
  apply zero_bytes in Z. rewrite F8 in Z. unfold in_select. destruct (N.ltb_spec (blen c1) 4) as [L1|L1].
  { split; [discriminate|]. intros R. destruct R as [_ X|B _|B _|B _]; [rewrite Q8 in X; contradiction|rewrite blen_app, blen_fst_rc4 in B; lia..]. }
  destruct (splitN_eq 4 c1 L1) as (a4 & c2 & E4 & -> & L4). rewrite E4. cbn [ks_decode].
  destruct (rc4_apply i1 a4) as [p4 i2] eqn:D4. pose proof (rc4_decode_length _ _ _ _ D4) as LP4. rewrite (fst_app_rc4 _ _ _ _ _ D4) in *.
  assert (F4 : length p4 = 4%nat) by (unfold blen in *; lia). set (p := p8 ++ p4 ++ fst (rc4_apply i2 c2)) in *.
  assert (SE : selection p = be_val p4) by (unfold selection, p; rewrite (skipn_pre _ _ _ F8), (firstn_pre _ _ _ F4); reflexivity).
  assert (LP : 12 <= blen p) by (unfold p; rewrite !blen_app; lia).
  assert (BV : be_val p4 < 2 ^ 32) by (pose proof (be_val_bound p4) as B; rewrite F4 in B; exact B).
  pose proof (select_error (be_val p4) BV e) as SEL.
  assert (SAME : (if negb (count_ones (be_val p4) =? 1) then Err (SelectNotSingle (count_ones (be_val p4)))
      else match method_of (be_val p4) with None => Err (UnknownMethod (be_val p4))
           | Some m => if negb (set_contains 2 m) then Err (UnexpectedSelection m) else in_len (KRc4 o i2) m c2 end) = Err e <->
    (if negb (count_ones (be_val p4) =? 1) then Err (SelectNotSingle (count_ones (be_val p4)))
      else match method_of (be_val p4) with None => Err (UnknownMethod (be_val p4))
           | Some m => if negb (set_contains 2 m) then Err (UnexpectedSelection m) else Ok tt end) = Err e).
  { destruct (negb _); [split; intros [= <-]; reflexivity|]. destruct (method_of _) as [m|]; [|split; intros [= <-]; reflexivity].
    destruct (negb _); [split; intros [= <-]; reflexivity|]. destruct (in_len_ok (KRc4 o i2) m c2) as (r & ->). split; discriminate. }
  rewrite SAME, SEL, <- SE. assert (Z8 : firstn 8 p = zeros 8) by congruence. split.
  - intros [(X & ->)|[(X & Y1 & Y2 & ->)|(X & ->)]]; [now apply re_bits|now apply re_unknown|now apply re_plain].
  - intros R. destruct R as [_ X|_ _ X|_ _ X Y1 Y2|_ _ X]; [contradiction|auto|auto 7|auto].
Qed.

Section Shake.
Variables (skey : bytes) (secs : N) (pada : bytes) (padc : N) (key : bytes) (now : N).
Hypothesis NO : now / 1000000000 + secs < 2 ^ 63.
Lemma early_fails before t r more e : only_data before -> (forall x, In x before -> fst x <= now + ns secs) -> t <= now + ns secs -> stops r e ->
  exists o t', handshake skey secs pada padc key now (before ++ (t, r) :: more) = (o, HFail t' e).
Proof.
  intros OB TB LT R. unfold handshake. rewrite app_length. cbn [length].
  change (3 + (length before + S (length more)))%nat with (S (2 + (length before + S (length more)))).
  rewrite hs_loop_out by reflexivity. unfold dl_of. cbn [build h_timeout h_output]. unfold instant_add.
  rewrite (proj2 (N.ltb_lt _ _) NO). cbv zeta.
  destruct (phase1 before (be_val key) (now + ns secs) (S (2 + (length before + S (length more)))) (clear (build skey secs pada padc key)) now ((t, r) :: more))
    as (t' & LT' & ->); auto; try lia; [cbn [length]; lia|].
  replace (S (2 + (length before + S (length more))) - length before)%nat with (S (3 + length more)) by lia.
  rewrite hs_loop_wait by reflexivity. unfold after_wait. rewrite (proj2 (N.leb_le _ _)) by lia. destruct R; eauto.
Qed.
Section Reply.
Variables (before used later : script).
Hypothesis OB : only_data before.
Hypothesis OU : only_data used.
Hypothesis SP : split_at (now + ns secs) before (used ++ later).
Hypothesis RG : 96 <= blen (data before) <= 608.
Let secret := shared (firstn 96 (data before)) (be_val key).
Let p := fst (rc4_apply (cipher (bs "keyB") secret skey) (data used)).
Lemma reply_run : exists o r, handshake skey secs pada padc key now (before ++ used ++ later) = (o, r) /\
  ((exists padd payload, conforming_reply p padd payload) /\ (exists t ks rest lat, r = HDone t ks rest lat) \/
   (exists e t, reply_error p e /\ r = HFail t e) \/
   (~ wrong_reply p /\ (forall padd payload, ~ conforming_reply p padd payload) /\
    match later with [] => r = HWait | (_, x) :: _ => forall e, stops x e -> exists t, r = HFail t e end)).
Proof.
  pose proof (handshake_run skey secs pada padc key now before _ NO OB SP) as H. cbv zeta in H.
  rewrite (proj2 (N.leb_le _ _) (proj1 RG)), (proj2 (N.leb_le _ _) (proj2 RG)) in H. cbn [andb] in H. fold secret in H.
  pose proof (phase2 used (2 + length (used ++ later)) (start4 secret skey padc) (now + ns secs) later eq_refl eq_refl eq_refl OU ltac:(rewrite app_length; lia)) as Q.
  rewrite handle_input_enter in Q. cbn [start4 h_provide h_state h_input enter] in Q. change ([] ++ data used) with (data used) in Q.
  pose proof (verdict4_ok (out_state secret skey padc) (cipher (bs "keyB") secret skey) (data used)) as V. unfold verdict4 in V. cbv zeta in V. fold p in V.
  destruct V as [(padd & payload & LP & EP & V)|[(W & e & V)|(U & ks & sub & rest & V)]].
  - rewrite V in Q; cbn [res_bind] in Q. unfold into_keystream, set_input in Q. cbn [h_state h_input] in Q. destruct Q as (t & rest & lat & Q & _).
    rewrite Q in H. eexists _, _. split; [rewrite H; reflexivity|]. left. split; [exists padd, payload; split; auto|eauto 6].
  - pose proof (proj1 (reply_fails _ _ _ _) V) as RE. fold p in RE. rewrite V in Q; cbn [res_bind] in Q. destruct Q as (t & Q). rewrite Q in H.
    eexists _, _. split; [rewrite H; reflexivity|]. right; left. eauto.
  - rewrite V in Q; cbn [res_bind] in Q. unfold into_keystream, set_input in Q. cbn [h_state] in Q. destruct Q as (t & Q). rewrite Q in H.
    destruct (hs_loop _ _ _ _ later) as [o1 r1] eqn:HL. eexists _, r1. split; [exact H|]. right; right. split; [apply unfinished_not_wrong, U|]. split; [intros padd payload CF; exact (conforming_not_unfinished _ _ _ CF U)|].
    destruct later as [|[t1 x] more].
    + replace (2 + length (used ++ []) - length used)%nat with 2%nat in HL by (rewrite app_nil_r; lia). cbn in HL. now injection HL.
    + intros e ST. replace (2 + length (used ++ (t1, x) :: more) - length used)%nat with (S (2 + length more)) in HL by (rewrite app_length; cbn [length]; lia).
      rewrite hs_loop_wait in HL by reflexivity. unfold after_wait in HL. destruct ST; injection HL as _ <-; eauto.
Qed.
End Reply.
Lemma reply_wrong p e : reply_error p e -> wrong_reply p.
Proof.
  intros R. destruct R as [L X|L Z X|L Z X Y1 Y2|L Z X]; [left; auto|right; split; auto; intros E..].
  - apply X. unfold selection. rewrite E. reflexivity.
  - apply Y2. unfold selection. rewrite E. reflexivity.
  - unfold selection in X. rewrite E in X. discriminate X.
Qed.
Lemma data_phase l : exists used later, l = used ++ later /\ only_data used /\ (later = [] \/ exists t r more e, later = (t, r) :: more /\ stops r e).
Proof.
  induction l as [|[t r] l (used & later & -> & OU & T)].
  - exists [], []. split; [reflexivity|]. split; [intros ? ? []|]. auto.
  - destruct r as [b| |].
    + exists ((t, RData b) :: used), later. split; [reflexivity|]. split; [intros ? ? [[= <- <-]|X]; eauto|]. exact T.
    + exists [], ((t, REof) :: used ++ later). split; [reflexivity|]. split; [intros ? ? []|]. right. exists t, REof, (used ++ later), HDisconnect. split; [reflexivity|constructor].
    + exists [], ((t, RError) :: used ++ later). split; [reflexivity|]. split; [intros ? ? []|]. right. exists t, RError, (used ++ later), HRecv. split; [reflexivity|constructor].
Qed.
Lemma stops_fun r e e' : stops r e -> stops r e' -> e = e'.
Proof. intros [] X; now inversion X. Qed.
Lemma reply_fun p e e' : reply_error p e -> reply_error p e' -> e = e'.
Proof.
  intros R R'. destruct R; inversion R'; subst; try reflexivity; try contradiction; try congruence.
  - exfalso. rewrite H4 in H1. now elim H1.
  - exfalso. rewrite H1 in H4. now elim H4.
Qed.
Lemma handshake_why reads e :
  (exists o t, handshake skey secs pada padc key now reads = (o, HFail t e)) <-> shake_failed skey secs key now reads e.
Proof.
  split.
  - intros (o & t & H). destruct (key_phase (now + ns secs) reads) as (before & OB & TB & [(after & -> & SP)|(t1 & r & more & -> & LE & R)]).
    + destruct (N.leb_spec 96 (blen (data before))) as [A|A]; [destruct (N.leb_spec (blen (data before)) 608) as [B|B]|].
      2,3: (pose proof H as H'; rewrite run_badlen in H' by (auto; lia); injection H' as _ _ <-; apply (sh_length _ _ _ _ _ before after); auto; lia).
      destruct (data_phase after) as (used & later & -> & OU & TL).
      destruct (reply_run before used later OB OU SP (conj A B)) as (o' & r & H' & C). rewrite H' in H. injection H as -> ->.
      destruct C as [(_ & t' & ks & rest & lat & X)|[(e' & t' & RE & [= -> <-])|(NW & NC & X)]]; [discriminate X| |].
      * eapply (sh_reply _ _ _ _ _ before used later); eauto.
      * destruct TL as [->|(t' & r & more & e' & -> & ST)]; [discriminate X|]. destruct (X e' ST) as (t'' & [= -> <-]).
        eapply (sh_late _ _ _ _ _ before used t' r more); eauto.
    + assert (ST : exists e', stops r e') by (destruct R as [->| ->]; eexists; constructor). destruct ST as (e' & ST).
      destruct (early_fails before t1 r more e' OB TB LE ST) as (o' & t' & H'). rewrite H' in H. injection H as _ _ <-. eapply sh_early; eauto.
  - intros S. destruct S as [before t r more e -> OB TB LE ST|before after -> OB SP NR|before used later e -> OB OU SP RG RE|before used t r more e -> OB OU SP RG (NW & NC) ST].
    + eapply early_fails; eauto.
    + rewrite run_badlen by auto. eauto.
    + destruct (reply_run before used later OB OU SP RG) as (o & r & H & C). rewrite H.
      destruct C as [((padd & payload & CF) & _)|[(e' & t' & RE' & ->)|(NW & _)]].
      * exfalso. eapply conforming_not_wrong; [exact CF|]. eapply reply_wrong, RE.
      * rewrite (reply_fun _ _ _ RE RE'). eauto.
      * exfalso. apply NW. eapply reply_wrong, RE.
    + destruct (reply_run before used ((t, r) :: more) OB OU SP RG) as (o & r' & H & C). rewrite H.
      destruct C as [((padd & payload & CF) & _)|[(e' & t' & RE' & ->)|(_ & _ & X)]].
      * exfalso. eapply NC, CF.
      * exfalso. apply NW. eapply reply_wrong, RE'.
      * destruct (X e ST) as (t'' & ->). eauto.
Qed.
End Shake.
Lemma reason_unique ih s e x y : length ih = 20%nat -> S_Reason.failure ih s e x -> S_Reason.failure ih s e y -> x = y.
Proof.
  intros L A B. assert (C : concat [s] = s) by apply app_nil_r. rewrite <- C in A, B. pose (pid := repeat x00 20).
  apply (P_Reason.session_fails ih pid (M_Net.V4 0) [s] e) in A, B; try reflexivity; try exact L. congruence.
Qed.
