(** A peer that serves the metadata is successfully fetched from. *)
From Verif Require Import Base BaseFacts M_Net M_Sha1 M_Torrent M_Peer M_Extensions M_Messages M_Frame M_Rc4 M_Mse S_Mse M_Session M_Connect M_GetInfo
  S_Bencode S_Wire S_Download S_Frame S_Session S_GetInfo P_Frame P_Session P_Mse P_Mse2 P_GetInfo.

Lemma pieces_app a b : only_data a -> pieces (a ++ b) = (map data_of a ++ fst (pieces b), snd (pieces b)).
Proof.
  induction a as [|[t r] a IH]; intros OD; cbn [app].
  - destruct (pieces b); reflexivity.
  - apply only_data_cons in OD as ((x & ->) & OD). cbn [pieces]. rewrite IH by assumption. reflexivity.
Qed.
Lemma only_data_app a b : only_data (a ++ b) <-> only_data a /\ only_data b.
Proof.
  unfold only_data. split; [intros H; split; intros; eapply H, in_or_app; eauto|].
  intros [H1 H2] t r H. apply in_app_or in H as [H|H]; eauto.
Qed.
Lemma all_by_app T a b : all_by T (a ++ b) <-> all_by T a /\ all_by T b.
Proof.
  unfold all_by. split; [intros H; split; intros; eapply H, in_or_app; eauto|].
  intros [H1 H2] e H. apply in_app_or in H as [H|H]; eauto.
Qed.

(** The connection is set up by the time its opening has arrived. *)
Lemma exchange_done ih pid i T : forall opening later now got c, only_data opening -> all_by T opening -> now <= T ->
  snd (connect ih pid i (got ++ map data_of opening) Silent) = SDone (Ok c) ->
  exists t c' used unused, exchange ih pid i now got (opening ++ later) = Ret (Some (t, Ok (c', unused ++ later))) /\
    t <= T /\ opening = used ++ unused /\ snd (connect ih pid i (got ++ map data_of used) Silent) = SDone (Ok c').
Proof.
  induction opening as [|[t r] opening IH]; intros later now got c OD AB LE H.
  - cbn in H. rewrite app_nil_r in H. exists now, c, [], []. cbn [app map]. rewrite app_nil_r. split; [|auto].
    destruct later as [|[t [b| |]] later]; cbn [exchange]; rewrite H; reflexivity.
  - destruct (snd (connect ih pid i got Silent)) as [x| |] eqn:E.
    + assert (exists c', x = Ok c') as (c' & ->).
      { pose proof (connect_more ih pid i got (map data_of ((t, r) :: opening)) Silent ltac:(rewrite E; discriminate)) as M.
        rewrite E, H in M. destruct x; [eauto|discriminate]. }
      exists now, c', [], ((t, r) :: opening). cbn [app map]. rewrite app_nil_r. split; [|auto].
      destruct r; cbn [exchange app]; rewrite E; reflexivity.
    + apply only_data_cons in OD as ((b & ->) & OD). cbn [map data_of snd] in H.
      replace (got ++ b :: map data_of opening) with ((got ++ [b]) ++ map data_of opening) in H by (rewrite <- app_assoc; reflexivity).
      pose proof (AB _ (or_introl eq_refl)) as LT. cbn [fst] in LT.
      destruct (IH later (N.max now t) (got ++ [b]) c OD ltac:(intros e He; apply AB; right; exact He) ltac:(lia) H) as (t' & c' & used & unused & EX & LE' & -> & CC).
      exists t', c', ((t, RData b) :: used), unused. cbn [app exchange]. rewrite E. split; [exact EX|]. split; [assumption|]. split; [reflexivity|].
      cbn [map data_of snd]. rewrite <- app_assoc in CC. exact CC.
    + exfalso. pose proof (connect_more ih pid i got (map data_of ((t, r) :: opening)) Silent ltac:(rewrite E; discriminate)) as M.
      rewrite E, H in M. discriminate.
Qed.

Lemma greeting_connects ih pid i g reads e : length pid = 20%nat -> wf_ip i -> greeting ih g -> begins_with g (concat reads) ->
  exists c, snd (connect ih pid i reads e) = SDone (Ok c).
Proof.
  intros L W (h0 & reserved & w0 & f0 & shake & c & -> & HH & HB & FW & FS & HO & HC) (more & EC). rewrite <- app_assoc in EC.
  destruct (connect_honest ih pid i reads e _ _ _ _ _ _ _ L W EC HH HB FW FS HO HC) as (out & cn & E & _). rewrite E. exists cn. reflexivity.
Qed.

(** What InfoGetter::run makes of a connection *)
Definition fetched (ih : bytes) (c : conn) (later : script) : stage torrent_info :=
  snd (fetch_from ih (more_reads c (fst (pieces later))) (snd (pieces later))).
Lemma exchange_serves ih pid i meta T now opening later g :
  length pid = 20%nat -> wf_ip i -> bencoded_dict meta -> sha1 meta = ih -> blen meta <= 20971520 ->
  only_data opening -> all_by T opening -> now <= T -> greeting ih g -> begins_with g (data opening) ->
  honest_stream ih meta (data opening ++ concat (fst (pieces later))) ->
  exists t c l, exchange ih pid i now [] (opening ++ later) = Ret (Some (t, Ok (c, l))) /\ t <= T /\ fetched ih c l = SDone (Ok (mkTI ih meta)).
Proof.
  intros LP W BD SH LB OD AB LE G BG HON.
  destruct (greeting_connects ih pid i g (map data_of opening) Silent LP W G BG) as (c0 & C0).
  destruct (exchange_done ih pid i T opening later now [] c0 OD AB LE C0) as (t & c & used & unused & EX & LT & -> & CC).
  exists t, c, (unused ++ later). split; [exact EX|]. split; [exact LT|]. apply only_data_app in OD as [OU ON].
  unfold fetched. rewrite <- (link_session _ _ _ _ _ _ _ CC). rewrite (pieces_app unused later ON). cbn [fst snd app].
  apply session_honest; auto. rewrite concat_app, concat_app. fold (data used) (data unused). rewrite app_assoc, <- data_app. exact HON.
Qed.

Lemma conforming_accepted ih meta start secs deadline key reads :
  serves_encrypted ih meta start secs deadline key reads -> serves_under_key ih meta start secs deadline key reads.
Proof.
  intros (before & opening & later & xb & padb & ER & OB & OO & SP & AB & E2 & LPB & U).
  exists before, opening, later. do 5 (split; [assumption|]). split.
  - rewrite E2, blen_app. unfold blen, public. rewrite key_length. lia.
  - replace (firstn 96 (data before)) with (public xb) by (rewrite E2; symmetry; apply firstn_pre, key_length). rewrite shared_comm. exact U.
Qed.
Section Dial.
Context (ih pid : bytes) (i : ip) (meta : bytes).
Hypothesis LP : length pid = 20%nat.
Hypothesis W : wf_ip i.
Hypothesis BD : bencoded_dict meta.
Hypothesis SH : sha1 meta = ih.
Hypothesis LB : blen meta <= 20971520.

Lemma plain_serves now d t0 limit : d_tcp d = Some (t0, Ok tt) -> t0 <= limit -> serves_plain ih meta (now + limit) (d_reads d) ->
  exists t c l, connect_plain ih pid i now (within limit d) = Ret (Some (t, Ok (c, l))) /\ t <= limit /\ fetched ih c l = SDone (Ok (mkTI ih meta)).
Proof.
  intros ET LE (opening & later & g & ER & OD & AB & G & BG & HON). unfold connect_plain, within. cbn [d_tcp d_reads]. rewrite ET.
  rewrite (proj2 (N.leb_le _ _) LE), ER.
  destruct (exchange_serves ih pid i meta (now + limit) (now + t0) opening later g) as (t & c & l & EX & LT & F); auto; [lia|].
  rewrite EX. exists (t - now), c, l. split; [reflexivity|]. split; [lia|exact F].
Qed.

(** As P_Mse.phase2, with times. *)
Lemma phase2_time T evs : forall f s now tail ks total, stable s -> h_output s = None -> h_timeout s = None -> only_data evs ->
  (length evs + length tail < f)%nat -> all_by T evs -> now <= T ->
  (exists s', handle_input s (data evs) = Ok s' /\ into_keystream s' = Some (ks, total)) ->
  exists t rest later, hs_loop f s None now (evs ++ tail) = ([], HDone t ks rest (later ++ tail)) /\
          rest ++ data later = total /\ only_data later /\ all_by T later /\ t <= T.
Proof.
  induction evs as [|[t r] evs IH]; intros f s now tail ks total ST O TO OD F AB LE (s' & HI & K').
  - change (data []) with (@nil byte) in HI. rewrite ST in HI. injection HI as <-.
    exists now, total, []. destruct f; [cbn [length] in F; lia|]. cbn [app]. rewrite hs_loop_S, K'. rewrite app_nil_r. auto.
  - apply only_data_cons in OD as ((b & ->) & OD). rewrite data_cons in HI. cbn [data_of snd] in HI.
    destruct f; [cbn [length] in F; lia|]. cbn [length] in F. pose proof (AB _ (or_introl eq_refl)) as LT. cbn [fst] in LT.
    destruct (into_keystream s) as [[ks0 total0]|] eqn:K.
    + unfold into_keystream in K. destruct (h_state s) eqn:S1; try discriminate K. injection K as -> <-.
      unfold handle_input in HI. rewrite S1 in HI. injection HI as <-. unfold into_keystream, set_input in K'. cbn [h_state h_input] in K'. injection K' as -> <-.
      exists now, (h_input s), ((t, RData b) :: evs). rewrite hs_loop_S. unfold into_keystream. rewrite S1.
      split; [reflexivity|]. split; [reflexivity|]. split; [|auto]. intros t' r' [E|E]; [injection E as <- <-; eauto|eauto].
    + rewrite handle_input_app in HI. rewrite <- app_comm_cons, hs_loop_wait by auto. unfold after_wait.
      destruct (handle_input s b) as [s1|e] eqn:H1; cbn [res_bind] in HI; [|discriminate].
      pose proof (handle_input_fields _ _ _ H1) as (O1 & T1 & _).
      apply (IH f s1 (N.max now t) tail); try assumption; try congruence; try lia.
      * eapply handle_input_stable, H1.
      * intros e He. apply AB. right. exact He.
      * eauto.
Qed.

Lemma decrypted_app a : forall ks b, only_data a ->
  decrypted ks (a ++ b) = decrypted ks a ++ decrypted (snd (ks_decode ks (data a))) b /\
  data (decrypted ks a) = fst (ks_decode ks (data a)) /\ only_data (decrypted ks a) /\ (forall T, all_by T a -> all_by T (decrypted ks a)).
Proof.
  induction a as [|[t r] a IH]; intros ks b OD.
  - cbn. rewrite ks_decode_nil. cbn. split; [reflexivity|]. split; [reflexivity|]. split; [intros ? ? []|auto].
  - apply only_data_cons in OD as ((x & ->) & OD). cbn [app decrypted]. rewrite data_cons. cbn [data_of snd]. rewrite ks_decode_app.
    destruct (ks_decode ks x) as [p ks1]. destruct (IH ks1 b OD) as (E1 & E2 & E3 & E4). rewrite E1. cbn [app].
    destruct (ks_decode ks1 (data a)) as [q ks2]. cbn [fst snd] in *. split; [reflexivity|].
    rewrite data_cons. cbn [data_of snd]. rewrite E2. split; [reflexivity|]. split.
    + intros t' r' [[= <- <-]|H]; eauto.
    + intros T AB e [<-|H]; [apply (AB (t, RData x)); left; reflexivity|]. apply E4; [|exact H]. intros e' H'. apply AB. right. exact H'.
Qed.
Lemma pieces_decrypted l : forall ks, concat (fst (pieces (decrypted ks l))) = fst (ks_decode ks (concat (fst (pieces l)))).
Proof.
  induction l as [|[t [b| |]] l IH]; intros ks; cbn [decrypted].
  - cbn. rewrite ks_decode_nil. reflexivity.
  - destruct (ks_decode ks b) as [p ks1] eqn:D. cbn [pieces]. specialize (IH ks1). destruct (pieces (decrypted ks1 l)) as [x e], (pieces l) as [y e'].
    cbn [fst concat] in *. rewrite ks_decode_app, D, IH. destruct (ks_decode ks1 (concat y)). reflexivity.
  - cbn. rewrite ks_decode_nil. reflexivity.
  - cbn. rewrite ks_decode_nil. reflexivity.
Qed.

Lemma crypto_serves secs now d t0 limit : d_tcp d = Some (t0, Ok tt) -> (now + t0) / 1000000000 + secs < 2 ^ 63 -> t0 + ns secs <= limit ->
  serves_under_key ih meta (now + t0) secs (now + limit) (d_key d) (d_reads d) ->
  exists t c l, connect_crypto ih pid i secs now (within limit d) = Ret (Some (t, Ok (c, l))) /\ t <= limit /\ fetched ih c l = SDone (Ok (mkTI ih meta)).
Proof.
  intros ET NO LE (before & opening & later & ER & OB & OO & SP & AB & RG & padd & payload & g & LPD & E4 & G & (more & EG) & LO & HON).
  unfold connect_crypto, connect_encrypted, within. cbn [d_tcp d_reads d_pada d_padc d_key]. rewrite ET.
  rewrite (proj2 (N.leb_le _ _)) by lia. rewrite ER.
  pose proof (handshake_run ih secs (d_pada d) (d_padc d) (d_key d) (now + t0) before (opening ++ later) NO OB SP) as H. cbv zeta in H.
  set (secret := shared (firstn 96 (data before)) (be_val (d_key d))) in *.
  assert (RNG : (96 <=? blen (data before)) && (blen (data before) <=? 608) = true).
  { apply andb_true_iff. split; apply N.leb_le; lia. }
  rewrite RNG in H. clear RNG.
  set (cb := cipher (bs "keyB") secret ih) in *. set (o := out_state secret ih (d_padc d)).
  (* the opening, decrypted *)
  assert (PO : exists pay1, fst (rc4_apply cb (data opening)) = packet4 padd ++ pay1 /\ begins_with g pay1 /\
                 payload = pay1 ++ fst (rc4_apply (snd (rc4_apply cb (data opening))) (concat (fst (pieces later))))).
  { pose proof (f_equal (fun x => fst (rc4_apply cb x)) E4) as D. cbn beta in D. rewrite rc4_inv in D. cbn [fst] in D.
    destruct (rc4_apply cb (data opening)) as [x i1] eqn:X. rewrite (fst_app_rc4 _ _ _ _ _ X) in D. cbn [fst snd].
    assert (LX : length x = length (data opening)) by (rewrite <- (rc4_length cb (data opening)), X; reflexivity).
    rewrite EG, app_assoc in D. rewrite app_length in LO.
    assert (exists pay1, x = (packet4 padd ++ g) ++ pay1) as (pay1 & ->).
    { exists (skipn (length (packet4 padd ++ g)) x). rewrite <- (firstn_skipn (length (packet4 padd ++ g)) x) at 1. f_equal.
      apply (f_equal (firstn (length (packet4 padd ++ g)))) in D. rewrite firstn_le_app in D by (rewrite app_length, LX; lia).
      etransitivity; [exact D|]. apply firstn_pre. reflexivity. }
    exists (g ++ pay1). rewrite <- !app_assoc in *. split; [reflexivity|]. split; [exists pay1; reflexivity|].
    rewrite EG. apply app_inv_head in D. now rewrite <- D. }
  destruct PO as (pay1 & PO & BG & PY).
  assert (HI : exists s', handle_input (start4 secret ih (d_padc d)) (data opening) = Ok s' /\
     into_keystream s' = Some (KRc4 o (snd (rc4_apply cb (packet4 padd))), skipn (length (packet4 padd)) (data opening))).
  { pose proof (verdict4_ok o cb (data opening)) as V. unfold verdict4 in V. cbv zeta in V. rewrite PO in V.
    rewrite handle_input_enter. cbn [start4 h_provide h_state h_input enter app]. fold o cb.
    destruct V as [(padd' & payload' & LPP & EP & V)|[(Wr & e & V)|(U & ks & sub & rest & V)]].
    - apply packet4_inj in EP as (<- & <-); auto. rewrite V. cbn [res_bind]. eexists. split; [reflexivity|]. reflexivity.
    - exfalso. apply (conforming_not_wrong (packet4 padd ++ pay1) padd pay1); [split; auto|].
      destruct Wr as [Wr|(W1 & _ & W2)]; [left; exact Wr|right; auto].
    - exfalso. apply (conforming_not_unfinished (packet4 padd ++ pay1) padd pay1); [split; auto|exact U]. }
  destruct (phase2_time (now + limit) opening (2 + length (opening ++ later)) (start4 secret ih (d_padc d)) (now + t0 + ns secs) later
    (KRc4 o (snd (rc4_apply cb (packet4 padd)))) (skipn (length (packet4 padd)) (data opening)) eq_refl eq_refl eq_refl OO
    ltac:(rewrite app_length; lia) AB ltac:(lia) HI) as (t & rest & lat & HL & RT & OL & AL & LT).
  rewrite HL in H. rewrite H. cbn [snd].
  set (i1 := snd (rc4_apply cb (packet4 padd))) in *. set (ks := KRc4 o i1).
  (* what is read through the cipher *)
  set (first := match rest with [] => lat | _ => (t, RData rest) :: lat end).
  assert (EF : (match rest with [] => lat ++ later | _ => (t, RData rest) :: lat ++ later end) = first ++ later) by (unfold first; destruct rest; reflexivity).
  match goal with |- context [decrypted ks ?l] => replace l with (first ++ later) by (symmetry; exact EF) end. assert (OF : only_data first) by (unfold first; destruct rest; [exact OL|intros t' r' [[= <- <-]|?]; eauto]).
  assert (AF : all_by (now + limit) first) by (unfold first; destruct rest; [exact AL|intros e' [<-|?]; auto]).
  assert (DF : data first = skipn (length (packet4 padd)) (data opening)) by (rewrite <- RT; unfold first; destruct rest; reflexivity).
  assert (XO : exists c0, data opening = c0 ++ data first /\ rc4_apply cb c0 = (packet4 padd, i1) /\ rc4_apply i1 (data first) = (pay1, snd (rc4_apply cb (data opening)))).
  { exists (firstn (length (packet4 padd)) (data opening)). rewrite DF. split; [symmetry; apply firstn_skipn|].
    set (c0 := firstn _ _). assert (LL : length c0 = length (packet4 padd)) by (unfold c0; rewrite firstn_length; rewrite app_length in LO; lia).
    destruct (rc4_apply cb c0) as [x j] eqn:X. assert (J : j = i1) by (unfold i1; rewrite <- (rc4_state cb _ _ LL), X; reflexivity). subst j.
    pose proof PO as PO'. rewrite <- (firstn_skipn (length (packet4 padd)) (data opening)) in PO'. fold c0 in PO'. rewrite (fst_app_rc4 _ _ _ _ _ X) in PO'.
    apply app_eq_len in PO' as (-> & PO'); [|rewrite <- LL, <- (rc4_length cb c0), X; reflexivity]. split; [reflexivity|].
    rewrite <- PO'. rewrite <- (firstn_skipn (length (packet4 padd)) (data opening)) at 3. fold c0. rewrite (snd_app_rc4 _ _ _ _ _ X).
    apply surjective_pairing. }
  destruct XO as (c0 & _ & _ & D1).
  destruct (decrypted_app first ks later OF) as (EA & ED & OD' & AD).
  assert (KD : ks_decode ks (data first) = (pay1, KRc4 o (snd (rc4_apply cb (data opening))))) by (cbn [ks ks_decode]; rewrite D1; reflexivity).
  rewrite KD in EA, ED. cbn [fst snd] in EA, ED. rewrite EA.
  destruct (exchange_serves ih pid i meta (now + limit) t (decrypted ks first) (decrypted (KRc4 o (snd (rc4_apply cb (data opening)))) later) g) as (t' & c & l & EX & LT' & F); auto.
  - rewrite ED. exact BG.
  - rewrite ED, pieces_decrypted. cbn [ks_decode]. destruct (rc4_apply (snd (rc4_apply cb (data opening))) (concat (fst (pieces later)))) as [y z]. cbn [fst] in *.
    rewrite <- PY. exact HON.
  - rewrite EX. exists (t' - now), c, l. split; [reflexivity|]. split; [lia|exact F].
Qed.
End Dial.
