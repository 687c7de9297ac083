From Verif Require Import Base BaseFacts M_Net M_Torrent M_Extensions M_Messages M_Frame M_Peer M_Session M_Rc4 M_Mse M_Connect M_GetInfo M_Write S_Write P_GetInfo P_Write.

Lemma connect_more_out ih pid i r m e : snd (connect ih pid i r Silent) <> SWaiting -> fst (connect ih pid i (r ++ m) e) = fst (connect ih pid i r Silent).
Proof.
  unfold connect. pose proof (read_exact_more e m r 68 []) as R.
  destruct (read_exact 68 [] r Silent) as [b rs| |]; [|contradiction|intros W; contradiction W; reflexivity].
  rewrite R. destruct (handshake_decode b) as [h|x]; [|reflexivity].
  destruct (negb (bytes_eqb (hs_hash h) ih)); [reflexivity|].
  destruct (negb (ext_has (ext_and (ext_from SUPPORTED_EXTENSIONS) (hs_ext h)) Bep10)); [reflexivity|].
  destruct local_registry as [local|]; [|reflexivity].
  destruct (channel_send reg_new (ExtHandshake (mkEH None (Some (reg_to_m local)) (Some CLIENT) None (Some i)))) as [[b1|x]|]; try reflexivity.
  pose proof (framed_next_more e m rs Head []) as F.
  destruct (framed_next Head [] rs Silent) as [[[fr st'] b'] rs']. destruct fr; cbn [snd].
  - intros _. rewrite F. destruct (recv_event local f) as [msg|x]; [|reflexivity]. destruct msg; try reflexivity.
    destruct (eh_registry h0) as [remote|x]; [|reflexivity]. destruct (negb (reg_contains remote Metadata)); [reflexivity|].
    destruct (ext_has _ Fast); [|reflexivity]. destruct (channel_send remote (Core HaveNone)) as [[?|?]|]; reflexivity.
  - intros _. rewrite F. reflexivity.
  - contradiction.
  - intros W. contradiction W. reflexivity.
Qed.
(** How a list of writes deals with [n] messages *)
Lemma cut_tri ws out :
  (forall A (s : stage A), cut ws out s = (out, s)) \/
  (In WFail ws /\ exists o, forall A (s : stage A), cut ws out s = (o, SDone (Err ESend))) \/
  (In WStall ws /\ exists o, forall A (s : stage A), cut ws out s = (o, SWaiting)).
Proof.
  revert ws. induction out as [|b out IH]; intros ws; [left; reflexivity|]. cbn [cut]. destruct ws as [|[] ws]; cbn [write_next].
  - destruct (IH []) as [H|[[[] _]|[[] _]]]. left. intros A s. now rewrite H.
  - destruct (IH ws) as [H|[[I1 (o & H)]|[I1 (o & H)]]].
    + left. intros A s. now rewrite H.
    + right; left. split; [now right|]. exists (b :: o). intros A s. now rewrite H.
    + right; right. split; [now right|]. exists (b :: o). intros A s. now rewrite H.
  - right; left. split; [now left|]. exists []. reflexivity.
  - right; right. split; [now left|]. exists []. reflexivity.
Qed.

Lemma skipn_In {A} n (l : list A) x : In x (skipn n l) -> In x l.
Proof. intros H. rewrite <- (firstn_skipn n l). apply in_or_app. now right. Qed.
Section E.
Context (ih pid : bytes) (i : ip).
(** The outcome with the writes [ws], [r1], against that if all succeed, [r2] *)
Inductive affected {L1 L2} (same : L1 -> L2 -> Prop) (ws : writes) (crypto : bool) : outcome (timed (res peer_error L1)) -> outcome (timed (res peer_error L2)) -> Prop :=
| af_ok t c1 c2 : same c1 c2 -> affected same ws crypto (Ret (Some (t, Ok c1))) (Ret (Some (t, Ok c2)))
| af_err t x : affected same ws crypto (Ret (Some (t, Err x))) (Ret (Some (t, Err x)))
| af_none : affected same ws crypto (Ret None) (Ret None)
| af_panic : affected same ws crypto Panic Panic
| af_fail t r : In WFail ws -> (forall t' x, r = Ret (Some (t', x)) -> t <= t') -> affected same ws crypto (Ret (Some (t, Err ESend))) r
| af_crypto t r : crypto = true -> In WFail ws -> (forall t' x, r = Ret (Some (t', x)) -> t <= t') -> affected same ws crypto (Ret (Some (t, Err ECryptoHandshake))) r
| af_stall r : In WStall ws -> affected same ws crypto (Ret None) r.
Definition same_link (ws : writes) (c1 : link_w) (c2 : link) : Prop := fst (fst c1) = fst c2 /\ snd c1 = snd c2 /\ forall w, In w (snd (fst c1)) -> In w ws.
Lemma exchange_stalled ws : forall later now got, (forall m e, snd (connect_w ih pid i ws (got ++ m) e) = SWaiting) -> exchange_w ih pid i ws now got later = Ret None.
Proof.
  induction later as [|[t [b| |]] later IH]; intros now got H; pose proof (H []) as H0; rewrite app_nil_r in H0; cbn [exchange_w]; rewrite (H0 Silent); [reflexivity| | |].
  - apply IH. intros m e. rewrite <- app_assoc. apply H.
  - now rewrite H0.
  - now rewrite H0.
Qed.
Lemma exchange_time : forall later now got t x, exchange ih pid i now got later = Ret (Some (t, x)) -> now <= t.
Proof.
  induction later as [|[t1 [b| |]] later IH]; intros now got t x; cbn [exchange]; destruct (snd (connect ih pid i got Silent)); try discriminate; try (intros [= <- _]; lia).
  - intros E. apply IH in E. lia.
  - destruct (snd (connect ih pid i got Closed)) as [[]| |]; try discriminate. intros [= <- _]. lia.
  - destruct (snd (connect ih pid i got Broken)) as [[]| |]; try discriminate. intros [= <- _]. lia.
Qed.
Lemma exchange_affected ws : forall later now got, affected (same_link ws) ws false (exchange_w ih pid i ws now got later) (exchange ih pid i now got later).
Proof.
  assert (ENDS : forall got t e, affected (same_link ws) ws false
     (match snd (connect_w ih pid i ws got e) with SPanicked => Panic | SDone (Err x) => Ret (Some (t, Err x)) | _ => Ret None end)
     (match snd (connect ih pid i got e) with SPanicked => Panic | SDone (Err x) => Ret (Some (t, Err x)) | _ => Ret None end)).
  { intros got t e. rewrite connect_cut. destruct (connect ih pid i got e) as [out s]. cbn [fst snd]. destruct (cut_tri ws out) as [H|[[I1 (o & H)]|[I1 (o & H)]]]; rewrite H; cbn [snd].
    - destruct s as [[c|x]| |]; cbn [carry]; constructor.
    - constructor; [exact I1|]. intros t' x E. destruct s as [[c|y]| |]; try discriminate E. injection E as <- _. lia.
    - apply af_stall. exact I1. }
  assert (HEAD : forall later now got rw r, (snd (connect ih pid i got Silent) = SWaiting -> affected (same_link ws) ws false rw r) ->
     (snd (connect ih pid i got Silent) <> SWaiting -> snd (connect_w ih pid i ws got Silent) = SWaiting -> In WStall ws -> (forall m e, snd (connect_w ih pid i ws (got ++ m) e) = SWaiting) -> rw = Ret None) ->
     (forall t' x, r = Ret (Some (t', x)) -> now <= t') ->
     affected (same_link ws) ws false
      (match snd (connect_w ih pid i ws got Silent) with SPanicked => Panic | SDone r => Ret (Some (now, let? c := r in Ok (c, later))) | SWaiting => rw end)
      (match snd (connect ih pid i got Silent) with SPanicked => Panic | SDone r => Ret (Some (now, let? c := r in Ok (c, later))) | SWaiting => r end)).
  { intros later now got rw r HW HS HT. rewrite connect_cut in HS |- *. pose proof (fun m e => connect_more_out ih pid i got m e) as MO. destruct (connect ih pid i got Silent) as [out s] eqn:EC. cbn [fst snd] in *.
    destruct (cut_tri ws out) as [H|[[I1 (o & H)]|[I1 (o & H)]]]; rewrite H in *; cbn [snd] in *.
    - destruct s as [[c|x]| |]; cbn [carry]; [constructor|constructor|auto|constructor]. cbn. split; [reflexivity|]. split; [reflexivity|]. intros w. apply skipn_In.
    - constructor; [exact I1|]. intros t' x E. destruct s as [[c|y]| |]; try discriminate E; [injection E as <- _; lia..|]. exact (HT _ _ E).
    - assert (D : s = SWaiting \/ s <> SWaiting) by (destruct s as [[]| |]; (now left) || (right; discriminate)). destruct D as [->|NW]; [auto|].
      rewrite HS; auto; [apply af_stall; exact I1|]. intros m e. rewrite connect_cut, (MO m e NW), H. reflexivity. }
  induction later as [|[t [b| |]] later IH]; intros now got; cbn [exchange exchange_w].
  - apply HEAD; [constructor|reflexivity|discriminate].
  - apply HEAD; [intros _; apply IH| |intros t' x E; apply exchange_time in E; lia]. intros _ _ _ ST. apply exchange_stalled. intros m e. rewrite <- app_assoc. apply ST.
  - apply HEAD; [intros _; apply ENDS| |intros t' x E; destruct (snd (connect ih pid i got Closed)) as [[]| |]; try discriminate E; injection E as <- _; lia]. intros _ _ _ ST. specialize (ST [] Closed). rewrite app_nil_r in ST. now rewrite ST.
  - apply HEAD; [intros _; apply ENDS| |intros t' x E; destruct (snd (connect ih pid i got Broken)) as [[]| |]; try discriminate E; injection E as <- _; lia]. intros _ _ _ ST. specialize (ST [] Broken). rewrite app_nil_r in ST. now rewrite ST.
Qed.
Lemma affected_time {L1 L2} (same : L1 -> L2 -> Prop) ws crypto now r1 r2 : affected same ws crypto r1 r2 ->
  affected same ws crypto (match r1 with Panic => Panic | Ret None => Ret None | Ret (Some (t, r)) => Ret (Some (t - now, r)) end)
    (match r2 with Panic => Panic | Ret None => Ret None | Ret (Some (t, r)) => Ret (Some (t - now, r)) end).
Proof.
  intros H. destruct H as [t c1 c2 S|t x| | |t r I1 T|t r C I1 T|r I1]; [constructor; exact S|constructor..|apply af_fail|apply af_crypto|apply af_stall]; auto;
    intros t' x E; (destruct r as [[[t1 x1]|]|]; try discriminate E; injection E as <- _; specialize (T _ _ eq_refl); lia).
Qed.
Lemma plain_affected now d ws : affected (same_link ws) ws false (connect_plain_w ih pid i now (d, ws)) (connect_plain ih pid i now d).
Proof.
  unfold connect_plain_w, connect_plain. cbn [fst snd]. destruct (d_tcp d) as [[t0 [[]|x]]|]; [|constructor..]. apply affected_time, exchange_affected.
Qed.
Lemma cut_h_tri ws out :
  (forall r, cut_h ws out r = (out, r, skipn (length out) ws)) \/
  (In WFail ws /\ exists o t w, In t (map fst out) /\ forall r, cut_h ws out r = (o, HFail t HSend, w)) \/
  (In WStall ws /\ exists o w, forall r, cut_h ws out r = (o, HWait, w)).
Proof.
  revert ws. induction out as [|[t b] out IH]; intros ws; [left; reflexivity|]. cbn [cut_h length]. destruct ws as [|[] ws]; cbn [write_next skipn].
  - destruct (IH []) as [H|[[[] _]|[[] _]]]. left. intros r. rewrite H. now rewrite skipn_nil.
  - destruct (IH ws) as [H|[[I1 (o & t1 & w & IT & H)]|[I1 (o & w & H)]]].
    + left. intros r. now rewrite H.
    + right; left. split; [now right|]. exists ((t, b) :: o), t1, w. split; [now right|]. intros r. now rewrite H.
    + right; right. split; [now right|]. exists ((t, b) :: o), w. intros r. now rewrite H.
  - right; left. split; [now left|]. exists [], t, ws. split; [now left|reflexivity].
  - right; right. split; [now left|]. exists [], ws. reflexivity.
Qed.
Lemma affected_more {L1 L2} (same same' : L1 -> L2 -> Prop) ws ws' crypto r1 r2 : affected same ws crypto r1 r2 -> (forall a b, same a b -> same' a b) -> (forall w, In w ws -> In w ws') -> affected same' ws' true r1 r2.
Proof. intros H S I1. destruct H; [apply af_ok|apply af_err|apply af_none|apply af_panic|apply af_fail|apply af_crypto|apply af_stall]; auto. Qed.
Definition over (r : hs_out) (t : N) : Prop := match r with HDone t' _ _ _ | HFail t' _ => t <= t' | _ => True end.
Lemma over_trans r a b : a <= b -> over r b -> over r a.
Proof. destruct r; cbn; intros; auto; lia. Qed.
Lemma hs_times fuel : forall s deadline now reads, (forall d, deadline = Some d -> now <= d) ->
  (forall t, In t (map fst (fst (hs_loop fuel s deadline now reads))) -> over (snd (hs_loop fuel s deadline now reads)) t) /\ over (snd (hs_loop fuel s deadline now reads)) now.
Proof.
  induction fuel as [|fuel IH]; intros s deadline now reads DL; cbn [hs_loop]; [split; [intros t []|exact I]|].
  destruct (into_keystream s) as [[ks rest]|]; [split; [intros t []|cbn; lia]|].
  set (s1 := mkShaker (h_state s) None (h_padc_len s) (h_skey s) None (h_input s) (h_provide s)).
  set (out := match h_output s with Some b => [(now, b)] | None => [] end).
  assert (OUT : forall t, In t (map fst out) -> t = now) by (intros t; subst out; destruct (h_output s); cbn; intros []; auto; contradiction).
  match goal with |- context [match ?x with Ret _ => _ | Panic => _ end] => destruct x as [dl|] eqn:EDL end; [|split; [intros; exact I|exact I]].
  assert (DL1 : forall d, dl = Some d -> now <= d).
  { destruct (h_timeout s) as [sc|]; [|injection EDL as <-; exact DL]. unfold instant_add in EDL. destruct (_ <? _); [|discriminate EDL]. injection EDL as <-. intros d [= <-]. lia. }
  match goal with |- context [let (out', r) := ?x in _] => match type of x with (list (N * bytes) * hs_out)%type => set (rest := x) end end.
  assert (R : (forall t, In t (map fst (fst rest)) -> over (snd rest) t) /\ over (snd rest) now).
  { assert (RD : forall t1 r reads1, now <= t1 -> (forall d, dl = Some d -> t1 <= d) ->
      let x := match r with RData b => match handle_input s1 b with Ok s2 => hs_loop fuel s2 dl t1 reads1 | Err e => ([], HFail t1 e) end | REof => ([], HFail t1 HDisconnect) | RError => ([], HFail t1 HRecv) end in
      (forall t, In t (map fst (fst x)) -> over (snd x) t) /\ over (snd x) now).
    { intros t1 r reads1 L1 D1 x. subst x. destruct r as [b| |]; [|split; [intros t []|cbn; lia]..]. destruct (handle_input s1 b) as [s2|er]; [|split; [intros t []|cbn; lia]].
      destruct (IH s2 dl t1 reads1 D1) as [H1 H2]. split; [exact H1|]. exact (over_trans _ _ _ L1 H2). }
    assert (EX : forall d, now <= d -> let x := match handle_timeout s1 with Ok s2 => hs_loop fuel s2 None d reads | Err e => ([], HFail d e) end in (forall t, In t (map fst (fst x)) -> over (snd x) t) /\ over (snd x) now).
    { intros d L1 x. subst x. destruct (handle_timeout s1) as [s2|er]; [|split; [intros t []|cbn; lia]]. destruct (IH s2 None d reads) as [H1 H2]; [discriminate|]. split; [exact H1|]. exact (over_trans _ _ _ L1 H2). }
    subst rest. destruct reads as [|[t1 r] reads1]; destruct dl as [d|].
    - apply EX. auto.
    - split; [intros t []|exact I].
    - destruct (N.leb_spec (N.max now t1) d) as [LE|]; [apply RD; [lia|]; intros d1 [= <-]; exact LE|apply EX; auto].
    - apply RD; [lia|discriminate]. }
  destruct rest as [o r]. cbn [fst snd] in *. destruct R as [R1 R2]. split; [|exact R2]. intros t. rewrite map_app. intros I1. apply in_app_or in I1. destruct I1 as [I1|I1]; [|apply R1, I1]. rewrite (OUT _ I1). exact R2.
Qed.
Lemma crypto_affected secs now d ws : affected (same_link ws) ws true (connect_crypto_w ih pid i secs now (d, ws)) (connect_crypto ih pid i secs now d).
Proof.
  unfold connect_crypto_w, connect_crypto, connect_encrypted. cbn [fst snd]. destruct (d_tcp d) as [[t0 [[]|x]]|]; [|constructor..].
  rewrite handshake_cut. pose proof (hs_times (3 + length (d_reads d)) (build ih secs (d_pada d) (d_padc d) (d_key d)) None (now + t0) (d_reads d) ltac:(discriminate)) as OV. fold (handshake ih secs (d_pada d) (d_padc d) (d_key d) (now + t0) (d_reads d)) in OV.
  destruct (handshake ih secs (d_pada d) (d_padc d) (d_key d) (now + t0) (d_reads d)) as [out r]. cbn [fst snd] in OV |- *.
  destruct (cut_h_tri ws out) as [H|[[I1 (o & t & w & IT & H)]|[I1 (o & w & H)]]]; rewrite H; [|apply af_crypto; auto|apply af_stall; auto].
  2: { destruct OV as [OV _]. specialize (OV t IT). intros t' x E. destruct r as [t1 ks rest later|t1 e| |]; try discriminate E; cbn [over] in OV.
       - destruct (exchange ih pid i t1 [] _) as [[[t2 x2]|]|] eqn:EE; try discriminate E. apply exchange_time in EE. injection E as <- _. lia.
       - injection E as <- _. lia. }
  destruct r as [t ks rest later|t e| |]; [|constructor..]. apply affected_time.
  eapply affected_more; [apply exchange_affected| |apply skipn_In].
  intros a b (A1 & A2 & A3). split; [exact A1|]. split; [exact A2|]. intros w I1. apply A3, skipn_In in I1. exact I1.
Qed.

(** *** The whole fetch *)
Definition finish0 (r : list bool * N * res peer_error link) : outcome (list bool * stage torrent_info) :=
  match r with
  | (l, _, Err e) => Ret (l, SDone (Err e))
  | (l, _, Ok (c, later)) =>
      let (bs, e) := pieces later in
      Ret (l, snd (fetch_from ih (mkConn (cn_local c) (cn_remote c) (cn_ext c) (cn_size c) (cn_st c) (cn_buf c) (cn_reads c ++ bs)) e))
  end.
Definition finish_w (r : list bool * N * res peer_error link_w) : outcome (list bool * stage torrent_info) :=
  match r with
  | (l, _, Err e) => Ret (l, SDone (Err e))
  | (l, _, Ok (c, ws, later)) =>
      let (bs, e) := pieces later in
      Ret (l, snd (fetch_from_w ih (mkConn (cn_local c) (cn_remote c) (cn_ext c) (cn_size c) (cn_st c) (cn_buf c) (cn_reads c ++ bs)) ws e))
  end.
Definition once {L} (limit : N) (r : timed (res peer_error L)) : N * res peer_error L :=
  let (t, r') := timeout limit r in (t, match r' with Some r => r | None => Err ConnectTimeout end).
Lemma once_fetch (l : list bool) limit ws crypto r1 r2 : affected (same_link ws) ws crypto r1 r2 -> r2 <> Panic ->
  let w := match r1 with Panic => Panic | Ret r => finish_w (l, fst (once limit r), snd (once limit r)) end in
  let o := match r2 with Panic => Panic | Ret r => finish0 (l, fst (once limit r), snd (once limit r)) end in
  w = o \/ (In WFail ws /\ (w = Ret (l, SDone (Err ESend)) \/ crypto = true /\ w = Ret (l, SDone (Err ECryptoHandshake)))) \/
  (In WStall ws /\ (w = Ret (l, SWaiting) \/ w = Ret (l, SDone (Err ConnectTimeout)))).
Proof.
  intros A NP w o. subst w o.
  assert (LATE : forall t r x, (forall t' x', r = Ret (Some (t', x')) -> t <= t') -> r <> Panic -> limit < t ->
     finish_w (l, fst (once limit (Some (t, x))), snd (once limit (Some (t, x)))) = match r with Panic => Panic | Ret r => finish0 (l, fst (once limit r), snd (once limit r)) end).
  { intros t r x T N LT. unfold once, timeout. destruct (N.leb_spec t limit); [lia|]. cbn [fst snd finish_w]. destruct r as [[[t' x']|]|]; [|reflexivity|now destruct N].
    specialize (T _ _ eq_refl). destruct (N.leb_spec t' limit); [lia|]. reflexivity. }
  destruct A as [t c1 c2 S|t x| | |t r I1 T|t r -> I1 T|r I1].
  - unfold once, timeout. destruct (N.leb_spec t limit) as [LE|LT]; [|left; reflexivity]. cbn [fst snd]. destruct c1 as [[c1 ws1] l1], c2 as [c2 l2]. destruct S as (S1 & S2 & S3). cbn [fst snd] in *. subst c2 l2.
    unfold finish_w, finish0. destruct (pieces l1) as [bs e]. rewrite fetch_cut. destruct (fetch_from ih _ e) as [out s]. cbn [fst snd].
    destruct (cut_tri ws1 out) as [H|[[I1 (o & H)]|[I1 (o & H)]]]; rewrite H; cbn [snd]; [left; reflexivity|right; left; split; [apply S3, I1|now left]|right; right; split; [apply S3, I1|now left]].
  - left. unfold once, timeout. destruct (t <=? limit); reflexivity.
  - left. reflexivity.
  - left. reflexivity.
  - destruct (N.le_gt_cases t limit) as [LE|LT]; [|left; now apply LATE]. right; left. split; [exact I1|]. left. unfold once, timeout. destruct (N.leb_spec t limit); [reflexivity|lia].
  - destruct (N.le_gt_cases t limit) as [LE|LT]; [|left; now apply LATE]. right; left. split; [exact I1|]. right. split; [reflexivity|]. unfold once, timeout. destruct (N.leb_spec t limit); [reflexivity|lia].
  - right; right. split; [exact I1|]. right. reflexivity.
Qed.
Lemma get_info_w_plain override p requires limit secs now enc plain : get_crypto_mode override p requires = Ok Plain ->
  get_info_w ih pid i override p requires limit secs now enc plain =
  match connect_plain_w ih pid i now (within_w limit plain) with Panic => Panic | Ret r => finish_w ([false], fst (once limit r), snd (once limit r)) end.
Proof. intros M. unfold get_info_w, run_connect, once. rewrite M. destruct (connect_plain_w _ _ _ _ _) as [r|]; [|reflexivity]. destruct (timeout limit r) as [t r']. reflexivity. Qed.
Lemma get_info_w_crypto override p requires limit secs now enc plain : get_crypto_mode override p requires = Ok Encrypt ->
  get_info_w ih pid i override p requires limit secs now enc plain =
  match connect_crypto_w ih pid i secs now (within_w limit enc) with Panic => Panic | Ret r => finish_w ([true], fst (once limit r), snd (once limit r)) end.
Proof. intros M. unfold get_info_w, run_connect, once. rewrite M. destruct (connect_crypto_w _ _ _ _ _ _) as [r|]; [|reflexivity]. destruct (timeout limit r) as [t r']. reflexivity. Qed.
Lemma get_info_0_plain override p requires limit secs now enc plain : get_crypto_mode override p requires = Ok Plain ->
  get_info ih pid i override p requires limit secs now enc plain =
  match connect_plain ih pid i now (within limit plain) with Panic => Panic | Ret r => finish0 ([false], fst (once limit r), snd (once limit r)) end.
Proof. intros M. unfold get_info, run_connect, once. rewrite M. destruct (connect_plain _ _ _ _ _) as [r|]; [|reflexivity]. destruct (timeout limit r) as [t r']. reflexivity. Qed.
Lemma get_info_0_crypto override p requires limit secs now enc plain : get_crypto_mode override p requires = Ok Encrypt ->
  get_info ih pid i override p requires limit secs now enc plain =
  match connect_crypto ih pid i secs now (within limit enc) with Panic => Panic | Ret r => finish0 ([true], fst (once limit r), snd (once limit r)) end.
Proof. intros M. unfold get_info, run_connect, once. rewrite M. destruct (connect_crypto _ _ _ _ _ _) as [r|]; [|reflexivity]. destruct (timeout limit r) as [t r']. reflexivity. Qed.
End E.
