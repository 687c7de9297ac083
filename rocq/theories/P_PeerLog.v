(** Lemmas on the log of an exchange with a peer (C121). *)
From Coq Require Import Lia.
From Verif Require Import Base BaseFacts S_Bencode S_Wire S_Download S_Frame S_Session M_Net M_Torrent M_Sha1 M_Extensions
  M_Messages M_Frame M_Peer M_Session M_Log M_PeerLog S_PeerLog P_Frame P_PeerWire P_Wire P_Download P_Session P_Exchange.

Lemma sent_of_app a b : sent_of (a ++ b) = sent_of a ++ sent_of b.
Proof. apply flat_map_app. Qed.
Lemma received_of_app a b : received_of (a ++ b) = received_of a ++ received_of b.
Proof. apply flat_map_app. Qed.
Definition said (m : message) (w : bytes) : Prop := exists code f, framed f w /\ frame_says code f m.
Lemma frames_ex s : exists fs r, frames s fs r.
Proof. destruct (segmentation [s] Closed) as ((r & F & _) & _). cbn [concat] in F. rewrite app_nil_r in F. eauto. Qed.

Lemma wire_68 h s : handshake_wire h s -> length s = 68%nat.
Proof. intros H. apply (handshake_wire_unique _ _ H). Qed.

Section L.
Context (p : sockaddr) (su : subject).
Let quiet (g : list record) := Forall (fun x => of_peer p x /\ x <> LMetadata su p) g.
Lemma send_recs_ok remote ms : Forall (fun m => exists b, channel_send remote m = Ret (Ok b) /\ carries remote m b) ms ->
  sent_of (send_recs p remote ms) = ms /\ received_of (send_recs p remote ms) = [] /\ quiet (send_recs p remote ms).
Proof.
  induction 1 as [|m ms (b & E & _) _ (IH1 & IH2 & IH3)]; cbn [send_recs]; [repeat split; constructor|]. rewrite E, sent_of_app, received_of_app.
  assert (X : forall g, g = [] \/ (exists i, g = [LRejecting p i]) -> sent_of g = [] /\ received_of g = [] /\ quiet g).
  { intros g [->|(i & ->)]; (split; [reflexivity|]; split; [reflexivity|]); repeat constructor. discriminate. }
  match goal with |- context [sent_of ?z ++ _] => destruct (X z) as (-> & -> & Q) end; [destruct m as [|h|[]]; eauto|].
  cbn [app]. change (sent_of (LSending p m :: ?g)) with (m :: sent_of g). change (received_of (LSending p m :: ?g)) with (received_of g).
  split; [|split].
  - cbn [sent_of flat_map app]. f_equal. exact IH1.
  - exact IH2.
  - apply Forall_app. split; [exact Q|]. constructor; [split; [reflexivity|discriminate]|exact IH3].
Qed.
Lemma loop_logged c r : cn_local c = local_reg -> forall fs st,
  Forall (fun m => exists b, channel_send (cn_remote c) m = Ret (Ok b) /\ carries (cn_remote c) m b) (sent_msgs (snd (fetch_run st (events fs r)))) ->
  let g := loop_log p su c st fs in
  sent_of g = sent_msgs (snd (fetch_run st (events fs r))) /\
  (exists fs1 fs2, fs = fs1 ++ fs2 /\ Forall2 (frame_says 42) fs1 (received_of g)) /\
  Forall (of_peer p) g /\
  (In (LMetadata su p) g <-> exists info, fst (fetch_run st (events fs r)) = Finished (Ok info)).
Proof.
  intros EL. unfold events. induction fs as [|f fs IH]; intros st HF.
  - cbn [map app] in *. destruct st as [sz b i|[x|x]|]; cbn [loop_log] in *.
    + destruct (end_event r) as [x|]; cbn [fetch_run fetch_step map app fst snd] in *; repeat split; try (exists [], []; split; [reflexivity|constructor]); try constructor; try intros []; discriminate.
    + destruct (end_event r); cbn; repeat split; eauto; try (exists [], []; split; [reflexivity|constructor]); try (repeat constructor).
    + destruct (end_event r); cbn; repeat split; try (exists [], []; split; [reflexivity|constructor]); try constructor; try intros []; discriminate.
    + destruct (end_event r); cbn; repeat split; try (exists [], []; split; [reflexivity|constructor]); try constructor; try intros []; discriminate.
  - cbn [map app] in *. destruct st as [sz b i|[x|x]|]; cbn [loop_log fetch_run] in *.
    2-4: cbn; repeat split; eauto; try (exists [], (f :: fs); split; [reflexivity|constructor]); try (repeat constructor); try intros []; discriminate.
    rewrite EL. destruct (recv_event local_reg f) as [m|x] eqn:RE.
    + destruct (fetch_step (Waiting sz b i) (Ok m)) as [st1 ms].
      specialize (IH st1). destruct (fetch_run st1 _) as [st2 tr]. cbn [fst snd sent_msgs] in *.
      rewrite sent_msgs_app, sent_msgs_map in *. apply Forall_app in HF as [H1 H2]. destruct (send_all_ok _ _ H1) as (o1 & E1 & F1). rewrite E1. cbn [snd].
      destruct (IH H2) as (A & (fs1 & fs2 & -> & B) & C & D). destruct (send_recs_ok _ _ H1) as (S1 & S2 & S3).
      cbn [recv_rec app]. split; [|split; [|split]].
      * change (sent_of (LReceived p m :: ?g)) with (sent_of g). rewrite sent_of_app, S1, A. reflexivity.
      * exists (f :: fs1), fs2. split; [reflexivity|]. cbn [received_of flat_map app]. fold (received_of (send_recs p (cn_remote c) ms ++ loop_log p su c st1 (fs1 ++ fs2))).
        rewrite received_of_app, S2. cbn [app]. constructor; [apply recv_says; exact RE|exact B].
      * constructor; [reflexivity|]. apply Forall_app. split; [|exact C]. eapply Forall_impl; [|exact S3]. intros y (Y & _). exact Y.
      * rewrite <- D. split; [|intros X; right; apply in_or_app; right; exact X]. intros [X|X]; [discriminate|]. apply in_app_iff in X. destruct X as [X|X]; [|exact X].
        exfalso. apply (proj2 (proj1 (Forall_forall _ _) S3 _ X)). reflexivity.
    + cbn [fetch_step recv_rec app send_recs send_all snd loop_log]. assert (R0 : forall evs, fetch_run (Finished (Err x)) evs = (Finished (Err x), [])) by (intros []; reflexivity).
      cbn [fetch_step]. rewrite R0. destruct fs; cbn; repeat split; try (eexists [], _; split; [reflexivity|constructor]); try constructor; try intros []; discriminate.
Qed.
Lemma fetch_logged ih c e : cn_local c = local_reg -> cn_st c = Head -> (forall n, cn_size c = Some n -> n < 2 ^ 32) ->
  (exists code, reg_get_message_id (cn_remote c) Metadata = Some code /\ code < 256) ->
  exists fs rem, frames (total Head (cn_buf c) (cn_reads c)) fs rem /\
    let g := fetch_log p su ih c e in
    Forall2 said (sent_of g) (fst (fetch_from ih c e)) /\
    (exists fs1 fs2, fs = fs1 ++ fs2 /\ Forall2 (frame_says 42) fs1 (received_of g)) /\
    Forall (of_peer p) g /\ (In (LMetadata su p) g <-> exists info, snd (fetch_from ih c e) = SDone (Ok info)).
Proof.
  intros EL ES HS (code & EC & HC). unfold fetch_from, fetch_log. rewrite ES.
  set (n := S _). assert (Hn : (length (total Head (cn_buf c) (cn_reads c)) < n)%nat) by (unfold n, total; cbn [pending]; lia).
  destruct (framed_all_spec e n Head (cn_buf c) (cn_reads c) I Hn) as (rem & F & V).
  destruct (framed_all n Head (cn_buf c) (cn_reads c) e) as [fs r]. cbn [fst snd] in *. subst r.
  pose proof (fetch_msgs ih (cn_size c) fs (verdict rem e) HS) as HM.
  exists fs, rem. split; [exact F|]. unfold get_metadata_info in *. destruct (fetch_start ih (cn_size c)) as [st0 o0].
  pose proof (fetch_loop_run c (verdict rem e) EL fs st0) as HL. pose proof (loop_logged c (verdict rem e) EL fs st0) as HG.
  destruct (fetch_run st0 (events fs (verdict rem e))) as [st1 tr1]. cbn [fst snd] in *.
  rewrite sent_msgs_app, sent_msgs_map in *.
  assert (HM' : Forall (fun m => exists b, channel_send (cn_remote c) m = Ret (Ok b) /\ carries (cn_remote c) m b) (o0 ++ sent_msgs tr1)).
  { eapply Forall_impl; [|exact HM]. intros m Hm. eapply send_ok; eauto. }
  apply Forall_app in HM' as [H1 H2]. destruct (send_all_ok _ _ H1) as (out1 & E1 & F1). rewrite E1.
  destruct (HL H2) as (out2 & E2 & F2). rewrite E2. cbn [fst snd]. destruct (HG H2) as (A & B & C & D). destruct (send_recs_ok _ _ H1) as (S1 & S2 & S3).
  rewrite sent_of_app, received_of_app, S1, S2, A. cbn [app]. split; [|split; [exact B|split]].
  - assert (CS : forall m b, carries (cn_remote c) m b -> said m b) by (intros m b0 (f & c' & Ff & E & S); exists c', f; auto).
    assert (CL : forall ms bl, Forall2 (carries (cn_remote c)) ms bl -> Forall2 said ms bl) by (induction 1; constructor; auto).
    apply Forall2_app; auto.
  - apply Forall_app. split; [|exact C]. eapply Forall_impl; [|exact S3]. intros y (Y & _). exact Y.
  - rewrite in_app_iff, D. split.
    + intros [X|(info & ->)]; [|exists info; reflexivity]. exfalso. apply (proj2 (proj1 (Forall_forall _ _) S3 _ X)). reflexivity.
    + intros (info & X). right. exists info. destruct st1; cbn in X; congruence.
Qed.
Lemma connect_logged ih pid i reads e : length ih = 20%nat -> length pid = 20%nat -> wf_ip i ->
  let g := connect_log p ih pid i reads e in
  (exists h0 ws, fst (connect ih pid i reads e) = h0 :: ws /\ Forall2 said (sent_of g) ws) /\ quiet g /\
  (received_of g = [] \/ exists h0 reserved w0 f0 m rest, concat reads = h0 ++ w0 ++ rest /\ hello ih reserved h0 /\ framed f0 w0 /\ frame_says 42 f0 m /\ received_of g = [m]) /\
  match snd (connect ih pid i reads e) with
  | SDone (Ok c) => exists h0 reserved w0 f0 m, concat reads = h0 ++ w0 ++ total Head (cn_buf c) (cn_reads c) /\ hello ih reserved h0 /\ framed f0 w0 /\ frame_says 42 f0 m /\ received_of g = [m]
  | _ => True
  end.
Proof.
  intros L1 L2 W. unfold connect, connect_log. set (h0 := handshake_bytes _).
  assert (Q0 : forall g, g = [] \/ (exists h, g = [LShake p h]) -> (exists h1 ws, [h0] = h1 :: ws /\ Forall2 said (sent_of g) ws) /\ quiet g /\ received_of g = []).
  { intros g [->|(h & ->)]; (split; [exists h0, []; split; [reflexivity|constructor]|]); (split; [|reflexivity]); repeat constructor. discriminate. }
  pose proof (read_exact_spec e reads 68 []) as R. destruct (read_exact 68 [] reads e) as [buf r1| |].
  2, 3: destruct (Q0 [] (or_introl eq_refl)) as (A & B & C); repeat (split; auto).
  destruct R as (x & EB & LX & EC). cbn [app] in EB. subst x.
  destruct (handshake_decode buf) as [h|] eqn:EH; [|destruct (Q0 [] (or_introl eq_refl)) as (A & B & C); repeat (split; auto)]. apply handshake_decode_iff in EH.
  pose proof (Q0 [LShake p h] ltac:(eauto)) as (QA & QB & QC).
  destruct (bytes_eqb_spec (hs_hash h) ih) as [EQ|]; cbn [negb]; [|repeat (split; auto)].
  destruct h as [ext hash hpid]. cbn [hs_hash hs_ext] in *. subst hash.
  destruct (hello_wire _ _ _ _ EH) as (reserved & HH & EX & LR). subst ext.
  destruct (ext_has _ Bep10) eqn:EB; cbn [negb]; [|repeat (split; auto)].
  rewrite local_registry_eq. change (mkEH None (Some (reg_to_m local_reg)) (Some CLIENT) None (Some i)) with (our_shake i).
  destruct (shake_send i W) as (w & f & ES & FW & FS). rewrite ES.
  assert (SW : said (ExtHandshake (our_shake i)) w) by (exists 42, f; auto).
  match goal with |- context [LShake p ?z :: _] => set (H := z) in * end.
  assert (Q1 : forall m ws', let g := [LShake p H; LSending p (ExtHandshake (our_shake i))] ++ m in Forall2 said (sent_of m) ws' -> quiet m ->
    (exists h1 ws, h0 :: w :: ws' = h1 :: ws /\ Forall2 said (sent_of g) ws) /\ quiet g /\ received_of g = received_of m).
  { intros m ws' g F Q. split; [exists h0, (w :: ws'); split; [reflexivity|]; constructor; [exact SW|exact F]|]. split; [|reflexivity]. repeat (constructor; [split; [reflexivity|discriminate]|]). exact Q. }
  pose proof (framed_next_spec e r1 Head [] I) as FN. destruct (framed_next Head [] r1 e) as [[[q st] buf'] r2].
  destruct q as [f0| | |]; [|destruct (Q1 [] [] ltac:(constructor) ltac:(constructor)) as (A & B & C); cbn [app] in *; (split; [exact A|]; split; [exact B|]; split; [left; exact C|]; destruct (end_event _); exact I)..].
  destruct FN as (-> & hd & ET & LH & BH & MH).
  destruct (recv_event local_reg f0) as [m|] eqn:ER; [|destruct (Q1 [] [] ltac:(constructor) ltac:(constructor)) as (A & B & C); cbn [app recv_rec] in *; split; [exact A|]; split; [exact B|]; split; [left; exact C|exact I]].
  apply recv_says in ER. cbn [recv_rec app].
  assert (RV : concat reads = buf ++ (hd ++ f0) ++ total Head buf' r2). { rewrite EC. f_equal. unfold total in ET. cbn [pending app] in ET. rewrite ET, <- app_assoc. reflexivity. }
  assert (FD : framed f0 (hd ++ f0)) by (exists hd; auto).
  assert (Q2 : (exists h1 ws, [h0; w] = h1 :: ws /\ Forall2 said (sent_of [LShake p H; LSending p (ExtHandshake (our_shake i)); LReceived p m]) ws) /\
    quiet [LShake p H; LSending p (ExtHandshake (our_shake i)); LReceived p m]).
  { destruct (Q1 [LReceived p m] [] ltac:(constructor) ltac:(repeat constructor; discriminate)) as (A & B & _). split; assumption. }
  destruct Q2 as (QD & QE).
  assert (RC : forall k, (k = [] \/ k = [LSending p (Core HaveNone)]) -> received_of (LShake p H :: LSending p (ExtHandshake (our_shake i)) :: LReceived p m :: k) = [m]) by (intros k [->| ->]; reflexivity).
  assert (Z : forall k (s : stage conn), (k = [] \/ k = [LSending p (Core HaveNone)]) -> match s with SDone (Ok c) => cn_buf c = buf' /\ cn_reads c = r2 | _ => True end ->
    (received_of (LShake p H :: LSending p (ExtHandshake (our_shake i)) :: LReceived p m :: k) = [] \/ exists h0 reserved w0 f0 m0 rest, concat reads = h0 ++ w0 ++ rest /\ hello ih reserved h0 /\ framed f0 w0 /\ frame_says 42 f0 m0 /\
       received_of (LShake p H :: LSending p (ExtHandshake (our_shake i)) :: LReceived p m :: k) = [m0]) /\
    match s with
    | SDone (Ok c) => exists h0 reserved w0 f0 m0, concat reads = h0 ++ w0 ++ total Head (cn_buf c) (cn_reads c) /\ hello ih reserved h0 /\ framed f0 w0 /\ frame_says 42 f0 m0 /\
       received_of (LShake p H :: LSending p (ExtHandshake (our_shake i)) :: LReceived p m :: k) = [m0]
    | _ => True end).
  { intros k s K CC. rewrite (RC k K). split; [right; exists buf, reserved, (hd ++ f0), f0, m, (total Head buf' r2); auto 10|].
    destruct s as [[c|]| |]; auto. destruct CC as (-> & ->). exists buf, reserved, (hd ++ f0), f0, m. auto 10. }
  destruct m as [m|their|mm]; [split; [exact QD|]; split; [exact QE|]; apply Z; [auto|exact I]| |split; [exact QD|]; split; [exact QE|]; apply Z; [auto|exact I]].
  destruct (eh_registry their) as [remote|]; [|split; [exact QD|]; split; [exact QE|]; apply Z; [auto|exact I]].
  destruct (reg_contains remote Metadata); cbn [negb]; [|split; [exact QD|]; split; [exact QE|]; apply Z; [auto|exact I]].
  destruct (ext_has _ Fast) eqn:EF.
  - destruct (havenone_ok remote) as (b2 & f2 & E2 & F2 & W2). rewrite E2. cbn [fst snd app].
    destruct (Q1 [LReceived p (ExtHandshake their); LSending p (Core HaveNone)] [b2]) as (A & B & _).
    { constructor; [exists 42, f2; auto|constructor]. } { repeat (constructor; [split; [reflexivity|discriminate]|]). constructor. }
    split; [exact A|]. split; [exact B|]. apply (Z [LSending p (Core HaveNone)] (SDone (Ok (mkConn local_reg remote (ext_and (ext_from SUPPORTED_EXTENSIONS) (be reserved)) (eh_size their) Head buf' r2)))); [auto|split; reflexivity].
  - split; [exact QD|]. split; [exact QE|]. apply (Z [] (SDone (Ok (mkConn local_reg remote (ext_and (ext_from SUPPORTED_EXTENSIONS) (be reserved)) (eh_size their) Head buf' r2)))); [auto|split; reflexivity].
Qed.
Lemma session_logged ih pid i reads e out s : length ih = 20%nat -> length pid = 20%nat -> wf_ip i -> session ih pid i reads e = (out, s) ->
  let g := session_log p su ih pid i reads e in
  Forall (of_peer p) g /\
  (exists h0 ws, out = h0 :: ws /\ Forall2 (fun m w => exists code f, framed f w /\ frame_says code f m) (sent_of g) ws) /\
  (received_of g = [] \/ exists h0 reserved rest fs1 fs2 rem, concat reads = h0 ++ rest /\ hello ih reserved h0 /\ frames rest (fs1 ++ fs2) rem /\ Forall2 (frame_says 42) fs1 (received_of g)) /\
  (In (LMetadata su p) g <-> exists info, s = SDone (Ok info)).
Proof.
  intros L1 L2 W E. unfold session in E. unfold session_log. destruct (connect_logged ih pid i reads e L1 L2 W) as ((h0 & ws & EO & F) & Q & RV & RC).
  pose proof (connect_spec ih pid i reads e L1 L2 W) as (_ & GC).
  set (g1 := connect_log p ih pid i reads e) in *. destruct (connect ih pid i reads e) as [o st]. cbn [fst snd] in *. subst o.
  assert (QP : Forall (of_peer p) g1) by (eapply Forall_impl; [|exact Q]; intros y (Y & _); exact Y).
  assert (QM : ~ In (LMetadata su p) g1) by (intros X; apply (proj2 (proj1 (Forall_forall _ _) Q _ X)); reflexivity).
  assert (BASE : (forall info, s <> SDone (Ok info)) -> out = h0 :: ws -> let g := g1 ++ [] in
    Forall (of_peer p) g /\ (exists h0 ws, out = h0 :: ws /\ Forall2 said (sent_of g) ws) /\
    (received_of g = [] \/ exists h0 reserved rest fs1 fs2 rem, concat reads = h0 ++ rest /\ hello ih reserved h0 /\ frames rest (fs1 ++ fs2) rem /\ Forall2 (frame_says 42) fs1 (received_of g)) /\
    (In (LMetadata su p) g <-> exists info, s = SDone (Ok info))).
  { intros NS -> g. subst g. rewrite app_nil_r. split; [exact QP|]. split; [eauto|]. split.
    - destruct RV as [RV|(k0 & reserved & w0 & f0 & m & rest & EC & HH & (hd & -> & LH & BH & MH) & FS & ->)]; [left; exact RV|right].
      destruct (frames_ex rest) as (fs & rem & FR). exists k0, reserved, ((hd ++ f0) ++ rest), [f0], fs, rem. split; [exact EC|]. split; [exact HH|]. split; [|constructor; [exact FS|constructor]].
      rewrite <- app_assoc. apply fr_cons; auto.
    - split; [contradiction|]. intros (info & X). destruct (NS _ X). }
  destruct st as [[c|x]| |]; [|injection E as <- <-; apply BASE; [discriminate|reflexivity]..].
  destruct GC as [GC _]. destruct GC as [GL GS GR (k0 & re & w0 & f0 & shake & code & EC & HH & HB & FW & FS & HZ & HO & HG & HC)].
  destruct (shake_registry _ _ _ FS) as [HS _].
  destruct (fetch_logged ih c e GL GS ltac:(rewrite HZ; exact HS) ltac:(exists code; split; [auto|lia])) as (fs & rem & FR & A & (fs1 & fs2 & -> & B) & C & D).
  destruct (fetch_from ih c e) as [out' s']. cbn [fst snd] in *. injection E as <- <-.
  split; [apply Forall_app; auto|]. split; [exists h0, (ws ++ out'); split; [reflexivity|]; rewrite sent_of_app; apply Forall2_app; assumption|]. split.
  - right. destruct RC as (k1 & r1 & w1 & f1 & m & EC1 & HH1 & (hd & -> & LH & BH & MH) & FS1 & ER).
    exists k1, r1, ((hd ++ f1) ++ total Head (cn_buf c) (cn_reads c)), (f1 :: fs1), fs2, rem. split; [exact EC1|]. split; [exact HH1|]. split.
    + rewrite <- app_assoc. apply fr_cons; auto.
    + rewrite received_of_app, ER. constructor; assumption.
  - rewrite in_app_iff, D. split; [intros [X|X]; [contradiction|exact X]|auto].
Qed.
(** When the metadata is obtained, all messages that made it are in the log. *)
Lemma honest_more data i evs : honest data i evs -> forall rest, honest data i (evs ++ rest).
Proof. induction 1 as [i evs L|i m evs M H IH|i evs L H IH]; intros rest; cbn [app]; [apply honest_done|apply honest_other|apply honest_piece]; auto. Qed.
Lemma loop_received c r info : cn_local c = local_reg -> forall fs st,
  Forall (fun m => exists b, channel_send (cn_remote c) m = Ret (Ok b) /\ carries (cn_remote c) m b) (sent_msgs (snd (fetch_run st (events fs r)))) ->
  fst (fetch_run st (events fs r)) = Finished (Ok info) ->
  fst (fetch_run st (map Ok (received_of (loop_log p su c st fs)))) = Finished (Ok info).
Proof.
  intros EL. unfold events. induction fs as [|f fs IH]; intros st HF R.
  - cbn [map app] in *. destruct st as [sz b i|[x|x]|]; cbn [loop_log] in *.
    + destruct (end_event r) as [x|]; cbn in R; discriminate.
    + destruct (end_event r); exact R.
    + destruct (end_event r); cbn in R; discriminate.
    + destruct (end_event r); cbn in R; discriminate.
  - cbn [map app] in *. destruct st as [sz b i|[x|x]|]; cbn [loop_log fetch_run] in *; [|exact R|discriminate R|discriminate R].
    rewrite EL. destruct (recv_event local_reg f) as [m|x] eqn:RE.
    + destruct (fetch_step (Waiting sz b i) (Ok m)) as [st1 ms] eqn:ES.
      specialize (IH st1). destruct (fetch_run st1 _) as [st2 tr]. cbn [fst snd sent_msgs] in *.
      rewrite sent_msgs_app, sent_msgs_map in *. apply Forall_app in HF as [H1 H2]. destruct (send_all_ok _ _ H1) as (o1 & E1 & F1). rewrite E1. cbn [snd].
      destruct (send_recs_ok _ _ H1) as (S1 & S2 & S3). cbn [recv_rec app].
      change (received_of (LReceived p m :: ?g)) with (m :: received_of g). rewrite received_of_app, S2. cbn [app map fetch_run]. rewrite ES.
      specialize (IH H2 R). destruct (fetch_run st1 _). exact IH.
    + cbn [fetch_step] in R. assert (R0 : forall evs, fetch_run (Finished (Err x)) evs = (Finished (Err x), [])) by (intros []; reflexivity). rewrite R0 in R. discriminate R.
Qed.
Lemma fetch_received ih c e info : cn_local c = local_reg -> cn_st c = Head -> (forall n, cn_size c = Some n -> n < 2 ^ 32) ->
  (exists code, reg_get_message_id (cn_remote c) Metadata = Some code /\ code < 256) ->
  snd (fetch_from ih c e) = SDone (Ok info) -> honest (ti_data info) 0 (map Ok (received_of (fetch_log p su ih c e))).
Proof.
  intros EL ES HS (code & EC & HC). unfold fetch_from, fetch_log. rewrite ES.
  destruct (framed_all _ Head (cn_buf c) (cn_reads c) e) as [fs r]. cbn [fst].
  pose proof (fetch_msgs ih (cn_size c) fs r HS) as HM. unfold get_metadata_info in HM.
  destruct (fetch_start ih (cn_size c)) as [st0 o0] eqn:E0.
  pose proof (fetch_loop_run c r EL fs st0) as HL. pose proof (loop_received c r info EL fs st0) as HG.
  destruct (fetch_run st0 (events fs r)) as [st1 tr1]. cbn [fst snd] in *. rewrite sent_msgs_app, sent_msgs_map in *.
  assert (HM' : Forall (fun m => exists b, channel_send (cn_remote c) m = Ret (Ok b) /\ carries (cn_remote c) m b) (o0 ++ sent_msgs tr1)).
  { eapply Forall_impl; [|exact HM]. intros m Hm. eapply send_ok; eauto. }
  apply Forall_app in HM' as [H1 H2]. destruct (send_all_ok _ _ H1) as (out1 & E1 & F1). rewrite E1.
  destruct (HL H2) as (out2 & E2 & F2). rewrite E2. cbn [fst snd]. intros X.
  assert (ST : st1 = Finished (Ok info)) by (destruct st1; cbn in X; congruence).
  specialize (HG H2 ST). destruct (send_recs_ok _ _ H1) as (_ & S2 & _). rewrite received_of_app, S2. cbn [app].
  set (ms := received_of _) in *. destruct (fetch_run st0 (map Ok ms)) as [q tr] eqn:RR. cbn [fst] in HG. subst q.
  assert (G : get_metadata_info ih (cn_size c) (map Ok ms) = (Finished (Ok info), map Sent o0 ++ tr)) by (unfold get_metadata_info; rewrite E0, RR; reflexivity).
  apply fetch_only in G. destruct G as (_ & ms' & rest & EV & HO). rewrite EV. apply honest_more. exact HO.
Qed.
Lemma session_received ih pid i reads e info : length ih = 20%nat -> length pid = 20%nat -> wf_ip i -> snd (session ih pid i reads e) = SDone (Ok info) ->
  exists m ms, received_of (session_log p su ih pid i reads e) = m :: ms /\ honest (ti_data info) 0 (map Ok ms).
Proof.
  intros L1 L2 W E. unfold session in E. unfold session_log. destruct (connect_logged ih pid i reads e L1 L2 W) as (_ & _ & _ & RC).
  pose proof (connect_spec ih pid i reads e L1 L2 W) as (_ & GC).
  set (g1 := connect_log p ih pid i reads e) in *. destruct (connect ih pid i reads e) as [o st]. cbn [fst snd] in *.
  destruct st as [[c|x]| |]; [|discriminate E..].
  destruct GC as [GC _]. destruct GC as [GL GS GR (k0 & re & w0 & f0 & shake & code & EC & HH & HB & FW & FS & HZ & HO & HG & HC)].
  destruct (shake_registry _ _ _ FS) as [HS _]. destruct RC as (k1 & r1 & w1 & f1 & m & _ & _ & _ & _ & ER).
  rewrite received_of_app, ER. exists m. eexists. split; [reflexivity|].
  apply (fetch_received ih c e info GL GS ltac:(rewrite HZ; exact HS) ltac:(exists code; split; [auto|lia])).
  destruct (fetch_from ih c e). exact E.
Qed.
(** The order of the records *)
Lemma refusing_plain a b : Forall plain a -> refusing p b -> refusing p (a ++ b).
Proof. induction 1; intros B; [exact B|]. apply rf_plain; auto. Qed.
Lemma next_plain size b st ms remote : fetch_next size b = (st, ms) -> Forall plain (send_recs p remote ms).
Proof.
  unfold fetch_next. destruct (builder_next b) as [i|]; [|destruct (builder_build b)]; intros [= <- <-]; [|constructor..].
  cbn [send_recs app]. constructor; [exact I|]. destruct (channel_send _ _) as [[]|]; constructor.
Qed.
Lemma step_refusing remote st m st' ms g : fetch_step st (Ok m) = (st', ms) -> (forall x, st <> Finished x) -> st <> Crashed -> refusing p g ->
  refusing p (LReceived p m :: send_recs p remote ms ++ g).
Proof.
  intros E NF NC G. destruct st as [size b i|x|]; [|destruct (NF _ eq_refl)|destruct (NC eq_refl)]. cbn [fetch_step] in E.
  assert (S0 : plain (LReceived p m) -> ms = [] -> refusing p (LReceived p m :: send_recs p remote ms ++ g)) by (intros P ->; apply rf_plain; auto).
  destruct m as [m|h|[]].
  - apply S0; [exact I|]. destruct (msg_ignorable _); congruence.
  - apply S0; [exact I|]. destruct (msg_ignorable _); congruence.
  - injection E as <- <-. cbn [send_recs app]. replace (match channel_send remote (Meta (MReject piece)) with Ret (Ok _) => [] | _ => [] end) with (@nil record) by (destruct (channel_send _ _) as [[]|]; reflexivity). cbn [app]. apply rf_refused. exact G.
  - destruct (total_size =? size); cbn [negb] in E; [|apply S0; [exact I|congruence]]. destruct (piece =? i); cbn [negb] in E; [|apply S0; [exact I|congruence]].
    destruct (builder_push b payload) as [[[] b']|]; [|apply S0; [exact I|congruence]..].
    apply rf_plain; [exact I|]. apply refusing_plain; [|exact G]. eapply next_plain; exact E.
  - apply S0; [exact I|]. destruct (_ =? _); cbn [negb] in E; congruence.
  - apply S0; [exact I|]. congruence.
Qed.
Lemma loop_refusing c : forall fs st, refusing p (loop_log p su c st fs).
Proof.
  induction fs as [|f fs IH]; intros st; destruct st as [size b i|[x|x]|]; cbn [loop_log]; try constructor; try exact I; try constructor.
  destruct (recv_event (cn_local c) f) as [m|x].
  - destruct (fetch_step (Waiting size b i) (Ok m)) as [st' ms] eqn:E. cbn [recv_rec app]. eapply step_refusing; [exact E|discriminate|discriminate|].
    destruct (snd _) as [[]|]; [apply IH|constructor..].
  - cbn [fetch_step recv_rec app send_recs send_all snd]. apply IH.
Qed.
Lemma fetch_refusing ih c e : refusing p (fetch_log p su ih c e).
Proof.
  unfold fetch_log. destruct (fetch_start ih (cn_size c)) as [st ms] eqn:E. apply refusing_plain; [|destruct (snd _) as [[]|]; [apply loop_refusing|constructor..]].
  unfold fetch_start in E. destruct (cn_size c); [|injection E as <- <-; constructor]. destruct (builder_new _ _) as [[]|]; try (injection E as <- <-; constructor). eapply next_plain; exact E.
Qed.
Definition no_shake (g : list record) := Forall (fun x => forall q h, x <> LShake q h) g.
Lemma send_noshake remote ms : no_shake (send_recs p remote ms).
Proof. induction ms as [|m ms IH]; cbn [send_recs]; [constructor|]. apply Forall_app. split; [destruct m as [|h|[]]; repeat constructor; discriminate|]. constructor; [discriminate|]. destruct (channel_send _ _) as [[]|]; [exact IH|constructor..]. Qed.
Lemma loop_noshake c : forall fs st, no_shake (loop_log p su c st fs).
Proof.
  induction fs as [|f fs IH]; intros st; destruct st as [size b i|[x|x]|]; cbn [loop_log]; try constructor; try discriminate; try constructor.
  destruct (fetch_step _ _) as [st' ms]. apply Forall_app. split; [destruct (recv_event _ _); repeat constructor; discriminate|]. apply Forall_app. split; [apply send_noshake|].
  destruct (snd _) as [[]|]; [apply IH|constructor..].
Qed.
Lemma connect_order ih pid i reads e :
  (connect_log p ih pid i reads e = [] \/ exists h g, connect_log p ih pid i reads e = LShake p h :: g /\ no_shake g) /\
  match snd (connect ih pid i reads e) with
  | SDone (Ok _) => forall g', refusing p g' -> refusing p (connect_log p ih pid i reads e ++ g')
  | _ => refusing p (connect_log p ih pid i reads e)
  end.
Proof.
  unfold connect, connect_log. destruct (read_exact 68 [] reads e) as [buf r1| |]; [|split; [left; reflexivity|constructor]..].
  destruct (handshake_decode buf) as [h|]; [|split; [left; reflexivity|constructor]].
  assert (N : forall g, no_shake g -> (LShake p h :: g = [] \/ exists h' g', LShake p h :: g = LShake p h' :: g' /\ no_shake g')) by (intros g H; right; eauto).
  assert (P1 : forall g, refusing p g -> refusing p (LShake p h :: g)) by (intros; apply rf_plain; [exact I|assumption]).
  destruct (negb _); [split; [apply N; constructor|apply P1; constructor]|].
  destruct (negb _); [split; [apply N; constructor|apply P1; constructor]|].
  rewrite local_registry_eq. set (shake := ExtHandshake _).
  assert (N2 : forall g, no_shake g -> no_shake (LSending p shake :: g)) by (intros; constructor; [discriminate|assumption]).
  assert (P2 : forall g, refusing p g -> refusing p (LShake p h :: LSending p shake :: g)) by (intros; apply P1; apply rf_plain; [exact I|assumption]).
  destruct (channel_send reg_new shake) as [[w|x]|]; [|split; [apply N, N2; constructor|apply P2; constructor]..].
  destruct (framed_next Head [] r1 e) as [[[q st] buf'] r2]. destruct q as [f0| | |]; [|split; [apply N, N2; constructor|try (destruct (end_event _)); apply P2; constructor]..].
  destruct (recv_event local_reg f0) as [m|x]; cbn [recv_rec app]; [|split; [apply N, N2; constructor|apply P2; constructor]].
  assert (N3 : forall g, no_shake g -> no_shake (LSending p shake :: LReceived p m :: g)) by (intros; apply N2; constructor; [discriminate|assumption]).
  assert (P3 : refusing p (LShake p h :: LSending p shake :: [LReceived p m])).
  { apply P2. destruct m as [|h'|[]]; try (apply rf_plain; [exact I|constructor]). apply rf_over. }
  destruct m as [m|their|mm]; [split; [apply N, N3; constructor|exact P3]| |split; [apply N, N3; constructor|exact P3]].
  destruct (eh_registry their) as [remote|]; [|split; [apply N, N3; constructor|exact P3]].
  destruct (reg_contains remote Metadata); cbn [negb]; [|split; [apply N, N3; constructor|exact P3]].
  destruct (ext_has _ Fast).
  - split; [apply N, N3; constructor; [discriminate|constructor]|].
    assert (P4 : forall g', refusing p g' -> refusing p ((LShake p h :: LSending p shake :: [LReceived p (ExtHandshake their); LSending p (Core HaveNone)]) ++ g')).
    { intros g' G. cbn [app]. apply P2. apply rf_plain; [exact I|]. apply rf_plain; [exact I|exact G]. }
    assert (P5 := P4 [] (rf_nil p)). cbn [app] in P5.
    destruct (channel_send remote (Core HaveNone)) as [[b|x]|]; cbn [snd]; [exact P4|exact P5|exact P5].
  - split; [apply N, N3; constructor|]. cbn [snd app]. intros g' G. apply P2. apply rf_plain; [exact I|exact G].
Qed.
Lemma session_refusing ih pid i reads e : refusing p (session_log p su ih pid i reads e).
Proof.
  unfold session_log. destruct (connect_order ih pid i reads e) as (_ & H). destruct (snd (connect ih pid i reads e)) as [[c|]| |]; [apply H, fetch_refusing|rewrite app_nil_r; exact H..].
Qed.
Lemma connect_head ih pid i reads e : connect_log p ih pid i reads e = [] -> forall c, snd (connect ih pid i reads e) <> SDone (Ok c).
Proof.
  unfold connect, connect_log. destruct (read_exact 68 [] reads e) as [buf r1| |]; [|discriminate..]. destruct (handshake_decode buf) as [h|]; discriminate.
Qed.
Lemma session_shake ih pid i reads e :
  let g := session_log p su ih pid i reads e in
  (forall h h0 rest, concat reads = h0 ++ rest -> handshake_wire h h0 -> exists g', g = LShake p h :: g' /\ forall q h', ~ In (LShake q h') g') /\
  ((forall h h0 rest, concat reads = h0 ++ rest -> ~ handshake_wire h h0) -> g = []).
Proof.
  intros g.
  assert (NS : forall x, In x g -> forall g', g = x :: g' -> forall h, x = LShake p h -> forall q h', ~ In (LShake q h') g').
  { intros x _ g' Eg h -> q h'. unfold g, session_log in Eg. destruct (connect_order ih pid i reads e) as ([Z|(h1 & g1 & Z & N1)] & _).
    - pose proof (connect_head _ _ _ _ _ Z) as K. rewrite Z in Eg. destruct (snd (connect _ _ _ _ _)) as [[c|]| |]; [destruct (K c eq_refl)|discriminate Eg..].
    - rewrite Z in Eg. cbn [app] in Eg. injection Eg as _ <-. intros X. apply in_app_iff in X as [X|X].
      + apply (proj1 (Forall_forall _ _) N1 _ X q h'). reflexivity.
      + destruct (snd (connect _ _ _ _ _)) as [[c|]| |]; [|destruct X..]. unfold fetch_log in X. destruct (fetch_start _ _) as [st ms]. apply in_app_iff in X as [X|X].
        * apply (proj1 (Forall_forall _ _) (send_noshake _ _) _ X q h'). reflexivity.
        * destruct (snd _) as [[]|]; [|destruct X..]. apply (proj1 (Forall_forall _ _) (loop_noshake _ _ _) _ X q h'). reflexivity. }
  assert (D : (exists h buf rest g', concat reads = buf ++ rest /\ handshake_wire h buf /\ g = LShake p h :: g') \/ (g = [] /\ forall h h0 rest, concat reads = h0 ++ rest -> ~ handshake_wire h h0)).
  { unfold g, session_log. assert (L68 : forall h h0, handshake_wire h h0 -> length h0 = 68%nat) by exact wire_68.
    pose proof (read_exact_spec e reads 68 []) as R. unfold connect_log, connect. destruct (read_exact 68 [] reads e) as [buf r1| |].
    2, 3: right; split; [reflexivity|]; intros h h0 rest EC H; apply L68 in H; apply (f_equal (@length _)) in EC; rewrite app_length in EC; destruct R; lia.
    destruct R as (x & EB & LX & EC). cbn [app] in EB. subst x. destruct (handshake_decode buf) as [h|] eqn:EH.
    - left. apply handshake_decode_iff in EH. exists h, buf, (concat r1). eexists. split; [exact EC|]. split; [exact EH|]. cbn [app]. reflexivity.
    - right. split; [reflexivity|]. intros h h0 rest EC' H. pose proof (L68 _ _ H) as L. assert (h0 = buf) as ->.
      { rewrite EC in EC'. apply (f_equal (firstn 68)) in EC'. rewrite !firstn_app, LX, L, !Nat.sub_diag, !firstn_O, !app_nil_r, !firstn_all2 in EC' by lia. congruence. }
      apply handshake_decode_iff in H. congruence. }
  split.
  - intros h h0 rest EC H. destruct D as [(h1 & buf & rest1 & g' & EC1 & H1 & Eg)|(_ & D)]; [|destruct (D _ _ _ EC H)].
    assert (h0 = buf) as ->.
    { apply wire_68 in H, H1. rewrite EC in EC1. apply (f_equal (firstn 68)) in EC1. rewrite !firstn_app, H, H1, !Nat.sub_diag, !firstn_O, !app_nil_r, !firstn_all2 in EC1 by lia. exact EC1. }
    apply handshake_decode_iff in H, H1. assert (h1 = h) as -> by congruence. exists g'. split; [exact Eg|]. eapply NS; [rewrite Eg; left; reflexivity|exact Eg|reflexivity].
  - intros K. destruct D as [(h1 & buf & rest1 & g' & EC1 & H1 & Eg)|(Z & _)]; [destruct (K _ _ _ EC1 H1)|exact Z].
Qed.
(** Every message that has arrived is in the log, unless we have ended the exchange. *)
Lemma send_all_err remote ms x : snd (send_all remote ms) = Ret (Err x) -> x = ESend.
Proof.
  induction ms as [|m ms IH]; cbn [send_all]; [discriminate|]. unfold channel_send. destruct (msg_encode m remote) as [[b|]|]; try discriminate.
  destruct (frame_encode b); cbn [ok_or]; [|cbn; congruence]. destruct (send_all remote ms). exact IH.
Qed.
Lemma send_noreceived remote ms : received_of (send_recs p remote ms) = [].
Proof.
  induction ms as [|m ms IH]; cbn [send_recs]; [reflexivity|]. rewrite received_of_app.
  replace (received_of (match m with Meta (MReject i) => [LRejecting p i] | _ => [] end)) with (@nil message) by (destruct m as [|h|[]]; reflexivity).
  cbn [app]. change (received_of (LSending p m :: ?g)) with (received_of g). destruct (channel_send _ _) as [[]|]; [exact IH|reflexivity..].
Qed.
Definition stays (st : fetch) : Prop := match st with Finished (Err Disconnect) | Finished (Err ERecv) => False | _ => True end.
Lemma next_stays size b : stays (fst (fetch_next size b)).
Proof. unfold fetch_next. destruct (builder_next b); [exact I|]. destruct (builder_build b); exact I. Qed.
Lemma step_stays size b i m : stays (fst (fetch_step (Waiting size b i) (Ok m))).
Proof.
  cbn [fetch_step]. destruct m as [m|h|[]]; try exact I; try (destruct (msg_ignorable _); exact I).
  - destruct (negb _); [exact I|]. destruct (negb _); [exact I|]. destruct (builder_push _ _) as [[[] b']|]; [apply next_stays|exact I..].
  - destruct (negb _); exact I.
Qed.
Lemma loop_all c r : cn_local c = local_reg -> forall fs st, stays st -> left_by_peer (snd (fetch_loop c st fs r)) ->
  Forall2 (frame_says 42) fs (received_of (loop_log p su c st fs)).
Proof.
  intros EL. induction fs as [|f fs IH]; intros st ST LP; (destruct st as [size b i|[x|x]|]; cbn [loop_log fetch_loop snd left_by_peer stays] in *; [|destruct LP|destruct x; contradiction|destruct LP]); [exact (Forall2_nil _)|].
  rewrite EL in *. destruct (recv_event local_reg f) as [m|x] eqn:RE.
  - pose proof (step_stays size b i m) as S1. destruct (fetch_step (Waiting size b i) (Ok m)) as [st' ms]. cbn [fst] in S1.
    pose proof (send_all_err (cn_remote c) ms) as SE. destruct (send_all (cn_remote c) ms) as [o [[u|x]|]]; cbn [snd] in *; [|specialize (SE x eq_refl); subst x; destruct LP|destruct LP].
    specialize (IH st' S1). destruct (fetch_loop c st' fs r) as [o' s']. cbn [snd] in *.
    cbn [recv_rec app]. change (received_of (LReceived p m :: ?g)) with (m :: received_of g). rewrite received_of_app, send_noreceived. cbn [app]. constructor; [apply recv_says; exact RE|apply IH; exact LP].
  - cbn [fetch_step send_all] in LP. unfold recv_event in RE. destruct (msg_decode f local_reg); [discriminate|]. injection RE as <-. destruct fs; destruct LP.
Qed.
Lemma connect_all ih pid i reads e : left_by_peer (snd (connect ih pid i reads e)) ->
  received_of (connect_log p ih pid i reads e) = [] /\
  forall h0 reserved rest fs rem, concat reads = h0 ++ rest -> hello ih reserved h0 -> frames rest fs rem -> fs = [].
Proof.
  unfold connect, connect_log. pose proof (read_exact_spec e reads 68 []) as R.
  destruct (read_exact 68 [] reads e) as [buf r1| |].
  2, 3: intros _; split; [reflexivity|]; intros h0 reserved rest fs rem EC H _; destruct (hello_decode _ _ _ H) as [L _]; apply (f_equal (@length _)) in EC; rewrite app_length in EC; destruct R; lia.
  destruct R as (x & EB & LX & EC). cbn [app] in EB. subst x. destruct (handshake_decode buf) as [h|]; [|intros []].
  destruct (negb _); [intros []|]. destruct (negb _); [intros []|].
  rewrite local_registry_eq. set (shake := ExtHandshake _).
  assert (SE : forall rg m x, channel_send rg m = Ret (Err x) -> x = ESend).
  { intros rg m x. unfold channel_send. destruct (msg_encode m rg) as [[b|]|]; try discriminate. destruct (frame_encode b); cbn [ok_or]; congruence. }
  destruct (channel_send reg_new shake) as [[w|x]|] eqn:ES; [|apply SE in ES; subst x; intros []|intros []].
  pose proof (framed_next_spec e r1 Head [] I) as FN. destruct (framed_next Head [] r1 e) as [[[q st] buf'] r2].
  assert (Z : (exists rem, frames (total Head [] r1) [] rem) -> forall h0 reserved rest fs rem, concat reads = h0 ++ rest -> hello ih reserved h0 -> frames rest fs rem -> fs = []).
  { intros (rem & F) h0 reserved rest fs rem' EC' HH F'. destruct (hello_decode _ _ _ HH) as [L _]. rewrite EC in EC'. apply app_len_inj in EC' as [_ <-]; [|congruence].
    unfold total in F. cbn [pending app] in F. destruct (frames_fun _ _ _ F _ _ F') as [<- _]. reflexivity. }
  destruct q as [f0| | |]; [|intros _; split; [reflexivity|]; destruct FN as (rem & F & _); apply Z; eauto..].
  intros LP. exfalso. destruct (recv_event local_reg f0) as [m|x] eqn:RE.
  - destruct m as [m|their|mm]; [destruct LP| |destruct LP]. destruct (eh_registry their) as [remote|]; [|destruct LP]. destruct (negb _); [destruct LP|].
    destruct (ext_has _ Fast); [|destruct LP]. destruct (channel_send remote _) as [[|x]|] eqn:E2; cbn [snd] in LP; [destruct LP|apply SE in E2; subst x; destruct LP|destruct LP].
  - unfold recv_event in RE. destruct (msg_decode f0 local_reg); [discriminate|]. injection RE as <-. destruct LP.
Qed.
Lemma fetch_all ih c e : cn_local c = local_reg -> cn_st c = Head -> left_by_peer (snd (fetch_from ih c e)) ->
  exists fs rem, frames (total Head (cn_buf c) (cn_reads c)) fs rem /\ Forall2 (frame_says 42) fs (received_of (fetch_log p su ih c e)).
Proof.
  intros EL ES. unfold fetch_from, fetch_log. rewrite ES.
  set (n := S _). assert (Hn : (length (total Head (cn_buf c) (cn_reads c)) < n)%nat) by (unfold n, total; cbn [pending]; lia).
  destruct (framed_all_spec e n Head (cn_buf c) (cn_reads c) I Hn) as (rem & F & V).
  destruct (framed_all n Head (cn_buf c) (cn_reads c) e) as [fs r]. cbn [fst snd] in *.
  assert (S0 : stays (fst (fetch_start ih (cn_size c)))).
  { unfold fetch_start. destruct (cn_size c); [|exact I]. destruct (builder_new _ _) as [[]|]; [apply next_stays|exact I..]. }
  destruct (fetch_start ih (cn_size c)) as [st ms]. cbn [fst] in S0. pose proof (send_all_err (cn_remote c) ms) as SE.
  destruct (send_all (cn_remote c) ms) as [o [[u|x]|]]; cbn [snd] in *; [|specialize (SE x eq_refl); subst x; intros []|intros []].
  pose proof (loop_all c r EL fs st S0) as LA. destruct (fetch_loop c st fs r) as [o' s']. cbn [snd] in *. intros LP. exists fs, rem. split; [exact F|].
  rewrite received_of_app, send_noreceived. exact (LA LP).
Qed.
Lemma session_all ih pid i reads e h0 reserved rest fs rem : length ih = 20%nat -> length pid = 20%nat -> wf_ip i ->
  left_by_peer (snd (session ih pid i reads e)) -> concat reads = h0 ++ rest -> hello ih reserved h0 -> frames rest fs rem ->
  Forall2 (frame_says 42) fs (received_of (session_log p su ih pid i reads e)).
Proof.
  intros L1 L2 W LP EC HH F. unfold session in LP. unfold session_log.
  pose proof (connect_logged ih pid i reads e L1 L2 W) as (_ & _ & _ & RC). pose proof (connect_spec ih pid i reads e L1 L2 W) as (_ & GC). pose proof (connect_all ih pid i reads e) as CA.
  set (g1 := connect_log p ih pid i reads e) in *. destruct (connect ih pid i reads e) as [o st]. cbn [fst snd] in *.
  destruct st as [[c|x]| |]; cbn [snd] in *; try (rewrite app_nil_r; destruct (CA LP) as (-> & Z); rewrite (Z _ _ _ _ _ EC HH F); constructor).
  destruct GC as [GC _]. destruct GC as [GL GS _ _].
  pose proof (fetch_all ih c e GL GS) as FA. destruct (fetch_from ih c e) as [o' s']. cbn [snd] in *. destruct (FA LP) as (fs' & rem' & F' & A).
  destruct RC as (k1 & r1 & w1 & f1 & m & EC1 & HH1 & (hd & -> & LH & BH & MH) & FS1 & ER).
  rewrite EC in EC1. destruct (hello_fun _ _ _ _ _ _ _ HH HH1 EC1) as (_ & _ & ->). rewrite <- app_assoc in F.
  destruct (frames_fun _ _ _ F _ _ (fr_cons _ _ _ _ _ LH BH MH F')) as [-> _]. rewrite received_of_app, ER. constructor; assumption.
Qed.
End L.

Lemma run_logged {C} p su d override pref requires limit (enc plain : timed (res peer_error C)) l t r :
  run_connect override pref requires limit enc plain = (l, t, r) ->
  let g := run_log p su d override pref requires limit enc plain in
  match l with
  | [] => g = [DAsking su p]
  | [_] => g = [DAsking su p; DConnecting p]
  | [true; false] => g = [DAsking su p; DConnecting p; DNote (LFallback p d); DConnecting p] /\
      exists t0, enc = Some (t0, Err ECryptoHandshake) /\ t0 <= limit
  | _ => False
  end.
Proof.
  unfold run_connect, run_log. destruct (get_crypto_mode override pref requires) as [[]|]; [| | |intros [= <- _ _]; reflexivity].
  all: try (destruct (timeout limit enc); intros [= <- _ _]; reflexivity); try (destruct (timeout limit plain); intros [= <- _ _]; reflexivity).
  destruct enc as [[t0 [c|x]]|]; cbn [timeout]; [| |intros [= <- _ _]; reflexivity]; (destruct (N.leb_spec t0 limit) as [L|L]; [|intros [= <- _ _]; reflexivity]); [intros [= <- _ _]; reflexivity|].
  destruct x; try (intros [= <- _ _]; reflexivity). destruct (timeout limit plain). intros [= <- _ _]. split; [reflexivity|]. eauto.
Qed.

Section Blame.
Context (p : sockaddr) (su : subject).
Lemma next_blame size b x : fst (fetch_next size b) = Finished (Err x) -> ~ has_blame x.
Proof. unfold fetch_next. destruct (builder_next b); [discriminate|]. destruct (builder_build b); [discriminate|]. intros [= <-] []. Qed.
Lemma step_blame size b i m x : fst (fetch_step (Waiting size b i) (Ok m)) = Finished (Err x) -> has_blame x -> blamed x m.
Proof.
  cbn [fetch_step]. destruct m as [m|h|[k|k total d|k|k]].
  - destruct (msg_ignorable _); [discriminate|]. intros [= <-] _. reflexivity.
  - destruct (msg_ignorable _); [discriminate|]. intros [= <-] _. reflexivity.
  - discriminate.
  - destruct (N.eqb_spec total size) as [|NE]; cbn [negb]; [|intros [= <-] _; cbn; eauto]. destruct (N.eqb_spec k i) as [|NE]; cbn [negb]; [|intros [= <-] _; cbn; eauto 10].
    destruct (builder_push b d) as [[[] b']|]; [|intros [= <-] _; cbn; eauto|discriminate]. intros E HB. destruct (next_blame _ _ _ E HB).
  - destruct (N.eqb_spec k i) as [|NE]; cbn [negb]; intros [= <-] _; cbn; auto.
  - discriminate.
Qed.
Lemma loop_blame c r x : cn_local c = local_reg -> end_event r <> Some x -> has_blame x -> forall fs st, st <> Finished (Err x) ->
  snd (fetch_loop c st fs r) = SDone (Err x) -> exists l m, received_of (loop_log p su c st fs) = l ++ [m] /\ blamed x m.
Proof.
  intros EL NE HB. induction fs as [|f fs IH]; intros st NS E; (destruct st as [size b i|y|]; cbn [loop_log fetch_loop snd] in *; [|congruence|discriminate]).
  - destruct (end_event r) as [y|]; cbn [snd] in E; congruence.
  - destruct (recv_event (cn_local c) f) as [m|y] eqn:RE.
    + pose proof (step_blame size b i m x) as SB. destruct (fetch_step (Waiting size b i) (Ok m)) as [st' ms]. cbn [fst] in SB.
      pose proof (send_all_err (cn_remote c) ms) as SE. destruct (send_all (cn_remote c) ms) as [o [[u|y]|]]; cbn [snd] in *; [|specialize (SE y eq_refl); injection E as ->; subst x; destruct HB|discriminate].
      cbn [recv_rec app]. change (received_of (LReceived p m :: ?g)) with (m :: received_of g). rewrite received_of_app, send_noreceived. cbn [app].
      assert (D : st' = Finished (Err x) \/ st' <> Finished (Err x)).
      { destruct st' as [| |]; try (right; discriminate). destruct fs; cbn in E; injection E as ->; left; reflexivity. }
      destruct D as [->|D].
      * exists [], m. split; [destruct fs; reflexivity|auto].
      * specialize (IH st' D). destruct (fetch_loop c st' fs r) as [o' s']. destruct (IH E) as (l & m' & -> & B). exists (m :: l), m'. split; [reflexivity|exact B].
    + unfold recv_event in RE. destruct (msg_decode f (cn_local c)); [discriminate|]. injection RE as <-. cbn [fetch_step send_all] in E. destruct fs; cbn in E; injection E as <-; destruct HB.
Qed.
Lemma fetch_blame ih c e x : cn_local c = local_reg -> cn_st c = Head -> has_blame x -> snd (fetch_from ih c e) = SDone (Err x) ->
  exists l m, received_of (fetch_log p su ih c e) = l ++ [m] /\ blamed x m.
Proof.
  intros EL ES HB. unfold fetch_from, fetch_log. destruct (framed_all _ (cn_st c) (cn_buf c) (cn_reads c) e) as [fs r]. cbn [fst].
  assert (S0 : fst (fetch_start ih (cn_size c)) <> Finished (Err x)).
  { unfold fetch_start. destruct (cn_size c); [|intros [= <-]; destruct HB]. destruct (builder_new _ _) as [[]|]; cbn [fst]; [intros E; destruct (next_blame _ _ _ E HB)|intros [= <-]; destruct HB|discriminate]. }
  destruct (fetch_start ih (cn_size c)) as [st ms]. cbn [fst] in S0. pose proof (send_all_err (cn_remote c) ms) as SE.
  destruct (send_all (cn_remote c) ms) as [o [[u|y]|]]; cbn [snd] in *; [|specialize (SE y eq_refl); subst y; intros [= <-]; destruct HB|discriminate].
  pose proof (loop_blame c r x EL) as LB. destruct (fetch_loop c st fs r) as [o' s'] eqn:FL. cbn [snd]. intros ->.
  rewrite received_of_app, send_noreceived. cbn [app]. apply LB; [destruct r; intros [= <-]; destruct HB|exact HB|exact S0|rewrite FL; reflexivity].
Qed.
Lemma connect_blame ih pid i reads e x : has_blame x -> snd (connect ih pid i reads e) = SDone (Err x) ->
  exists l m, received_of (connect_log p ih pid i reads e) = l ++ [m] /\ blamed x m.
Proof.
  intros HB. unfold connect, connect_log. destruct (read_exact 68 [] reads e) as [buf r1| |]; [|intros [= <-]; destruct HB|discriminate].
  destruct (handshake_decode buf) as [h|]; [|intros [= <-]; destruct HB].
  destruct (negb _); [intros [= <-]; destruct HB|]. destruct (negb _); [intros [= <-]; destruct HB|].
  rewrite local_registry_eq. set (shake := ExtHandshake _).
  assert (SE : forall rg m y, channel_send rg m = Ret (Err y) -> y = ESend).
  { intros rg m y. unfold channel_send. destruct (msg_encode m rg) as [[b|]|]; try discriminate. destruct (frame_encode b); cbn [ok_or]; congruence. }
  destruct (channel_send reg_new shake) as [[w|y]|] eqn:ES; [|apply SE in ES; subst y; intros [= <-]; destruct HB|discriminate].
  destruct (framed_next Head [] r1 e) as [[[q st] buf'] r2]. destruct q as [f0| | |]; [|cbn [end_event snd]; (discriminate || (intros [= <-]; destruct HB))..].
  destruct (recv_event local_reg f0) as [m|y] eqn:RE.
  - destruct m as [m|their|mm]; cbn [recv_rec app snd].
    + intros [= <-]. exists [], (Core m). split; [reflexivity|]. discriminate.
    + destruct (eh_registry their) as [remote|]; [|intros [= <-]; destruct HB]. destruct (negb _); [intros [= <-]; destruct HB|].
      destruct (ext_has _ Fast); [|discriminate]. destruct (channel_send remote _) as [[|y]|] eqn:E2; cbn [snd]; [discriminate|apply SE in E2; subst y; intros [= <-]; destruct HB|discriminate].
    + intros [= <-]. exists [], (Meta mm). split; [reflexivity|]. discriminate.
  - unfold recv_event in RE. destruct (msg_decode f0 local_reg); [discriminate|]. injection RE as <-. intros [= <-]. destruct HB.
Qed.
Lemma session_blame ih pid i reads e x : length ih = 20%nat -> length pid = 20%nat -> wf_ip i -> has_blame x -> snd (session ih pid i reads e) = SDone (Err x) ->
  exists l m, received_of (session_log p su ih pid i reads e) = l ++ [m] /\ blamed x m.
Proof.
  intros L1 L2 W HB E. unfold session in E. unfold session_log. pose proof (connect_spec ih pid i reads e L1 L2 W) as (_ & GC). pose proof (connect_blame ih pid i reads e x HB) as CB.
  set (g1 := connect_log p ih pid i reads e) in *. destruct (connect ih pid i reads e) as [o st]. cbn [fst snd] in *.
  destruct st as [[c|y]| |]; cbn [snd] in *; try discriminate.
  - destruct GC as [GC _]. destruct GC as [GL GS _ _]. pose proof (fetch_blame ih c e x GL GS HB) as FB. destruct (fetch_from ih c e) as [o' s']. cbn [snd] in *.
    destruct (FB E) as (l & m & EQ & B). exists (received_of g1 ++ l), m. rewrite received_of_app, EQ, app_assoc. split; [reflexivity|exact B].
  - injection E as ->. rewrite app_nil_r. apply CB. reflexivity.
Qed.
End Blame.
