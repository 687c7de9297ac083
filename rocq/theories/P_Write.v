From Verif Require Import Base BaseFacts M_Net M_Torrent M_Extensions M_Messages M_Frame M_Peer M_Session M_Rc4 M_Mse M_Connect M_GetInfo M_Write S_Write.

(** Cutting an exchange off at the first write that does not succeed *)
Fixpoint cut {A} (ws : writes) (out : list bytes) (s : stage A) : list bytes * stage A :=
  match out with
  | [] => ([], s)
  | b :: out' =>
      match write_next ws with
      | (WOk, ws') => let (o, s') := cut ws' out' s in (b :: o, s')
      | (WFail, _) => ([], SDone (Err ESend))
      | (WStall, _) => ([], SWaiting)
      end
  end.
Lemma write_cut {A} ws b k out (s : writes -> stage A) : (forall ws', k ws' = cut ws' out (s (skipn (length out) ws'))) ->
  write_then ws b k = cut ws (b :: out) (s (skipn (S (length out)) ws)).
Proof.
  intros H. unfold write_then. cbn [cut]. destruct ws as [|[] ws]; cbn [write_next skipn]; rewrite ?H; try reflexivity. now rewrite skipn_nil.
Qed.
Lemma cut_app {A} (s : stage A) : forall o1 o2 ws, cut ws (o1 ++ o2) s =
  match cut ws o1 (SDone (Ok tt)) with
  | (o, SDone (Ok _)) => let (o', s') := cut (skipn (length o1) ws) o2 s in (o ++ o', s')
  | (o, SDone (Err x)) => (o, SDone (Err x))
  | (o, SWaiting) => (o, SWaiting)
  | (o, SPanicked) => (o, SPanicked)
  end.
Proof.
  induction o1 as [|b o1 IH]; intros o2 ws; cbn [app cut length skipn]; [destruct (cut ws o2 s); reflexivity|].
  destruct ws as [|[] ws]; cbn [write_next skipn]; try reflexivity; rewrite IH.
  - replace (skipn (length o1) (@nil wres)) with (@nil wres) by (now rewrite skipn_nil). destruct (cut [] o1 (SDone (Ok tt))) as [o [[[]|x]| |]]; [destruct (cut [] o2 s)|..]; reflexivity.
  - destruct (cut ws o1 (SDone (Ok tt))) as [o [[[]|x]| |]]; [destruct (cut (skipn (length o1) ws) o2 s)|..]; reflexivity.
Qed.
Lemma cut_const {A B} (s : stage A) (s2 : stage B) : forall out ws,
  match cut ws out s2 with
  | (o, SDone (Ok _)) => exists x, s2 = SDone (Ok x) /\ cut ws out s = (o, s)
  | _ => True
  end.
Proof.
  induction out as [|b out IH]; intros ws; cbn [cut]; [destruct s2 as [[]| |]; auto; eauto|]. destruct ws as [|[] ws]; cbn [write_next]; auto.
  - specialize (IH []). destruct (cut [] out s2) as [o [[]| |]]; auto. destruct IH as (x & E1 & E2). exists x. now rewrite E2.
  - specialize (IH ws). destruct (cut ws out s2) as [o [[]| |]]; auto. destruct IH as (x & E1 & E2). exists x. now rewrite E2.
Qed.
Definition smap {A B} (f : A -> B) (s : stage A) : stage B :=
  match s with SDone (Ok a) => SDone (Ok (f a)) | SDone (Err x) => SDone (Err x) | SWaiting => SWaiting | SPanicked => SPanicked end.
Lemma cut_map {A B} (f : A -> B) (s : stage A) : forall out ws, cut ws out (smap f s) = let (o, s') := cut ws out s in (o, smap f s').
Proof.
  induction out as [|b out IH]; intros ws; cbn [cut]; [reflexivity|]. destruct ws as [|[] ws]; cbn [write_next]; try reflexivity; rewrite IH; [destruct (cut [] out s)|destruct (cut ws out s)]; reflexivity.
Qed.
Lemma cut_spec {A} (s : stage A) : forall out ws,
  (succeed ws (length out) -> cut ws out s = (out, s)) /\
  (forall k, (k < length out)%nat -> first_bad ws k WFail -> cut ws out s = (firstn k out, SDone (Err ESend))) /\
  (forall k, (k < length out)%nat -> first_bad ws k WStall -> cut ws out s = (firstn k out, SWaiting)).
Proof.
  induction out as [|b out IH]; intros ws; cbn [cut length]; [split; [reflexivity|split; intros k L; inversion L]|].
  assert (T : forall w (r : stage A), (forall ws', (forall k, (k < length out)%nat -> first_bad ws' k w -> cut ws' out s = (firstn k out, r))) ->
     (w = WFail /\ r = SDone (Err ESend) \/ w = WStall /\ r = SWaiting) -> forall k, (k < S (length out))%nat -> first_bad ws k w ->
     match write_next ws with (WOk, ws') => let (o, s') := cut ws' out s in (b :: o, s') | (WFail, _) => ([], SDone (Err ESend)) | (WStall, _) => ([], SWaiting) end = (firstn k (b :: out), r)).
  { intros w r I2 W k L (F & N & NE). destruct k as [|k].
    - cbn [firstn]. destruct ws as [|w1 ws]; cbn [nth] in N; [congruence|]. subst w1. cbn [write_next]. destruct W as [[-> ->]|[-> ->]]; reflexivity.
    - assert (H0 : nth 0 ws WOk = WOk) by (apply F; lia). destruct ws as [|w1 ws]; [cbn in N; congruence|]. cbn [nth] in H0. subst w1. cbn [write_next]. rewrite (I2 ws k); [reflexivity|lia|].
      split; [|split; [exact N|exact NE]]. intros j Lj. apply (F (S j)). lia. }
  split; [|split].
  - intros F. assert (H0 : nth 0 ws WOk = WOk) by (apply F; lia). destruct ws as [|w1 ws].
    + cbn [write_next]. rewrite (proj1 (IH [])); [reflexivity|]. intros j _. now destruct j.
    + cbn [nth] in H0. subst w1. cbn [write_next]. rewrite (proj1 (IH ws)); [reflexivity|]. intros j Lj. apply (F (S j)). lia.
  - apply T; [intros ws'; apply IH|auto].
  - apply T; [intros ws'; apply IH|auto].
Qed.

(** *** The exchange of messages *)
Lemma sends_cut {A} remote (k : writes -> list bytes * stage A) out s : (forall ws, k ws = cut ws out s) -> forall ms ws,
  sends_then ws remote ms k =
  match send_all remote ms with
  | (o, Panic) => cut ws o SPanicked
  | (o, Ret (Err x)) => cut ws o (SDone (Err x))
  | (o, Ret (Ok _)) => cut ws (o ++ out) s
  end.
Proof.
  intros K. induction ms as [|m ms IH]; intros ws; cbn [sends_then send_all]; [apply K|]. unfold send_then.
  destruct (channel_send remote m) as [[b|x]|]; [|reflexivity..]. unfold write_then.
  destruct ws as [|[] ws]; cbn [write_next]; rewrite ?IH; destruct (send_all remote ms) as [o [[[]|x]|]]; reflexivity.
Qed.
Lemma loop_cut c r : forall fs st ws, fetch_loop_w c ws st fs r = cut ws (fst (fetch_loop c st fs r)) (snd (fetch_loop c st fs r)).
Proof.
  induction fs as [|f fs IH]; intros st ws; destruct st as [size b i|x|]; try reflexivity.
  - cbn [fetch_loop fetch_loop_w]. destruct (end_event r); reflexivity.
  - cbn [fetch_loop fetch_loop_w]. destruct (fetch_step (Waiting size b i) (recv_event (cn_local c) f)) as [st' ms].
    rewrite (sends_cut _ _ _ _ (IH st')). destruct (send_all (cn_remote c) ms) as [o [[[]|x]|]]; [|reflexivity..].
    destruct (fetch_loop c st' fs r) as [o' s']. reflexivity.
Qed.
Lemma fetch_cut ih c e ws : fetch_from_w ih c ws e = cut ws (fst (fetch_from ih c e)) (snd (fetch_from ih c e)).
Proof.
  unfold fetch_from_w, fetch_from. destruct (fetch_start ih (cn_size c)) as [st ms].
  destruct (framed_all _ _ _ _ _) as [fs r]. rewrite (sends_cut _ _ _ _ (loop_cut c r fs st)). destruct (send_all (cn_remote c) ms) as [o [[[]|x]|]]; [|reflexivity..].
  destruct (fetch_loop c st fs r) as [o' s']. reflexivity.
Qed.
Definition carry (s : stage conn) (ws : writes) : stage (conn * writes) :=
  match s with SDone (Ok c) => SDone (Ok (c, ws)) | SDone (Err x) => SDone (Err x) | SWaiting => SWaiting | SPanicked => SPanicked end.
Lemma send_cut ws remote m (k : writes -> list bytes * stage (conn * writes)) out s :
  (forall ws', k ws' = cut ws' out (carry s (skipn (length out) ws'))) ->
  send_then ws remote m k = match channel_send remote m with
    | Panic => ([], SPanicked) | Ret (Err x) => ([], SDone (Err x)) | Ret (Ok b) => cut ws (b :: out) (carry s (skipn (S (length out)) ws)) end.
Proof. intros K. unfold send_then. destruct (channel_send remote m) as [[b|x]|]; [|reflexivity..]. exact (write_cut ws b k out (carry s) K). Qed.
Lemma connect_cut ih pid i reads e ws : connect_w ih pid i ws reads e =
  cut ws (fst (connect ih pid i reads e)) (carry (snd (connect ih pid i reads e)) (skipn (length (fst (connect ih pid i reads e))) ws)).
Proof.
  unfold connect_w, connect. set (hello := handshake_bytes _). 
  assert (T : forall (k : writes -> list bytes * stage (conn * writes)) out s, (forall ws', k ws' = cut ws' out (carry s (skipn (length out) ws'))) ->
     write_then ws hello k = cut ws (fst (hello :: out, s)) (carry (snd (hello :: out, s)) (skipn (length (fst (hello :: out, s))) ws))).
  { intros k out s K. apply (write_cut ws hello k out (carry s) K). }
  destruct (read_exact 68 [] reads e) as [buf reads1| |]; [|apply T; reflexivity..].
  destruct (handshake_decode buf) as [h|x]; [|apply T; reflexivity].
  destruct (negb (bytes_eqb (hs_hash h) ih)); [apply T; reflexivity|].
  destruct (negb (ext_has (ext_and (ext_from SUPPORTED_EXTENSIONS) (hs_ext h)) Bep10)); [apply T; reflexivity|].
  destruct local_registry as [local|]; [|apply T; reflexivity].
  set (shake := ExtHandshake _). destruct (channel_send reg_new shake) as [[b1|x]|] eqn:CS; cycle 1.
  { apply T. intros ws'. unfold send_then. rewrite CS. reflexivity. }
  { apply T. intros ws'. unfold send_then. rewrite CS. reflexivity. }
  destruct (framed_next Head [] reads1 e) as [[[fr st] buf'] reads2].
  assert (U : forall (k : writes -> list bytes * stage (conn * writes)) out s, (forall ws', k ws' = cut ws' out (carry s (skipn (length out) ws'))) ->
     write_then ws hello (fun ws1 => send_then ws1 reg_new shake k) = cut ws (fst (hello :: b1 :: out, s)) (carry (snd (hello :: b1 :: out, s)) (skipn (length (fst (hello :: b1 :: out, s))) ws))).
  { intros k out s K. apply T. intros ws'. rewrite (send_cut _ _ _ _ _ _ K), CS. reflexivity. }
  destruct fr; [|apply U; intros; cbn; reflexivity..].
  destruct (recv_event local f) as [msg|x]; [|apply U; reflexivity]. destruct msg; try (apply U; reflexivity).
  match goal with |- context [eh_registry ?h1] => destruct (eh_registry h1) as [remote|x] end; [|apply U; reflexivity].
  destruct (negb (reg_contains remote Metadata)); [apply U; reflexivity|].
  destruct (ext_has _ Fast); [|apply U; reflexivity].
  destruct (channel_send remote (Core HaveNone)) as [[b2|x]|] eqn:C2.
  - cbn [app]. apply U. intros ws'. unfold send_then. rewrite C2. apply (write_cut ws' b2 _ [] (carry _)). reflexivity.
  - apply U. intros ws'. unfold send_then. rewrite C2. reflexivity.
  - apply U. intros ws'. unfold send_then. rewrite C2. reflexivity.
Qed.
Lemma session_cut ih pid i reads e ws : session_w ih pid i ws reads e = cut ws (fst (session ih pid i reads e)) (snd (session ih pid i reads e)).
Proof.
  unfold session_w, session. rewrite connect_cut. destruct (connect ih pid i reads e) as [out s]. cbn [fst snd].
  assert (G : forall (s2 : stage torrent_info) (s1 : stage (conn * writes)), (forall x, s1 <> SDone (Ok x)) ->
     match s1 with SDone (Ok _) => False | SDone (Err x) => s2 = SDone (Err x) | SWaiting => s2 = SWaiting | SPanicked => s2 = SPanicked end ->
     match cut ws out s1 with (out, SPanicked) => (out, SPanicked) | (out, SWaiting) => (out, SWaiting) | (out, SDone (Err x)) => (out, SDone (Err x))
       | (out, SDone (Ok (c, ws'))) => let (out', s) := fetch_from_w ih c ws' e in (out ++ out', s) end = cut ws out s2).
  { intros s2 s1 N M. clear s. revert ws. induction out as [|b out IH]; intros ws; cbn [cut].
    - destruct s1 as [[x|x]| |]; [contradiction|now rewrite M..].
    - destruct ws as [|[] ws]; cbn [write_next]; try reflexivity.
      + specialize (IH []). destruct (cut [] out s1) as [o [[[c1 w1]|x]| |]] eqn:E; [|rewrite <- IH; reflexivity..].
        pose proof (cut_const s2 s1 out []) as CC. rewrite E in CC. destruct CC as (x & -> & _). exfalso. now apply (N x).
      + specialize (IH ws). destruct (cut ws out s1) as [o [[[c1 w1]|x]| |]] eqn:E; [|rewrite <- IH; reflexivity..].
        pose proof (cut_const s2 s1 out ws) as CC. rewrite E in CC. destruct CC as (x & -> & _). exfalso. now apply (N x). }
  destruct s as [[c|x]| |]; cbn [carry]; [|cbn [fst snd]; apply G; [discriminate|reflexivity]..].
  destruct (fetch_from ih c e) as [out' s'] eqn:EF. cbn [fst snd]. rewrite cut_app. clear G.
  assert (F : forall w, fetch_from_w ih c w e = cut w out' s') by (intros w; rewrite fetch_cut, EF; reflexivity).
  generalize (skipn (length out) ws). intros w. pose proof (cut_map (fun _ : unit => (c, w)) (SDone (Ok tt)) out ws : cut ws out (SDone (Ok (c, w))) = _) as CM. unfold writes in *. rewrite CM. destruct (cut ws out (SDone (Ok tt))) as [o [[[]|x]| |]]; [|reflexivity..]. cbn [smap]. now rewrite F.
Qed.

(** *** The encryption handshake *)
Fixpoint cut_h (ws : writes) (out : list (N * bytes)) (r : hs_out) : list (N * bytes) * hs_out * writes :=
  match out with
  | [] => ([], r, ws)
  | (t, b) :: out' =>
      match write_next ws with
      | (WOk, ws') => let '(o, r', ws2) := cut_h ws' out' r in ((t, b) :: o, r', ws2)
      | (WFail, ws') => ([], HFail t HSend, ws')
      | (WStall, ws') => ([], HWait, ws')
      end
  end.
Lemma hs_cut fuel : forall ws s deadline now reads,
  hs_loop_w fuel ws s deadline now reads = cut_h ws (fst (hs_loop fuel s deadline now reads)) (snd (hs_loop fuel s deadline now reads)).
Proof.
  induction fuel as [|fuel IH]; intros ws s deadline now reads; [reflexivity|]. cbn [hs_loop hs_loop_w].
  destruct (into_keystream s) as [[ks rest]|]; [reflexivity|].
  set (s1 := mkShaker (h_state s) None (h_padc_len s) (h_skey s) None (h_input s) (h_provide s)).
  destruct (match h_timeout s with Some secs => match instant_add now secs with Ret d => Ret (Some d) | Panic => Panic end | None => Ret deadline end) as [dl|].
  2: { destruct (h_output s) as [b|]; [|reflexivity]. cbn [fst snd cut_h]. destruct (write_next ws) as [[] ws1]; reflexivity. }
  match goal with |- context [let (out', r) := ?x in _] => match type of x with (list (N * bytes) * hs_out)%type => set (rest := x) end end.
  assert (G : forall ws1, match reads with
     | [] => match dl with Some d => match handle_timeout s1 with Ok s2 => hs_loop_w fuel ws1 s2 None d reads | Err e => ([], HFail d e, ws1) end | None => ([], HWait, ws1) end
     | (t, r) :: reads' =>
         match dl with
         | Some d => if N.max now t <=? d then match r with RData b => match handle_input s1 b with Ok s2 => hs_loop_w fuel ws1 s2 dl (N.max now t) reads' | Err e => ([], HFail (N.max now t) e, ws1) end
                        | REof => ([], HFail (N.max now t) HDisconnect, ws1) | RError => ([], HFail (N.max now t) HRecv, ws1) end
                     else match handle_timeout s1 with Ok s2 => hs_loop_w fuel ws1 s2 None d reads | Err e => ([], HFail d e, ws1) end
         | None => match r with RData b => match handle_input s1 b with Ok s2 => hs_loop_w fuel ws1 s2 dl (N.max now t) reads' | Err e => ([], HFail (N.max now t) e, ws1) end
                        | REof => ([], HFail (N.max now t) HDisconnect, ws1) | RError => ([], HFail (N.max now t) HRecv, ws1) end
         end
     end = cut_h ws1 (fst rest) (snd rest)).
  { intros ws1. subst rest. destruct reads as [|[t r] reads1]; destruct dl as [d|].
    - destruct (handle_timeout s1); [apply IH|reflexivity].
    - reflexivity.
    - destruct (N.max now t <=? d); [destruct r as [b| |]; [destruct (handle_input s1 b); [apply IH|reflexivity]|reflexivity..]|destruct (handle_timeout s1); [apply IH|reflexivity]].
    - destruct r as [b| |]; [destruct (handle_input s1 b); [apply IH|reflexivity]|reflexivity..]. }
  destruct rest as [o r]. cbn [fst snd] in *. destruct (h_output s) as [b|].
  - cbn [app cut_h]. destruct (write_next ws) as [[] ws1]; try reflexivity. specialize (G ws1). cbv zeta. 
    exact (f_equal (fun z : list (N * bytes) * hs_out * writes => let '(out, r0, ws2) := z in ((now, b) :: out, r0, ws2)) G).
  - cbn [app]. exact (G ws).
Qed.
Lemma handshake_cut skey secs pada padc key ws now reads :
  handshake_w skey secs pada padc key ws now reads = cut_h ws (fst (handshake skey secs pada padc key now reads)) (snd (handshake skey secs pada padc key now reads)).
Proof. apply hs_cut. Qed.
Lemma cut_h_spec r : forall out ws,
  (succeed ws (length out) -> cut_h ws out r = (out, r, skipn (length out) ws)) /\
  (forall k t b, nth_error out k = Some (t, b) -> first_bad ws k WFail -> fst (cut_h ws out r) = (firstn k out, HFail t HSend)) /\
  (forall k t b, nth_error out k = Some (t, b) -> first_bad ws k WStall -> fst (cut_h ws out r) = (firstn k out, HWait)).
Proof.
  induction out as [|[t b] out IH]; intros ws; cbn [cut_h length skipn]; [split; [reflexivity|split; intros [|k] t b E; discriminate E]|].
  split; [|split].
  - intros F. assert (H0 : nth 0 ws WOk = WOk) by (apply F; lia). destruct ws as [|w1 ws].
    + cbn [write_next]. rewrite (proj1 (IH [])); [now rewrite skipn_nil|]. intros j _. now destruct j.
    + cbn [nth] in H0. subst w1. cbn [write_next]. rewrite (proj1 (IH ws)); [reflexivity|]. intros j Lj. apply (F (S j)). lia.
  - intros [|k] t1 b1 E (F & N & NE).
    + cbn [nth_error] in E. injection E as <- <-. destruct ws as [|w1 ws]; cbn [nth] in N; [congruence|]. subst w1. reflexivity.
    + assert (H0 : nth 0 ws WOk = WOk) by (apply F; lia). destruct ws as [|w1 ws]; [cbn in N; congruence|]. cbn [nth] in H0. subst w1. cbn [write_next].
      assert (FB : first_bad ws k WFail) by (split; [intros j Lj; apply (F (S j)); lia|split; [exact N|exact NE]]).
      pose proof (proj1 (proj2 (IH ws)) k t1 b1 E FB) as H. destruct (cut_h ws out r) as [[o r'] w2]. cbn [fst] in *. injection H as -> ->. reflexivity.
  - intros [|k] t1 b1 E (F & N & NE).
    + cbn [nth_error] in E. injection E as <- <-. destruct ws as [|w1 ws]; cbn [nth] in N; [congruence|]. subst w1. reflexivity.
    + assert (H0 : nth 0 ws WOk = WOk) by (apply F; lia). destruct ws as [|w1 ws]; [cbn in N; congruence|]. cbn [nth] in H0. subst w1. cbn [write_next].
      assert (FB : first_bad ws k WStall) by (split; [intros j Lj; apply (F (S j)); lia|split; [exact N|exact NE]]).
      pose proof (proj2 (proj2 (IH ws)) k t1 b1 E FB) as H. destruct (cut_h ws out r) as [[o r'] w2]. cbn [fst] in *. injection H as -> ->. reflexivity.
Qed.
