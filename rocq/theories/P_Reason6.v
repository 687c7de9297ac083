From Verif Require Import Base BaseFacts S_Bencode M_Utf8 M_Net M_Util M_Session M_Tracker M_Udp M_Http M_Announce S_Wire S_Udp S_UdpSession S_Http S_Announce P_Wire P_Udp P_UdpSession P_Http P_Announce S_Reason4 P_Reason4 P_Reason5.

Lemma start_ends urldata v6 txn msg t0 a is t x : ends v6 (ToConnect txn) 0 t0 is t x <->
  first_return (snd (urun urldata v6 (mkUS None (UConnecting txn msg 0 t0 a)) is)) = Some (t, x).
Proof. apply ends_iff. cbn. auto. Qed.
Definition udp_end (u : udp_url) (n : net) : timed (res udp_error announce_response) :=
  match n_socket n (uu_host u) (uu_port u) with
  | None => None
  | Some (t, (None, _, _)) => Some (t, Err ULookup)
  | Some (t, (Some [], _, _)) => Some (t, Err UNoResolve)
  | Some (t, (Some (_ :: _), false, _)) => Some (t, Err UBind)
  | Some (t, (Some (_ :: _), true, false)) => Some (t, Err UConnect)
  | Some (t0, (Some (a :: _), true, true)) =>
      if n_send n then
        let v6 := match sa_ip a with V4 _ => false | V6 _ => true end in
        first_return (snd (urun [] v6 (mkUS None (UConnecting (n_txn n) [] 0 t0 (mkAnn [] [] 0 0 0 EvStarted 0 0 0 TCPlain))) (n_inputs n)))
      else Some (t0, Err USend)
  end.
Lemma udp_end_iff u n t x : udp_concludes u n t x <-> udp_end u n = Some (t, x).
Proof.
  unfold udp_end. split.
  - intros H. destruct H as [t b c E|t b c E|t a l c E|t a l E|t a l E S|t0 a l v6 t x E V S H]; rewrite E; try reflexivity; rewrite S; [reflexivity|].
    unfold is_v4 in V. destruct (sa_ip a), v6; try tauto; eapply start_ends; exact H.
  - destruct (n_socket n _ _) as [[t0 [[[[|a l]|] b] c]]|] eqn:E.
    + intros [= <- <-]. eapply uc_no_address. exact E.
    + destruct b; [destruct c|].
      * destruct (n_send n) eqn:S; [|intros [= <- <-]; eapply uc_send; eauto]. intros H.
        apply (uc_ends u n t0 a l (match sa_ip a with V4 _ => false | V6 _ => true end) t x E); [unfold is_v4; destruct (sa_ip a); auto|exact S|].
        eapply start_ends. exact H.
      * intros [= <- <-]. eapply uc_connect. exact E.
      * intros [= <- <-]. eapply uc_bind. exact E.
    + intros [= <- <-]. eapply uc_name. exact E.
    + discriminate.
Qed.
(** Neither the announcement nor what is sent matters to how a session ends. *)
Lemma run_ends urldata v6 txn t0 a is :
  first_return (snd (urun urldata v6 (mkUS None (UConnecting txn (connection_request txn) 0 t0 a)) is)) =
  first_return (snd (urun [] v6 (mkUS None (UConnecting txn [] 0 t0 (mkAnn [] [] 0 0 0 EvStarted 0 0 0 TCPlain))) is)).
Proof.
  match goal with |- ?x = ?y => destruct x as [[t r]|] eqn:A; [|destruct y as [[t r]|] eqn:B; [|reflexivity]] end.
  - symmetry. apply start_ends in A. apply start_ends. exact A.
  - rewrite <- A. apply start_ends in B. apply start_ends. exact B.
Qed.

Definition http_end (n : net) (v : url) : timed (res tracker_error announce_response) :=
  if n_client n then match n_reply n v with Some (t, r) => Some (t, http_result r) | None => None end else Some (0, Err (TEHttp HEClient)).
Lemma http_end_iff n v t x : http_concludes n v t x <-> http_end n v = Some (t, x).
Proof.
  unfold http_end. split.
  - intros H. destruct H as [NC|t NC R|t st b NC R S|t st NC R S|t st b NC R S P|t d m (NC & st & R & S & C & D) F|t d r RS F].
    + now rewrite NC.
    + now rewrite NC, R.
    + rewrite NC, R. unfold http_result. destruct (N.leb_spec 400 st); destruct (N.ltb_spec st 600); cbn [andb]; try lia. reflexivity.
    + rewrite NC, R. unfold http_result. destruct (N.leb_spec 400 st); destruct (N.ltb_spec st 600); cbn [andb]; try lia; reflexivity.
    + rewrite NC, R. unfold http_result. destruct (http_decode_spec b) as (NP & OKS & FS).
      assert (X : http_decode b = Ret None).
      { destruct (http_decode b) as [[[r|m]|]|]; [| |reflexivity|congruence].
        - destruct (proj1 (OKS r) eq_refl) as (d & E & C & D & F). destruct (proj1 (P d E C D) r F).
        - destruct (proj1 (FS m) eq_refl) as (d & E & C & D & F). destruct (proj2 (P d E C D) m F). }
      rewrite X. destruct (N.leb_spec 400 st); destruct (N.ltb_spec st 600); cbn [andb]; try lia; reflexivity.
    + rewrite NC, R. unfold http_result. destruct (http_decode_spec (encode (VDict d))) as (_ & _ & FS). rewrite (proj2 (FS m)) by eauto.
      destruct (N.leb_spec 400 st); destruct (N.ltb_spec st 600); cbn [andb]; try lia; reflexivity.
    + destruct (http_ok_conv _ _ _ _ _ RS F) as (rep & NR & HR). destruct RS as (-> & _). rewrite NR, HR. reflexivity.
  - destruct (n_client n) eqn:NC; [|intros [= <- <-]; now apply hc_client]. destruct (n_reply n v) as [[t0 r]|] eqn:R; [|discriminate]. intros [= -> E].
    destruct r as [|st b]; [subst; now apply hc_send|]. destruct x as [r|e]; [destruct (http_ok n v t st b r NC R E) as (d & A & B); eapply hc_success; eauto|].
    unfold http_result in E. destruct ((400 <=? st) && (st <? 600)) eqn:ST.
    { injection E as <-. apply andb_prop in ST. destruct ST as (A & B). apply N.leb_le in A. apply N.ltb_lt in B. eapply hc_status; eauto. }
    assert (NS : ~ 400 <= st < 600) by (intros (A & B); apply N.leb_le in A; apply N.ltb_lt in B; rewrite A, B in ST; discriminate).
    destruct b as [b|]; [|injection E as <-; eapply hc_body; eauto]. destruct (http_decode_spec b) as (NP & OKS & FS).
    destruct (http_decode b) as [[[r|m]|]|] eqn:HD; [discriminate| | |congruence].
    + injection E as <-. destruct (proj1 (FS m) eq_refl) as (d & -> & C & D & F). eapply hc_failure; [|exact F]. split; [exact NC|]. exists st. split; [exact R|]. split; [lia|auto].
    + injection E as <-. eapply hc_parse; eauto. intros d -> C D. split.
      * intros r F. enough (@Ret (option http_response) None = Ret (Some (HSuccess r))) by discriminate. apply OKS. eauto.
      * intros r F. enough (@Ret (option http_response) None = Ret (Some (HFailure r))) by discriminate. apply FS. eauto.
Qed.

Definition the_end (n : net) (v : url) (tr : tracker) : timed (res tracker_error announce_response) :=
  match tr with
  | THttp _ => http_end n v
  | TUdp u => match udp_end u n with Some (t, x) => Some (t, res_map_err udp_failure x) | None => None end
  end.
Lemma the_end_iff n v tr t x : concludes n v tr t x <-> the_end n v tr = Some (t, x).
Proof.
  split.
  - intros H. destruct H as [u t x H|u t r H|u t m H|u t e H NE]; cbn [the_end]; [now apply http_end_iff|apply udp_end_iff in H; rewrite H..]; try reflexivity.
    cbn [res_map_err]. destruct e; try reflexivity. destruct (NE msg eq_refl).
  - destruct tr as [u|u]; cbn [the_end]; [intros H; apply cc_http; now apply http_end_iff|]. destruct (udp_end u n) as [[t0 [r|e]]|] eqn:E; [| |discriminate]; apply udp_end_iff in E; intros [= <- <-].
    + now apply cc_udp.
    + unfold udp_failure. destruct e; try (apply cc_udp_error; [exact E|discriminate]). now apply cc_udp_failure.
Qed.
Lemma one_end n v tr t x t' x' : concludes n v tr t x -> concludes n v tr t' x' -> t = t' /\ x = x'.
Proof. rewrite !the_end_iff. intros -> E. injection E as -> ->. auto. Qed.

Definition asked_url (tr : tracker) (a : announcement) : url := match tr with THttp u => announce_url u a | TUdp _ => mkUrl [] None None [] None end.
Lemma puts_asked tr a : puts tr a (asked_url tr a).
Proof. destruct tr; cbn; [apply asked|exact I]. Qed.

Lemma parts_end tr n a : in_order n -> the_end n (asked_url tr a) tr =
  match tracker_conn tr n with
  | None => None
  | Some (t, Err e) => Some (t, Err e)
  | Some (t1, Ok _) => match tracker_ann tr n a with Some (t2, x) => Some (t1 + t2, x) | None => None end
  end.
Proof.
  intros IO. destruct tr as [u|u]; cbn [the_end asked_url tracker_conn tracker_ann].
  - unfold http_end. destruct (n_client n); [|reflexivity]. destruct (n_reply n _) as [[t r]|]; [|reflexivity]. now rewrite N.add_0_l.
  - unfold udp_end, socket_of. destruct (n_socket n _ _) as [[t0 [[l b] c]]|] eqn:E; [|reflexivity]. specialize (IO _ _ _ _ E). unfold udp_socket. destruct l as [[|sa l]|]; [reflexivity| |reflexivity].
    destruct (sa_ip sa) eqn:ES; destruct b; cbn [negb]; try reflexivity; destruct c; cbn [negb]; try reflexivity; destruct (n_send n).
    all: try (rewrite run_first_fail; cbn [res_map_err]; rewrite N.sub_diag, N.add_0_r; reflexivity).
    all: rewrite run_first; cbn [fst snd first_return]; rewrite run_ends; destruct (first_return _) as [[t x]|] eqn:FR; [|reflexivity].
    all: pose proof (return_time _ _ _ _ _ _ _ IO FR); replace (t0 + (t - t0)) with t by lia; reflexivity.
Qed.
Lemma query_end limit s tr n : in_order n -> exists made stop,
  tracker_query limit s tr n = match the_end n (asked_url tr (start_announcement s)) tr with
    | Some (t, x) => if t <=? limit then (made, stop, t, match x with Ok r => Ok (ar_peers r) | Err e => Err (GInner e) end) else (made, stop, limit, Err GTimeout)
    | None => (made, stop, limit, Err GTimeout)
    end.
Proof.
  intros IO. rewrite (parts_end _ _ _ IO). unfold tracker_query, getter_run. destruct (tracker_conn tr n) as [[t1 [[]|e]]|]; cbn [timeout].
  - destruct (N.leb_spec t1 limit) as [LE|LT]; destruct (tracker_ann tr n (start_announcement s)) as [[t2 x]|]; cbn [timeout].
    + destruct (N.leb_spec t2 (limit - t1)); destruct (N.leb_spec (t1 + t2) limit); try lia; destruct x; try (do 2 eexists; reflexivity); do 2 eexists; repeat f_equal; lia.
    + do 2 eexists. repeat f_equal. lia.
    + destruct (N.leb_spec (t1 + t2) limit); [lia|]. do 2 eexists; reflexivity.
    + do 2 eexists; reflexivity.
  - destruct (N.leb_spec t1 limit); do 2 eexists; reflexivity.
  - do 2 eexists; reflexivity.
Qed.
Lemma query_reason limit s tr n made stop t x : in_order n -> tracker_query limit s tr n = (made, stop, t, x) ->
  exists v, puts tr (start_announcement s) v /\
    match x with
    | Ok ps => t <= limit /\ exists r, concludes n v tr t (Ok r) /\ ps = ar_peers r
    | Err (GInner e) => t <= limit /\ concludes n v tr t (Err e)
    | Err GTimeout => t = limit /\ forall t' y, concludes n v tr t' y -> limit < t'
    end.
Proof.
  intros IO Q. exists (asked_url tr (start_announcement s)). split; [apply puts_asked|]. destruct (query_end limit s tr n IO) as (made0 & stop0 & E). rewrite Q in E. clear Q.
  destruct (the_end n (asked_url tr (start_announcement s)) tr) as [[t0 y]|] eqn:TE.
  - destruct (N.leb_spec t0 limit) as [LE|LT]; injection E as _ _ -> ->.
    + apply the_end_iff in TE. destruct y as [r|e]; [split; [exact LE|eauto]|auto].
    + split; [reflexivity|]. intros t' y' C. apply the_end_iff in C. rewrite TE in C. injection C as <- _. exact LT.
  - injection E as _ _ -> ->. split; [reflexivity|]. intros t' y' C. apply the_end_iff in C. congruence.
Qed.
Lemma query_concluded limit s tr n t x : in_order n -> (forall v, puts tr (start_announcement s) v -> concludes n v tr t x) -> t <= limit ->
  exists made stop, tracker_query limit s tr n = (made, stop, t, match x with Ok r => Ok (ar_peers r) | Err e => Err (GInner e) end).
Proof.
  intros IO C LE. destruct (query_end limit s tr n IO) as (made & stop & E). exists made, stop. rewrite E. rewrite (proj1 (the_end_iff n _ tr t x) (C _ (puts_asked tr _))).
  destruct (N.leb_spec t limit); [reflexivity|lia].
Qed.
Lemma query_silent limit s tr n : in_order n -> (forall v t x, puts tr (start_announcement s) v -> concludes n v tr t x -> limit < t) ->
  exists made, tracker_query limit s tr n = (made, None, limit, Err GTimeout).
Proof.
  intros IO C. destruct (query_end limit s tr n IO) as (made & stop & E). pose proof (fun t x => C _ t x (puts_asked tr _)) as D.
  assert (E' : tracker_query limit s tr n = (made, stop, limit, Err GTimeout)).
  { rewrite E. destruct (the_end n _ tr) as [[t x]|] eqn:TE; [|reflexivity]. apply the_end_iff in TE. specialize (D t x TE). destruct (N.leb_spec t limit); [lia|reflexivity]. }
  exists made. rewrite E'. pose proof (stop_iff_peers _ limit s (tracker_conn tr n) (tracker_ann tr n)) as H. unfold tracker_query in E'. rewrite E' in H. destruct H as (_ & _ & -> & _). reflexivity.
Qed.
