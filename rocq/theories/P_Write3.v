From Verif Require Import Base BaseFacts M_Net M_Torrent M_Extensions M_Messages M_Frame M_Peer M_Session M_Rc4 M_Mse M_Connect M_GetInfo M_Write S_Write M_Sha1 S_Bencode S_Download P_GetInfo P_GetInfo3 P_GetInfo6 P_Write P_Write2.

(** Exchanging metadata never ends with a failed encryption handshake. *)
Definition no_crypto (st : fetch) : Prop := st <> Finished (Err ECryptoHandshake).
Lemma next_no_crypto size b : no_crypto (fst (fetch_next size b)).
Proof. unfold fetch_next, no_crypto. destruct (builder_next b); [discriminate|]. destruct (builder_build b); discriminate. Qed.
Lemma step_no_crypto size b i local f : no_crypto (fst (fetch_step (Waiting size b i) (recv_event local f))).
Proof.
  unfold recv_event, no_crypto. destruct (msg_decode f local) as [m|]; [|discriminate]. cbn [fetch_step].
  destruct m as [m|h|[j|j t p|j|j]]; try discriminate; repeat match goal with |- context [if ?x then _ else _] => destruct x end; try discriminate.
  destruct (builder_push b p) as [[[]]|]; [apply next_no_crypto|discriminate..].
Qed.
Lemma all_no_crypto remote ms : snd (send_all remote ms) <> Ret (Err ECryptoHandshake).
Proof.
  induction ms as [|m ms IH]; cbn [send_all]; [discriminate|]. destruct (channel_send remote m) as [[b|x]|] eqn:E; [|cbn [snd]; intros [= ->]; exact (send_error _ _ _ E eq_refl)|discriminate].
  destruct (send_all remote ms) as [o r]. exact IH.
Qed.
Lemma loop_no_crypto c r : forall fs st, no_crypto st -> snd (fetch_loop c st fs r) <> SDone (Err ECryptoHandshake).
Proof.
  induction fs as [|f fs IH]; intros st N; destruct st as [size b i|x|]; try discriminate; try (cbn [fetch_loop snd]; unfold no_crypto in N; congruence).
  - cbn [fetch_loop]. destruct r; discriminate.
  - cbn [fetch_loop]. pose proof (step_no_crypto size b i (cn_local c) f) as S. destruct (fetch_step (Waiting size b i) (recv_event (cn_local c) f)) as [st' ms]. cbn [fst] in S.
    pose proof (all_no_crypto (cn_remote c) ms) as A. destruct (send_all (cn_remote c) ms) as [o [[[]|x]|]]; cbn [snd] in *; [|congruence|discriminate].
    specialize (IH st' S). destruct (fetch_loop c st' fs r) as [o' s']. exact IH.
Qed.
Lemma fetch_no_crypto ih c e : snd (fetch_from ih c e) <> SDone (Err ECryptoHandshake).
Proof.
  unfold fetch_from. assert (S : no_crypto (fst (fetch_start ih (cn_size c)))). { unfold fetch_start. destruct (cn_size c); [|discriminate]. destruct (builder_new ih n) as [[b|x]|]; [apply next_no_crypto|discriminate..]. }
  destruct (fetch_start ih (cn_size c)) as [st ms]. cbn [fst] in S. pose proof (all_no_crypto (cn_remote c) ms) as A. destruct (send_all (cn_remote c) ms) as [o [[[]|x]|]]; cbn [snd] in *; [|congruence|discriminate].
  destruct (framed_all _ _ _ _ _) as [fs r]. pose proof (loop_no_crypto c r fs st S) as L. destruct (fetch_loop c st fs r) as [o' s']. exact L.
Qed.
Section E.
Context (ih pid : bytes) (i : ip).
Lemma finish_w_crypto l t r l' : finish_w ih (l, t, r) = Ret (l', SDone (Err ECryptoHandshake)) -> r = Err ECryptoHandshake.
Proof.
  unfold finish_w. destruct r as [[[c ws] later]|x]; [|congruence]. destruct (pieces later) as [bs e]. rewrite fetch_cut.
  match goal with |- context [fetch_from ih ?c ?e] => pose proof (fetch_no_crypto ih c e) as N; destruct (fetch_from ih c e) as [out s] end. cbn [fst snd] in *.
  destruct (cut_tri ws out) as [H|[[_ (o & H)]|[_ (o & H)]]]; rewrite H; cbn [snd]; congruence.
Qed.
Lemma finish_w_list l t r : exists s, finish_w ih (l, t, r) = Ret (l, s).
Proof. unfold finish_w. destruct r as [[[c ws] later]|x]; [|eauto]. destruct (pieces later). eauto. Qed.
Lemma get_info_w_prefer override p requires limit secs now enc plain : get_crypto_mode override p requires = Ok Prefer ->
  get_info_w ih pid i override p requires limit secs now enc plain =
  match connect_crypto_w ih pid i secs now (within_w limit enc) with
  | Panic => Panic
  | Ret r =>
      match timeout limit r with
      | (t, Some (Err ECryptoHandshake)) =>
          match connect_plain_w ih pid i (match r with Some (t, Err ECryptoHandshake) => now + t | _ => now end) (within_w limit plain) with
          | Panic => Panic
          | Ret r' => finish_w ih ([true; false], t + fst (once limit r'), snd (once limit r'))
          end
      | _ => finish_w ih ([true], fst (once limit r), snd (once limit r))
      end
  end.
Proof.
  intros M. unfold get_info_w. rewrite M. unfold run_connect. rewrite M. destruct (connect_crypto_w _ _ _ _ _ _) as [r|]; [|reflexivity]. unfold once.
  destruct (timeout limit r) as [t [[c|[]]|]]; try reflexivity. destruct (connect_plain_w _ _ _ _ _) as [r'|]; [|reflexivity]. destruct (timeout limit r') as [t' x']. reflexivity.
Qed.
Lemma get_info_0_prefer override p requires limit secs now enc plain : get_crypto_mode override p requires = Ok Prefer ->
  get_info ih pid i override p requires limit secs now enc plain =
  match connect_crypto ih pid i secs now (within limit enc) with
  | Panic => Panic
  | Ret r =>
      match timeout limit r with
      | (t, Some (Err ECryptoHandshake)) =>
          match connect_plain ih pid i (match r with Some (t, Err ECryptoHandshake) => now + t | _ => now end) (within limit plain) with
          | Panic => Panic
          | Ret r' => finish0 ih ([true; false], t + fst (once limit r'), snd (once limit r'))
          end
      | _ => finish0 ih ([true], fst (once limit r), snd (once limit r))
      end
  end.
Proof.
  intros M. unfold get_info. rewrite M. unfold run_connect. rewrite M. destruct (connect_crypto _ _ _ _ _ _) as [r|]; [|reflexivity]. unfold once.
  destruct (timeout limit r) as [t [[c|[]]|]]; try reflexivity. destruct (connect_plain _ _ _ _ _) as [r'|]; [|reflexivity]. destruct (timeout limit r') as [t' x']. reflexivity.
Qed.
Lemma prefer_w override p requires limit secs now enc plain : get_crypto_mode override p requires = Ok Prefer ->
  requires = false /\
  let whole := get_info_w ih pid i override p requires limit secs now enc plain in
  let first := get_info_w ih pid i (Some Encrypt) p requires limit secs now enc plain in
  let second t := get_info_w ih pid i (Some Plain) p requires limit secs (now + t) enc plain in
  ((forall l, first <> Ret (l, SDone (Err ECryptoHandshake))) -> whole = first) /\
  (forall l, first = Ret (l, SDone (Err ECryptoHandshake)) -> exists t, t <= limit /\
     (second t = Panic -> whole = Panic) /\ forall l' s, second t = Ret (l', s) -> whole = Ret ([true; false], s)).
Proof.
  intros M. assert (RQ : requires = false) by (destruct override as [[]|], p, requires; cbn in M; congruence). subst requires. split; [reflexivity|]. cbv zeta.
  rewrite (get_info_w_crypto ih pid i (Some Encrypt)) by reflexivity. rewrite (get_info_w_prefer _ _ _ _ _ _ _ _ M).
  assert (M2 : forall t, get_info_w ih pid i (Some Plain) p false limit secs (now + t) enc plain =
     match connect_plain_w ih pid i (now + t) (within_w limit plain) with Panic => Panic | Ret r => finish_w ih ([false], fst (once limit r), snd (once limit r)) end) by (intros t; apply get_info_w_plain; reflexivity).
  destruct (connect_crypto_w ih pid i secs now (within_w limit enc)) as [r|]; [|split; [reflexivity|discriminate]].
  split.
  - intros NC. destruct (timeout limit r) as [t [[c|x]|]] eqn:ET; [reflexivity| |reflexivity]. destruct x; try reflexivity. exfalso. apply (NC [true]). unfold once. rewrite ET. reflexivity.
  - intros l F. assert (O : snd (once limit r) = Err ECryptoHandshake) by (exact (finish_w_crypto _ _ _ _ F)).
    assert (RR : exists t, r = Some (t, Err ECryptoHandshake) /\ t <= limit). { revert O. unfold once, timeout. destruct r as [[t x]|]; [|discriminate]. destruct (N.leb_spec t limit); [|discriminate]. cbn [snd]. intros ->. eauto. }
    destruct RR as (t & -> & LE). exists t. split; [exact LE|]. rewrite M2. cbn [timeout]. destruct (N.leb_spec t limit); [|lia].
    destruct (connect_plain_w ih pid i (now + t) (within_w limit plain)) as [r'|]; [|split; [reflexivity|discriminate]]. split; [intros E; exfalso; destruct (finish_w_list [false] (fst (once limit r')) (snd (once limit r'))); congruence|].
    intros l' s. generalize (snd (once limit r')) (fst (once limit r')). intros r1 t'. unfold finish_w. destruct r1 as [[[c ws] later]|x]; [|congruence]. destruct (pieces later). congruence.
Qed.
(** One attempt *)
Lemma single_w override p requires limit secs now enc plain :
  get_info ih pid i override p requires limit secs now (fst enc) (fst plain) <> Panic ->
  let whole := get_info_w ih pid i override p requires limit secs now enc plain in
  let good := get_info ih pid i override p requires limit secs now (fst enc) (fst plain) in
  (get_crypto_mode override p requires = Ok Plain ->
   whole = good \/ (In WFail (snd plain) /\ whole = Ret ([false], SDone (Err ESend))) \/
   (In WStall (snd plain) /\ (whole = Ret ([false], SWaiting) \/ whole = Ret ([false], SDone (Err ConnectTimeout))))) /\
  (get_crypto_mode override p requires = Ok Encrypt ->
   whole = good \/ (In WFail (snd enc) /\ (whole = Ret ([true], SDone (Err ESend)) \/ whole = Ret ([true], SDone (Err ECryptoHandshake)))) \/
   (In WStall (snd enc) /\ (whole = Ret ([true], SWaiting) \/ whole = Ret ([true], SDone (Err ConnectTimeout))))) /\
  (forall x, get_crypto_mode override p requires = Err x -> whole = good).
Proof.
  intros NP. cbv zeta. split; [|split].
  - intros M. rewrite (get_info_0_plain _ _ _ _ _ _ _ _ _ _ _ M) in *. rewrite (get_info_w_plain _ _ _ _ _ _ _ _ _ _ _ M).
    pose proof (plain_affected ih pid i now (within limit (fst plain)) (snd plain)) as A.
    destruct (once_fetch ih [false] limit _ _ _ _ A) as [H|[[H1 [H2|[H2 _]]]|[H1 H2]]]; [intros E; apply NP; now rewrite E|..]; auto. discriminate H2.
  - intros M. rewrite (get_info_0_crypto _ _ _ _ _ _ _ _ _ _ _ M) in *. rewrite (get_info_w_crypto _ _ _ _ _ _ _ _ _ _ _ M).
    pose proof (crypto_affected ih pid i secs now (within limit (fst enc)) (snd enc)) as A.
    destruct (once_fetch ih [true] limit _ _ _ _ A) as [H|[[H1 [H2|[_ H2]]]|[H1 H2]]]; [intros E; apply NP; now rewrite E|..]; auto.
  - intros x M. unfold get_info_w, get_info. now rewrite M.
Qed.
(** Success *)
Lemma once_ok l limit ws crypto r1 r2 info : affected (same_link ws) ws crypto r1 r2 ->
  match r1 with Panic => Panic | Ret r => finish_w ih (l, fst (once limit r), snd (once limit r)) end = Ret (l, SDone (Ok info)) ->
  match r2 with Panic => Panic | Ret r => finish0 ih (l, fst (once limit r), snd (once limit r)) end = Ret (l, SDone (Ok info)).
Proof.
  intros A. destruct A as [t c1 c2 S|t x| | |t r I1 T|t r -> I1 T|r I1]; try discriminate.
  - unfold once, timeout. destruct (N.leb_spec t limit) as [LE|LT]; [|discriminate]. cbn [fst snd]. destruct c1 as [[c1 ws1] l1], c2 as [c2 l2]. destruct S as (S1 & S2 & S3). cbn [fst snd] in *. subst c2 l2.
    unfold finish_w, finish0. destruct (pieces l1) as [bs e]. rewrite fetch_cut. destruct (fetch_from ih _ e) as [out s]. cbn [fst snd].
    destruct (cut_tri ws1 out) as [H|[[I1 (o & H)]|[I1 (o & H)]]]; rewrite H; cbn [snd]; try discriminate. auto.
  - unfold once, timeout. destruct (t <=? limit); discriminate.
  - unfold once, timeout. destruct (t <=? limit); discriminate.
  - unfold once, timeout. destruct (t <=? limit); discriminate.
Qed.
Lemma plain_ok override p requires limit secs now enc plain l info : get_crypto_mode override p requires = Ok Plain ->
  get_info_w ih pid i override p requires limit secs now enc plain = Ret (l, SDone (Ok info)) ->
  l = [false] /\ get_info ih pid i (Some Plain) p requires limit secs now (fst enc) (fst plain) = Ret ([false], SDone (Ok info)).
Proof.
  intros M. assert (M2 : get_crypto_mode (Some Plain) p requires = Ok Plain) by (destruct override as [[]|], p, requires; cbn in M |- *; congruence).
  rewrite (get_info_0_plain _ _ _ _ _ _ _ _ _ _ _ M2), (get_info_w_plain _ _ _ _ _ _ _ _ _ _ _ M). pose proof (plain_affected ih pid i now (within limit (fst plain)) (snd plain)) as A. intros E.
  assert (L : l = [false]). { destruct (connect_plain_w _ _ _ _ _) as [r|]; [|discriminate E]. destruct (finish_w_list [false] (fst (once limit r)) (snd (once limit r))). congruence. }
  subst l. split; [reflexivity|]. exact (once_ok _ _ _ _ _ _ _ A E).
Qed.
Lemma crypto_ok override p requires limit secs now enc plain l info : get_crypto_mode override p requires = Ok Encrypt ->
  get_info_w ih pid i override p requires limit secs now enc plain = Ret (l, SDone (Ok info)) ->
  l = [true] /\ get_info ih pid i (Some Encrypt) p requires limit secs now (fst enc) (fst plain) = Ret ([true], SDone (Ok info)).
Proof.
  intros M. assert (M2 : get_crypto_mode (Some Encrypt) p requires = Ok Encrypt) by reflexivity.
  rewrite (get_info_0_crypto _ _ _ _ _ _ _ _ _ _ _ M2), (get_info_w_crypto _ _ _ _ _ _ _ _ _ _ _ M). pose proof (crypto_affected ih pid i secs now (within limit (fst enc)) (snd enc)) as A. intros E.
  assert (L : l = [true]). { destruct (connect_crypto_w _ _ _ _ _ _) as [r|]; [|discriminate E]. destruct (finish_w_list [true] (fst (once limit r)) (snd (once limit r))). congruence. }
  subst l. split; [reflexivity|]. exact (once_ok _ _ _ _ _ _ _ A E).
Qed.
Lemma success_w override p requires limit secs now enc plain l info :
  get_info_w ih pid i override p requires limit secs now enc plain = Ret (l, SDone (Ok info)) ->
  (l = [true] /\ get_info ih pid i (Some Encrypt) p requires limit secs now (fst enc) (fst plain) = Ret ([true], SDone (Ok info))) \/
  (l = [false] /\ get_info ih pid i (Some Plain) p requires limit secs now (fst enc) (fst plain) = Ret ([false], SDone (Ok info))) \/
  (l = [true; false] /\ exists t, t <= limit /\ get_info ih pid i (Some Plain) p requires limit secs (now + t) (fst enc) (fst plain) = Ret ([false], SDone (Ok info))).
Proof.
  intros G. destruct (get_crypto_mode override p requires) as [[]|x] eqn:M.
  - left. exact (crypto_ok _ _ _ _ _ _ _ _ _ _ M G).
  - destruct (prefer_w override p requires limit secs now enc plain M) as (-> & P1 & P2). cbv zeta in P1, P2.
    destruct (get_info_w ih pid i (Some Encrypt) p false limit secs now enc plain) as [[l1 s1]|] eqn:F.
    + assert (D : s1 = SDone (Err ECryptoHandshake) \/ s1 <> SDone (Err ECryptoHandshake)). { destruct s1 as [[?|x]| |]; try (right; discriminate). destruct x; try (right; discriminate). now left. }
      destruct D as [->|D].
      * destruct (P2 l1 eq_refl) as (t & LE & SP & SR). right; right. destruct (get_info_w ih pid i (Some Plain) p false limit secs (now + t) enc plain) as [[l2 s2]|] eqn:S2; [|rewrite (SP eq_refl) in G; discriminate G].
        rewrite (SR _ _ eq_refl) in G. assert (l = [true; false]) as -> by congruence. assert (s2 = SDone (Ok info)) as -> by congruence. split; [reflexivity|]. exists t. split; [exact LE|].
        exact (proj2 (plain_ok (Some Plain) p false limit secs (now + t) enc plain l2 info eq_refl S2)).
      * left. rewrite P1 in G; [|intros l2 E; congruence]. apply (crypto_ok (Some Encrypt) p false limit secs now enc plain); [reflexivity|]. congruence.
    + rewrite P1 in G; [discriminate G|discriminate].
  - right; left. exact (plain_ok _ _ _ _ _ _ _ _ _ _ M G).
  - unfold get_info_w in G. rewrite M in G. discriminate G.
Qed.
(** All writes succeed *)
Lemma no_bad {L1 L2} (same : L1 -> L2 -> Prop) ws crypto r1 r2 : (forall w, In w ws -> w = WOk) -> affected same ws crypto r1 r2 ->
  (exists t c1 c2, r1 = Ret (Some (t, Ok c1)) /\ r2 = Ret (Some (t, Ok c2)) /\ same c1 c2) \/
  (exists t x, r1 = Ret (Some (t, Err x)) /\ r2 = Ret (Some (t, Err x))) \/ (r1 = Ret None /\ r2 = Ret None) \/ (r1 = Panic /\ r2 = Panic).
Proof. intros W A. destruct A as [t c1 c2 S|t x| | |t r I1 T|t r -> I1 T|r I1]; eauto 9; apply W in I1; discriminate I1. Qed.
Lemma finish_ok l t ws ws' c later : (forall w, In w ws -> w = WOk) -> (forall w, In w ws' -> In w ws) -> finish_w ih (l, t, Ok (c, ws', later)) = finish0 ih (l, t, Ok (c, later)).
Proof.
  intros W S. unfold finish_w, finish0. destruct (pieces later) as [bs e]. rewrite fetch_cut. destruct (fetch_from ih _ e) as [out s]. cbn [fst snd].
  destruct (cut_tri ws' out) as [H|[[I1 _]|[I1 _]]]; [now rewrite H|apply S, W in I1; discriminate I1..].
Qed.
Lemma all_succeed override p requires limit secs now enc plain : (forall w, In w (snd enc) -> w = WOk) -> (forall w, In w (snd plain) -> w = WOk) ->
  get_info_w ih pid i override p requires limit secs now enc plain = get_info ih pid i override p requires limit secs now (fst enc) (fst plain).
Proof.
  intros W1 W2.
  pose proof (no_bad _ _ _ _ _ W1 (crypto_affected ih pid i secs now (within limit (fst enc)) (snd enc))) as AC.
  pose proof (fun n => no_bad _ _ _ _ _ W2 (plain_affected ih pid i n (within limit (fst plain)) (snd plain))) as AP.
  change (within limit (fst enc), snd enc) with (within_w limit enc) in AC. change (within limit (fst plain), snd plain) with (within_w limit plain) in AP.
  assert (FIN : forall l ws t0 t c1 c2, (forall w, In w ws -> w = WOk) -> same_link ws c1 c2 -> finish_w ih (l, t0 + fst (once limit (Some (t, Ok c1))), snd (once limit (Some (t, Ok c1)))) = finish0 ih (l, t0 + fst (once limit (Some (t, Ok c2))), snd (once limit (Some (t, Ok c2))))).
  { intros l ws t0 t [[c1 ws1] l1] [c2 l2] W (S1 & S2 & S3). cbn [fst snd] in *. subst c2 l2. unfold once, timeout. destruct (t <=? limit); [|reflexivity]. cbn [fst snd]. exact (finish_ok _ _ ws _ _ _ W S3). }
  assert (FIN0 : forall l ws t c1 c2, (forall w, In w ws -> w = WOk) -> same_link ws c1 c2 -> finish_w ih (l, fst (once limit (Some (t, Ok c1))), snd (once limit (Some (t, Ok c1)))) = finish0 ih (l, fst (once limit (Some (t, Ok c2))), snd (once limit (Some (t, Ok c2))))).
  { intros l ws t [[c1 ws1] l1] [c2 l2] W (S1 & S2 & S3). cbn [fst snd] in *. subst c2 l2. unfold once, timeout. destruct (t <=? limit); [|reflexivity]. cbn [fst snd]. exact (finish_ok _ _ ws _ _ _ W S3). }
  assert (ERR : forall l t0 t x, finish_w ih (l, t0 + fst (@once link_w limit (Some (t, Err x))), snd (@once link_w limit (Some (t, Err x)))) = finish0 ih (l, t0 + fst (@once link limit (Some (t, Err x))), snd (@once link limit (Some (t, Err x))))) by (intros l t0 t x; unfold once, timeout; destruct (t <=? limit); reflexivity).
  assert (ERR0 : forall l t x, finish_w ih (l, fst (@once link_w limit (Some (t, Err x))), snd (@once link_w limit (Some (t, Err x)))) = finish0 ih (l, fst (@once link limit (Some (t, Err x))), snd (@once link limit (Some (t, Err x))))) by (intros l t x; unfold once, timeout; destruct (t <=? limit); reflexivity).
  destruct (get_crypto_mode override p requires) as [[]|x] eqn:M; [| | |unfold get_info_w, get_info; now rewrite M].
  - rewrite (get_info_w_crypto _ _ _ _ _ _ _ _ _ _ _ M), (get_info_0_crypto _ _ _ _ _ _ _ _ _ _ _ M).
    destruct AC as [(t & c1 & c2 & -> & -> & S)|[(t & x & -> & ->)|[[-> ->]|[-> ->]]]]; [exact (FIN0 _ _ _ _ _ W1 S)|apply ERR0|reflexivity..].
  - rewrite (get_info_w_prefer _ _ _ _ _ _ _ _ M), (get_info_0_prefer _ _ _ _ _ _ _ _ M).
    destruct AC as [(t & c1 & c2 & -> & -> & S)|[(t & x & -> & ->)|[[-> ->]|[-> ->]]]]; [|..|reflexivity|reflexivity].
    + pose proof (FIN0 [true] _ t _ _ W1 S) as F. cbn [timeout] in *. destruct (t <=? limit); exact F.
    + cbn [timeout]. pose proof (ERR0 [true] t x) as F. destruct (t <=? limit); [|exact F]. destruct x; try exact F.
      destruct (AP (now + t)) as [(t2 & c1 & c2 & -> & -> & S)|[(t2 & x & -> & ->)|[[-> ->]|[-> ->]]]]; [exact (FIN _ _ _ _ _ _ W2 S)|apply ERR|reflexivity..].
  - rewrite (get_info_w_plain _ _ _ _ _ _ _ _ _ _ _ M), (get_info_0_plain _ _ _ _ _ _ _ _ _ _ _ M).
    destruct (AP now) as [(t & c1 & c2 & -> & -> & S)|[(t & x & -> & ->)|[[-> ->]|[-> ->]]]]; [exact (FIN0 _ _ _ _ _ W2 S)|apply ERR0|reflexivity..].
Qed.
End E.

(** *** As stated in C_Write *)
Lemma session_cut_spec ih pid i reads e out s : session ih pid i reads e = (out, s) -> forall ws,
  (succeed ws (length out) -> session_w ih pid i ws reads e = (out, s)) /\
  (forall k, (k < length out)%nat -> first_bad ws k WFail -> session_w ih pid i ws reads e = (firstn k out, SDone (Err ESend))) /\
  (forall k, (k < length out)%nat -> first_bad ws k WStall -> session_w ih pid i ws reads e = (firstn k out, SWaiting)).
Proof. intros E ws. rewrite session_cut, E. cbn [fst snd]. apply cut_spec. Qed.
Lemma handshake_cut_spec skey secs pada padc key now reads out r : handshake skey secs pada padc key now reads = (out, r) -> forall ws,
  (succeed ws (length out) -> handshake_w skey secs pada padc key ws now reads = (out, r, skipn (length out) ws)) /\
  (forall k t b, nth_error out k = Some (t, b) -> first_bad ws k WFail -> fst (handshake_w skey secs pada padc key ws now reads) = (firstn k out, HFail t HSend)) /\
  (forall k t b, nth_error out k = Some (t, b) -> first_bad ws k WStall -> fst (handshake_w skey secs pada padc key ws now reads) = (firstn k out, HWait)).
Proof. intros E ws. rewrite handshake_cut, E. cbn [fst snd]. apply cut_h_spec. Qed.
Lemma obtained_w ih pid i override p requires limit secs now enc plain l info :
  length ih = 20%nat -> length pid = 20%nat -> wf_ip i ->
  get_info_w ih pid i override p requires limit secs now enc plain = Ret (l, SDone (Ok info)) ->
  ((l = [true] /\ get_info ih pid i (Some Encrypt) p requires limit secs now (fst enc) (fst plain) = Ret ([true], SDone (Ok info))) \/
   (l = [false] /\ get_info ih pid i (Some Plain) p requires limit secs now (fst enc) (fst plain) = Ret ([false], SDone (Ok info))) \/
   (l = [true; false] /\ exists t, t <= limit /\ get_info ih pid i (Some Plain) p requires limit secs (now + t) (fst enc) (fst plain) = Ret ([false], SDone (Ok info)))) /\
  ti_hash info = ih /\ sha1 (ti_data info) = ih /\ bencoded_dict (ti_data info).
Proof.
  intros L1 L2 W G. apply success_w in G. split; [exact G|].
  destruct G as [[_ G]|[[_ G]|(_ & t & _ & G)]]; exact (get_info_authentic _ _ _ _ _ _ _ _ _ _ _ _ _ L1 L2 W G).
Qed.
