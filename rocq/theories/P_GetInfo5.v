(** Fetching without encryption succeeds with no other peers than those of [serves_plain]. *)
From Verif Require Import Base BaseFacts M_Net M_Sha1 M_Torrent M_Peer M_Extensions M_Messages M_Frame M_Rc4 M_Mse S_Mse M_Session M_Connect M_GetInfo
  S_Bencode S_Wire S_Download S_Frame S_Session S_GetInfo P_Frame P_Download P_Session P_Exchange P_Mse P_GetInfo P_GetInfo2 P_GetInfo3 P_GetInfo4.

Lemma exchange_times ih pid i : forall later now got t c later', exchange ih pid i now got later = Ret (Some (t, Ok (c, later'))) ->
  now <= t /\ exists used, later = used ++ later' /\ only_data used /\ all_by t used /\ snd (connect ih pid i (got ++ map data_of used) Silent) = SDone (Ok c).
Proof.
  induction later as [|[t1 [b| |]] later IH]; intros now got t c later'; cbn [exchange];
    (destruct (snd (connect ih pid i got Silent)) as [[c0|x]| |] eqn:E;
     [intros [= <- <- <-]; split; [lia|]; exists []; cbn; rewrite app_nil_r; split; [reflexivity|]; split; [intros ? ? []|]; split; [intros ? []|exact E]
     |discriminate| |discriminate]).
  - discriminate.
  - intros H. destruct (IH _ _ _ _ _ H) as (L & used & -> & OD & AB & C). split; [lia|]. exists ((t1, RData b) :: used). split; [reflexivity|]. split; [|split].
    + intros t0 r [[= <- <-]|H0]; eauto.
    + intros e [<-|X]; [cbn; lia|auto].
    + cbn. rewrite <- app_assoc in C. exact C.
  - destruct (snd (connect ih pid i got Closed)) as [[]| |]; discriminate.
  - destruct (snd (connect ih pid i got Broken)) as [[]| |]; discriminate.
Qed.
Section Plain.
Context (ih pid : bytes) (i : ip).
Hypothesis L1 : length ih = 20%nat.
Hypothesis L2 : length pid = 20%nat.
Hypothesis W : wf_ip i.
Lemma plain_only now limit d t c later info : connect_plain ih pid i now (within limit d) = Ret (Some (t, Ok (c, later))) -> t <= limit ->
  snd (fetch_from ih (more_reads c (fst (pieces later))) (snd (pieces later))) = SDone (Ok info) ->
  blen (ti_data info) <= 20971520 /\ exists t0, d_tcp d = Some (t0, Ok tt) /\ t0 <= limit /\ serves_plain ih (ti_data info) (now + limit) (d_reads d).
Proof.
  unfold connect_plain, within. cbn [d_tcp d_reads]. destruct (d_tcp d) as [[t0 r]|]; [|discriminate]. destruct (N.leb_spec t0 limit) as [LE|]; [|discriminate].
  destruct r as [[]|x]; [|discriminate]. destruct (exchange ih pid i (now + t0) [] (d_reads d)) as [[[t1 r]|]|] eqn:E; try discriminate. intros [= <- ->] LT F.
  destruct (exchange_times _ _ _ _ _ _ _ _ _ E) as (GE & used & ER & OD & AB & C). cbn [app] in C.
  rewrite <- (link_session ih pid i (map data_of used) (fst (pieces later)) (snd (pieces later)) c C) in F.
  destruct (session_only _ _ _ _ _ _ L1 L2 W F) as (LB & HS). split; [exact LB|]. exists t0. split; [reflexivity|]. split; [exact LE|].
  destruct (connect_spec ih pid i (map data_of used) Silent L1 L2 W) as [_ GC]. rewrite C in GC. destruct GC as [[_ _ _ (h0 & reserved & w0 & f0 & shake & code & EC & HH & HB & FW & FS & _ & HO & _ & HC)] _].
  exists used, later, (h0 ++ w0). split; [exact ER|]. split; [exact OD|]. split; [intros e X; specialize (AB e X); lia|]. split.
  - exists h0, reserved, w0, f0, shake, code. repeat (split; [solve [auto]|]). lia.
  - split; [eexists; unfold data; rewrite EC, app_assoc; reflexivity|]. rewrite concat_app in HS. exact HS.
Qed.
End Plain.
