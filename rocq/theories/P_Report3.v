(** Lemmas about what 'get' logs (M_Report). *)
From Verif Require Import Base BaseFacts M_Net M_Template M_Save M_Tracker M_Torrent M_Types M_Magnet M_Peer M_Session M_Config M_Nursery S_Nursery P_Nursery M_Resolve S_Resolve P_Resolve P_Resolve2 P_Resolve3
  M_Http M_Get S_Get P_Get M_Report S_Report P_Report.
From Coq Require Import Permutation.
Local Open Scope nat_scope.

Lemma nodup_left {X} (a b : list X) : NoDup (a ++ b) -> NoDup a.
Proof.
  induction a as [|x a IH]; intros H; [constructor|]. cbn [app] in H. inversion H as [|y l N1 N2]. subst. constructor; [|auto].
  intros Y. apply N1. apply in_or_app. auto.
Qed.
Section G.
Context {E : Type} (show_url : url -> bytes) (cfg : config) (pid : bytes) (m : magnet) (w : world) (te : nat -> option E).
Notation fetch := (contact_fetch cfg pid (mg_hash m) w).
Notation hang := (hangs cfg pid (mg_hash m) w).
Notation why_peer := (contact_error cfg pid (mg_hash m) w).
Notation lrun := (@lrun tracker contact sockaddr torrent_info E peer_error sa_eqb contact_addr (w_announce w) fetch te why_peer).
Notation get_log := (get_log show_url cfg pid te m w).
Notation get_cmd := (get_cmd show_url cfg pid m w).

Lemma notes_of_map (g : list (report tracker contact E peer_error)) rest : notes_of (Fetching :: map Note g ++ rest) = g ++ notes_of rest.
Proof. cbn [notes_of flat_map app]. unfold notes_of. rewrite flat_map_app. f_equal. induction g as [|x g IH]; [reflexivity|]. cbn [map flat_map app]. f_equal. exact IH. Qed.
Lemma peer_in (g : list (report tracker contact E peer_error)) p x : In (p, x) (peer_reports g) <-> In (PeerFailed p x) g.
Proof.
  unfold peer_reports. rewrite in_flat_map. split; [intros ([k t e|q e] & IN & H); [destruct H|]; destruct H as [H|[]]; injection H as -> ->; exact IN|].
  intros IN. exists (PeerFailed p x). split; [exact IN|left; reflexivity].
Qed.
Lemma tracker_in (g : list (report tracker contact E peer_error)) k t x : In (k, t, x) (tracker_reports g) <-> In (TrackerFailed k t x) g.
Proof.
  unfold tracker_reports. rewrite in_flat_map. split; [intros ([k' t' e|q e] & IN & H); [|destruct H]; destruct H as [H|[]]; injection H as -> -> ->; exact IN|].
  intros IN. exists (TrackerFailed k t x). split; [exact IN|left; reflexivity].
Qed.
(** How an execution ends, and what it has logged *)
Lemma get_log_inv l template cut fail g : get_log l template cut fail = Some (Ret g) ->
  (mg_trackers m = [] /\ w_dht w = None /\ g = [Fetching; Failed DhtFailed] /\ get_cmd l template cut fail = Some (Ret ([], false))) \/
  exists s0 s hT hP notes fin, get_start cfg m w = Some s0 /\ lrun s0 l = Some (s, hT, hP, notes) /\ g = Fetching :: map Note notes ++ fin /\
    (forall j r, In (j, r) (finished hP) -> hang (snd j) = false) /\
    ((exists i ops, r_main s = MReturned (Some i) /\ fin = [] /\ get_cmd l template cut fail = Some (Ret (ops, true))) \/
     (exists i ops, r_main s = MReturned (Some i) /\ fin = [Failed NotSaved] /\ fail <> None /\ get_cmd l template cut fail = Some (Ret (ops, false))) \/
     (r_main s = MReturned None /\ fin = [Failed NothingFromPeers] /\ get_cmd l template cut fail = Some (Ret ([], false)))).
Proof.
  unfold M_Report.get_log, M_Get.get_cmd. intros H. destruct (get_start cfg m w) as [s0|] eqn:ES.
  - right. destruct (lrun s0 l) as [[[[s hT] hP] notes]|] eqn:EL; [|discriminate].
    pose proof (lrun_run _ _ _ _ _ _ _ _ _ _ _ _ EL) as (RR & _ & _). unfold get_run. rewrite RR.
    match type of H with (if ?b then _ else _) = _ => destruct b eqn:EH end; [discriminate|]. pose proof (proj1 (not_hung cfg pid m w (finished hP)) EH) as NH. clear EH. rename NH into EH.
    destruct (r_main s) as [rest| |i|i|i|[i|]|] eqn:EM; try discriminate.
    + unfold save in *. destruct (save_dest _ template) as [d|]; [|discriminate]. exists s0, s, hT, hP, notes.
      destruct fail as [k|]; injection H as <-; eexists; (split; [reflexivity|]; split; [exact EL|]; split; [reflexivity|]; split; [exact EH|]).
      * right. left. eexists _, _. split; [exact EM|]. split; [reflexivity|]. split; [discriminate|reflexivity].
      * left. eexists _, _. split; [exact EM|]. split; reflexivity.
    + injection H as <-. exists s0, s, hT, hP, notes, [Failed NothingFromPeers]. split; [reflexivity|]. split; [exact EL|]. split; [reflexivity|]. split; [exact EH|]. right. right. split; [exact EM|]. split; reflexivity.
  - left. injection H as <-. unfold get_start, r_start in ES. destruct (mg_trackers m); [|discriminate]. destruct (w_dht w); [discriminate|]. auto.
Qed.
Lemma get_log_some l template cut fail ops ok : get_cmd l template cut fail = Some (Ret (ops, ok)) -> exists g, get_log l template cut fail = Some (Ret g).
Proof.
  unfold M_Report.get_log, M_Get.get_cmd. intros H. destruct (get_start cfg m w) as [s0|] eqn:ES; [|eauto].
  destruct (get_run cfg pid m w s0 l) as [[[s hT] hP]|] eqn:ER; [|discriminate]. unfold get_run in ER. destruct (run_lrun _ _ _ _ te why_peer _ _ _ _ _ ER) as (g & ->).
  match type of H with (if ?b then _ else _) = _ => destruct b end; [discriminate|]. destruct (r_main s) as [rest| |i|i|i|[i|]|]; try discriminate; eauto.
  destruct (save _ _ _ _) as [[o b]|]; [eauto|discriminate].
Qed.
Lemma failed_in y notes fin : In (Failed y) (Fetching :: map Note notes ++ fin : list (gnote E)) <-> In (Failed y) fin.
Proof.
  cbn [In]. rewrite in_app_iff. split; [|auto]. intros [H|[H|H]]; [discriminate| |exact H]. apply in_map_iff in H. destruct H as (x & H & _). discriminate.
Qed.
(** The verdict *)
Lemma get_verdict_logged l template cut fail ops ok : get_cmd l template cut fail = Some (Ret (ops, ok)) ->
  exists notes fin, get_log l template cut fail = Some (Ret (Fetching :: map Note notes ++ fin)) /\
    if ok then fin = []
    else fin = [Failed DhtFailed] /\ mg_trackers m = [] /\ w_dht w = None \/ fin = [Failed NotSaved] /\ fail <> None \/ fin = [Failed NothingFromPeers].
Proof.
  intros H. destruct (get_log_some _ _ _ _ _ _ H) as (g & G). destruct (get_log_inv _ _ _ _ _ G) as [(TR & DH & -> & K)|(s0 & s & hT & hP & notes & fin & _ & _ & -> & _ & D)].
  - rewrite H in K. injection K as -> ->. exists [], [Failed DhtFailed]. auto.
  - exists notes, fin. split; [exact G|]. destruct D as [(i & o & _ & -> & K)|[(i & o & _ & -> & F & K)|(_ & -> & K)]]; rewrite H in K; injection K as -> ->; auto.
Qed.
Lemma contact_error_iff c x : why_peer c = Some x <-> exists conns, contact_info cfg pid (mg_hash m) w c = Ret (conns, SDone (Err x)).
Proof.
  unfold contact_error. split.
  - intros H. destruct (contact_info _ _ _ _ _) as [[conns [r| |]]|]; try discriminate. destruct r as [|e]; [discriminate|]. injection H as ->. eauto.
  - intros (conns & ->). reflexivity.
Qed.
Lemma why_known hP : (forall j r, In (j, r) (finished hP) -> hang (snd j) = false) ->
  forall (j : job contact) (r : outcome (option torrent_info)), In (j, r) (finished hP) -> fetch (snd j) = Ret None -> why_peer (snd j) <> None.
Proof.
  intros NH j r IN F. destruct (failed_fetch _ _ _ _ _ (NH _ _ IN) F) as (conns & e & C).
  rewrite (proj2 (contact_error_iff _ _) (ex_intro _ conns C)). discriminate.
Qed.
(** What is reported is true, and reported once *)
Lemma get_truth l template cut fail g : get_log l template cut fail = Some (Ret g) ->
  (forall c x, In (PeerFailed c x) (notes_of g) -> to_try m w c /\ exists conns, contact_info cfg pid (mg_hash m) w c = Ret (conns, SDone (Err x))) /\
  (forall k t e, In (TrackerFailed k t e) (notes_of g) -> nth_error (mg_trackers m) k = Some t /\ te k = Some e) /\
  NoDup (map (fun r => fst (fst r)) (tracker_reports (notes_of g))) /\
  (mg_trackers m <> [] -> NoDup (map (fun r => contact_addr (fst r)) (peer_reports (notes_of g)))) /\
  (mg_trackers m = [] -> forall found nodes, w_dht w = Some (found, nodes) -> exists rest, Permutation (map fst (peer_reports (notes_of g)) ++ rest) found).
Proof.
  intros H. destruct (get_log_inv _ _ _ _ _ H) as [(TR & DH & -> & _)|(s0 & s & hT & hP & notes & fin & S0 & R & -> & NH & D)].
  - cbn. split; [intros c x []|]. split; [intros k t e []|]. split; [apply NoDup_nil|]. split; [intros _; apply NoDup_nil|]. intros _ found nodes K. congruence.
  - assert (EN : notes_of (Fetching :: map Note notes ++ fin) = notes).
    { rewrite notes_of_map. destruct D as [(i & o & _ & -> & _)|[(i & o & _ & -> & _)|(_ & -> & _)]]; apply app_nil_r. }
    rewrite EN. unfold get_start in S0.
    destruct (peers_any sa_eqb contact_addr sa_spec _ _ _ _ _ _ _ _ _ _ _ _ _ _ S0 R) as (PS & rest & PM).
    destruct (trackers_any sa_eqb contact_addr sa_spec _ _ _ _ _ _ _ _ _ _ _ _ _ _ S0 R) as (TN & TS).
    destruct (lrun_run _ _ _ _ _ _ _ _ _ _ _ _ R) as (RR & _).
    destruct (c_once _ _ sa_spec _ _ _ _ _ _ _ _ _ _ _ S0 RR) as (O1 & O2 & _).
    split; [|split; [|split; [|split]]].
    + intros c x IN. apply peer_in in IN. split.
      * apply (c_known _ _ sa_spec _ _ _ _ _ _ _ _ _ _ _ S0 RR). apply (Permutation_in _ PM). apply in_or_app. left. apply in_map_iff. exists (c, x). auto.
      * apply contact_error_iff. exact (proj1 (Forall_forall _ _) PS _ IN).
    + intros k t e IN. apply tracker_in in IN. exact (TS _ _ _ IN).
    + exact TN.
    + intros TR. specialize (O1 TR). apply (Permutation_map contact_addr), Permutation_sym in PM. apply (Permutation_NoDup PM) in O1.
      rewrite map_app, map_map in O1. exact (nodup_left _ _ O1).
    + intros TR found nodes K. destruct (O2 TR) as (_ & more & F). rewrite K in F. cbn [option_map fst] in F. injection F as ->.
      exists (rest ++ more). rewrite app_assoc. apply Permutation_app_tail. exact PM.
Qed.
(** And when nothing was obtained, everything is reported *)
Lemma get_complete l template cut fail g : c_tracker_jobs cfg <> 0%N -> c_peer_jobs cfg <> 0%N -> (forall k, w_announce w k <> Panic) ->
  get_log l template cut fail = Some (Ret g) -> In (Failed NothingFromPeers) g ->
  (forall c, to_try m w c -> exists c' x, contact_addr c' = contact_addr c /\ In (PeerFailed c' x) (notes_of g)) /\
  (forall k t e, nth_error (mg_trackers m) k = Some t -> te k = Some e -> In (TrackerFailed k t e) (notes_of g)).
Proof.
  intros HT HP CALM H IF. destruct (get_log_inv _ _ _ _ _ H) as [(TR & DH & -> & _)|(s0 & s & hT & hP & notes & fin & S0 & R & -> & NH & D)].
  { destruct IF as [IF|[IF|[]]]; discriminate. }
  apply failed_in in IF.
  destruct D as [(i & o & _ & -> & _)|[(i & o & _ & -> & _)|(EM & -> & _)]]; [destruct IF|destruct IF as [IF|[]]; discriminate|].
  rewrite notes_of_map. cbn [notes_of flat_map]. rewrite app_nil_r. unfold get_start in S0.
  assert (NT : N.to_nat (c_tracker_jobs cfg) <> 0) by lia. assert (NP : N.to_nat (c_peer_jobs cfg) <> 0) by lia.
  destruct (lrun_run _ _ _ _ _ _ _ _ _ _ _ _ R) as (RR & _).
  split.
  - intros c TT. destruct (c_failure _ _ sa_spec _ _ _ _ _ _ _ _ _ _ _ NP NT CALM S0 RR EM) as (_ & COV). destruct (COV c TT) as (c' & IN & EA).
    pose proof (peers_failure sa_eqb contact_addr sa_spec _ _ _ _ _ _ _ _ _ _ _ _ _ _ NP (why_known _ NH) S0 R EM) as PM.
    apply (Permutation_in _ (Permutation_sym PM)) in IN. apply in_map_iff in IN. destruct IN as ([c1 x] & EC & IN). cbn [fst] in EC. subst c1.
    exists c', x. split; [exact EA|]. apply peer_in. exact IN.
  - intros k t e K TE. apply tracker_in. exact (trackers_failure sa_eqb contact_addr sa_spec _ _ _ _ _ _ _ _ _ _ _ _ _ _ NP NT CALM S0 R EM _ _ _ K TE).
Qed.
End G.
