(** Lemmas about what 'batch' and 'get' log (M_Report). *)
From Verif Require Import Base BaseFacts M_Net M_Template M_Save M_Tracker M_Torrent M_Types M_Magnet M_Peer M_Session M_Config M_Nursery S_Nursery P_Nursery M_Resolve S_Resolve P_Resolve P_Resolve2 P_Resolve3
  M_Http M_Batch P_Batch M_Get S_Get P_Get M_Report S_Report P_Report.
From Coq Require Import Permutation.
Local Open Scope nat_scope.

Section B.
Context {Mg E : Type} (download : nat -> outcome bool) (n : nat) (parsed : res E (list Mg)).
Notation bstep := (@bstep Mg download).
Notation brun := (@brun Mg download).
Notation blrun := (@blrun Mg E download).
Notation bwrites := (@bwrites Mg E download).
Notation binv := (@binv Mg E download n parsed).
Implicit Types (h : list (obs Mg bool)).
Definition no (k : nat) : bool := match download k with Ret false => true | _ => false end.
Definition fails_of (l : list (job Mg * outcome bool)) : list (nat * Mg) := filter (fun j => no (fst j)) (map fst l).
Definition link_notes (l : list (nat * Mg)) : list (bnote Mg E) := map (fun km => LinkFailed (fst km) (snd km)) l.
Definition logged (s : bst Mg) h (g : list (bnote Mg E)) : Prop :=
  match b_main s with
  | BExit _ => exists su to, g = link_notes (fails_of (finished h)) ++ [Summary su to] /\ counts su to h /\ In OEnd h /\ map snd (accepted h) = ms parsed
  | _ => g = link_notes (fails_of (finished h))
  end.
Lemma new_stuck (f : job Mg -> outcome bool) e : wstep f (new n) e = None.
Proof.
  assert (W : forall w, nth_error (repeat (@WIdle Mg bool) n) w = Some WIdle \/ nth_error (repeat (@WIdle Mg bool) n) w = None).
  { intros w. destruct (nth_error _ w) eqn:E0; [left|auto]. apply nth_error_In, repeat_spec in E0. congruence. }
  destruct e as [w|w|w|w|w|w|w]; cbn [wstep nstep new n_workers n_queue n_closed n_alive]; try reflexivity; destruct (W w) as [Q|Q]; rewrite Q; reflexivity.
Qed.
Lemma logged_app s h g o : finished o = [] -> delivered o = [] -> accepted o = [] -> logged s h g -> logged s (h ++ o) g.
Proof.
  unfold logged, counts. intros F D A. rewrite finished_app, delivered_app, accepted_app, F, D, A, !app_nil_r. destruct (b_main s); auto.
  intros (su & to & G & C & OE & SP). exists su, to. rewrite in_app_iff. auto.
Qed.
Lemma fails_app a b : fails_of (a ++ b) = fails_of a ++ fails_of b.
Proof. unfold fails_of. rewrite map_app. apply filter_app. Qed.
Lemma logged_step s h g e s' o : binv s h -> logged s h g -> bstep s e = Some (s', o) -> logged s' (h ++ o) (g ++ bwrites s e).
Proof.
  intros V L H. destruct e as [|w]; cbn [M_Batch.bstep M_Report.bwrites] in *.
  - unfold logged in L. pose proof (b_st _ _ _ _ _ V) as B. destruct (b_main s) as [[|m rest]|su to|ok|] eqn:EM; try discriminate.
    + destruct (nstep _ _) as [[p o']|] eqn:E1; [|discriminate]. injection H as <- <-. cbn [b_main]. rewrite app_nil_r. unfold logged. cbn [b_main].
      rewrite finished_app, (nstep_finished _ _ _ _ E1), app_nil_r by discriminate. exact L.
    + destruct (nstep _ _) as [[p o']|] eqn:E1; [|discriminate]. injection H as <- <-. rewrite app_nil_r. unfold logged. cbn [b_main].
      rewrite finished_app, (nstep_finished _ _ _ _ E1), app_nil_r by discriminate. destruct o' as [|[] []]; exact L.
    + destruct (nstep (b_pool s) Recv) as [[p o']|] eqn:E1.
      * injection H as <- <-. pose proof (nstep_finished _ _ _ _ E1 ltac:(discriminate)) as F. cbn [nstep] in E1.
        destruct (n_alive _); [|discriminate]. destruct (n_out (b_pool s)) as [|[j r] q]; [discriminate|]. injection E1 as <- <-.
        rewrite app_nil_r. unfold logged. cbn [b_main]. rewrite finished_app, F, app_nil_r. destruct r; exact L.
      * destruct (nstep (b_pool s) End) as [[p o']|] eqn:E2; [|discriminate]. injection H as <- <-. cbn [nstep] in E2.
        destruct (n_out (b_pool s)); [|discriminate]. destruct (_ && _); [|discriminate]. injection E2 as <- <-. unfold logged. cbn [b_main].
        exists su, to. destruct B as (SP & _ & C & _). rewrite finished_app, app_nil_r, L. split; [reflexivity|]. split; [apply counts_same; [reflexivity|exact C]|].
        split; [apply in_or_app; right; left; reflexivity|]. rewrite accepted_app, app_nil_r. exact SP.
  - destruct (wstep _ (b_pool s) w) as [[p o']|] eqn:E1; [|discriminate]. injection H as <- <-.
    destruct (wstep_frame _ _ _ _ _ E1) as (_ & _ & _ & _ & _ & _ & OA & OD & _ & _).
    assert (KF : (exists x k m, w = KFinish x /\ nth_error (n_workers (b_pool s)) x = Some (WRunning (k, m)) /\ finished o' = [((k, m), download k)]) \/
                 (finished o' = [] /\ match w with KFinish x => False | _ => True end)).
    { destruct w as [w|w|w|w|w|w|w]; cbn [wstep] in E1; try (right; split; [apply (nstep_finished _ _ _ _ E1); discriminate|exact I]).
      left. cbn [nstep] in E1. destruct (nth_error (n_workers (b_pool s)) w) as [[| | |[k m]| |]|] eqn:EN; try discriminate. injection E1 as <- <-. exists w, k, m. auto. }
    destruct KF as [(x & k & m & -> & EN & F)|(F & KW)].
    + rewrite EN. unfold logged in *. cbn [b_main]. destruct (b_main s) as [rest|su to|ok|] eqn:EM;
      try (rewrite finished_app, F, fails_app, L; unfold link_notes; rewrite map_app; f_equal; unfold fails_of, no; cbn [map fst filter]; destruct (download k) as [[]|]; reflexivity).
      exfalso. destruct L as (su & to & _ & _ & OE & _). destruct (b_flags _ _ _ _ _ V) as (_ & AL).
      destruct (i_end _ _ _ (b_inv _ _ _ _ _ V) OE AL) as (_ & WS). apply nth_error_In, WS in EN. discriminate EN.
    + assert (WN : match w with KFinish x => match nth_error (n_workers (b_pool s)) x with Some (WRunning (k, m)) => match download k with Ret false => [LinkFailed k m] | _ => [] end | _ => [] end | _ => [] end = ([] : list (bnote Mg E))).
      { destruct w; try reflexivity. destruct KW. }
      rewrite WN, app_nil_r. apply logged_app; auto.
Qed.
Lemma blrun_logged l : forall s h g s' h' g', binv s h -> logged s h g -> blrun s l = Some (s', h', g') -> binv s' (h ++ h') /\ logged s' (h ++ h') (g ++ g').
Proof.
  induction l as [|e l IH]; intros s h g s' h' g' V L H; cbn [M_Report.blrun] in H; [injection H as <- <- <-; rewrite !app_nil_r; auto|].
  destruct (bstep s e) as [[s1 o1]|] eqn:E1; [|discriminate]. destruct (blrun s1 l) as [[[s2 o2] g2]|] eqn:E2; [|discriminate]. injection H as <- <- <-.
  rewrite !app_assoc. apply IH with (s := s1); [exact (binv_step _ _ _ _ _ _ _ _ V E1)|exact (logged_step _ _ _ _ _ _ V L E1)|exact E2].
Qed.
Lemma fails_length (l : list (job Mg * outcome bool)) : (forall d, In d l -> snd d = download (fst (fst d)) /\ snd d <> Panic) ->
  length (filter yes l) + length (fails_of l) = length l.
Proof.
  induction l as [|[[k m] r] l IH]; intros ALL; [reflexivity|]. destruct (ALL _ (or_introl eq_refl)) as (R & NP). cbn [fst snd] in R, NP.
  specialize (IH ltac:(intros d D; apply ALL; right; exact D)). unfold fails_of, no, yes in *. cbn [map fst snd filter length] in *. rewrite <- R. destruct r as [[]|]; cbn [length]; [lia|lia|contradiction].
Qed.
Lemma filter_perm {Y} (f : Y -> bool) a b : Permutation a b -> Permutation (filter f a) (filter f b).
Proof.
  induction 1; cbn [filter]; auto; [destruct (f x); auto|destruct (f x), (f y); auto; constructor|etransitivity; eauto].
Qed.
Lemma batch_logged l s h g ok m0 more : n <> 0 -> parsed = Ok (m0 :: more) -> blrun (b_start n parsed) l = Some (s, h, g) -> b_main s = BExit ok ->
  let links := m0 :: more in
  exists fails, g = link_notes fails ++ [Summary (length links - length fails) (length links)] /\ NoDup (map fst fails) /\
    (forall k m, In (k, m) fails <-> nth_error links k = Some m /\ download k = Ret false).
Proof.
  intros N0 PA H EX links.
  assert (S0 : b_start n parsed = mkB (BSpawn links) (new n)) by (rewrite PA; reflexivity).
  assert (MS : ms parsed = links) by (unfold ms; rewrite PA; reflexivity).
  destruct (blrun_logged l _ [] [] _ _ _ (binv_start download n parsed) ltac:(rewrite S0; reflexivity) H) as (V & L).
  cbn [app] in V, L. unfold logged in L. rewrite EX in L. destruct L as (su & to & -> & (C1 & C2 & C3) & OE & SP). rewrite MS in SP.
  pose proof (b_inv _ _ _ _ _ V) as VI. destruct (b_flags _ _ _ _ _ V) as (FD & FA).
  destruct (ended n _ _ N0 VI OE FA FD) as (PM & _).
  destruct (i_end _ _ _ VI OE FA) as (OU & WS).
  destruct (settled n _ _ VI FA OU) as (PF & _). { intros w W. left. apply WS. exact W. }
  assert (DV : forall d, In d (delivered h) -> snd d = download (fst (fst d)) /\ snd d <> Panic).
  { intros [j r] D. split; [|apply C3; exact D]. cbn [fst snd]. apply (b_fin _ _ _ _ _ V). apply (i_res _ _ _ VI). auto. }
  assert (LT : to = length links). { rewrite C2, <- SP, map_length. apply Permutation_length in PM. rewrite map_length in PM. exact PM. }
  assert (FP : Permutation (fails_of (finished h)) (fails_of (delivered h))).
  { unfold fails_of. apply filter_perm, Permutation_map. symmetry. exact PF. }
  assert (FL : su = length links - length (fails_of (finished h))).
  { pose proof (fails_length _ DV). apply Permutation_length in FP. rewrite FP, C1, <- LT, C2. lia. }
  exists (fails_of (finished h)). rewrite <- FL, <- LT. split; [reflexivity|].
  destruct (finish_nodup _ _ _ VI) as (NF & _ & IF & _). split.
  - unfold fails_of. clear -NF. induction (map fst (finished h)) as [|[k m] q IH]; [constructor|]. cbn [map fst] in NF. inversion NF as [|x y N1 N2]. subst.
    cbn [filter fst]. destruct (no k); [|auto]. cbn [map fst]. constructor; [|auto]. intros Y. apply N1. apply in_map_iff in Y. destruct Y as (j & EJ & Y).
    apply filter_In in Y. apply in_map_iff. exists j. tauto.
  - intros k m. unfold fails_of. rewrite filter_In. unfold no. cbn [fst]. split.
    + intros (IN & D). split; [|destruct (download k) as [[]|]; congruence]. rewrite <- SP. apply (numbered _ _ _ _ (i_num _ _ _ VI)). apply IF. exact IN.
    + intros (NE & D). split; [|rewrite D; reflexivity]. rewrite <- SP in NE. apply (numbered_back _ _ _ _ (i_num _ _ _ VI)) in NE.
      apply (Permutation_in _ (Permutation_sym PM)) in NE. apply in_map_iff in NE. destruct NE as ([j r] & EJ & NE). cbn [fst] in EJ. subst j.
      apply in_map_iff. exists (k, m, r). split; [reflexivity|]. apply (i_res _ _ _ VI). auto.
Qed.
(** The other starts: nothing happens *)
Lemma batch_none l s h g : (forall m more, parsed <> Ok (m :: more)) -> blrun (b_start n parsed) l = Some (s, h, g) -> h = [] /\ g = [] /\ s = b_start n parsed.
Proof.
  intros NO H. destruct l as [|e l]; cbn [M_Report.blrun] in H; [injection H as <- <- <-; auto|]. exfalso.
  assert (ST : exists ok, b_start n parsed = mkB (BExit ok) (new n)).
  { unfold b_start. destruct parsed as [[|m more]|x]; eauto. exfalso. exact (NO _ _ eq_refl). }
  destruct ST as (ok & ST). rewrite ST in H. destruct e as [|w]; cbn [M_Batch.bstep b_main b_pool] in H; [discriminate|]. rewrite new_stuck in H. discriminate.
Qed.
Lemma blrun_run l : forall s s' h g, blrun s l = Some (s', h, g) -> brun s l = Some (s', h).
Proof.
  induction l as [|e l IH]; intros s s' h g H; cbn [M_Report.blrun M_Batch.brun] in *; [injection H as <- <- <-; auto|].
  destruct (bstep s e) as [[s1 o1]|]; [|discriminate]. destruct (blrun s1 l) as [[[s2 o2] g2]|] eqn:E2; [|discriminate]. injection H as <- <- <-.
  rewrite (IH _ _ _ _ E2). reflexivity.
Qed.
End B.
