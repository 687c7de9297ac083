From Verif Require Import Base BaseFacts M_Nursery S_Nursery P_Nursery M_Resolve P_Resolve P_Resolve2 M_Batch.
From Coq Require Import Permutation.
Local Open Scope nat_scope.

Section B.
Context {Mg E : Type} (download : nat -> outcome bool) (n : nat) (parsed : res E (list Mg)).
Notation bst := (bst Mg).
Notation bstep := (@bstep Mg download).
Notation brun := (@brun Mg download).
Implicit Types (s : bst) (h : list (obs Mg bool)).
Definition ms : list Mg := match parsed with Ok l => l | Err _ => [] end.
Definition yes (d : job Mg * outcome bool) : bool := match snd d with Ret true => true | _ => false end.
Definition counts (su to : nat) h : Prop := su = length (filter yes (delivered h)) /\ to = length (delivered h) /\ (forall d, In d (delivered h) -> snd d <> Panic).
Record binv s h : Prop := {
  b_inv : inv n (b_pool s) h;
  b_fin : forall j r, In (j, r) (finished h) -> r = download (fst j);
  b_flags : n_done (b_pool s) = false /\ n_alive (b_pool s) = true;
  b_st : match b_main s with
         | BSpawn rest => map snd (accepted h) ++ rest = ms /\ n_closed (b_pool s) = false /\ n_handles (b_pool s) = 1 /\ delivered h = [] /\ parsed = Ok ms
         | BRecv su to => map snd (accepted h) = ms /\ n_handles (b_pool s) = 0 /\ counts su to h /\ parsed = Ok ms
         | BExit ok => (exists su to, map snd (accepted h) = ms /\ In OEnd h /\ counts su to h /\ ok = Nat.eqb su to /\ parsed = Ok ms) \/
                       (parsed = Ok [] /\ ok = true) \/ (exists e, parsed = Err e) /\ ok = false
         | BPanicked => exists k, k < length ms /\ download k = Panic
         end
}.
Lemma binv_start : binv (b_start n parsed) [].
Proof.
  unfold b_start. destruct parsed as [[|m l]|e] eqn:E0; split; cbn [b_pool b_main]; try apply inv_new; try (intros ? ? []; fail); try (split; reflexivity).
  - auto.
  - unfold ms. rewrite E0. conjs; reflexivity.
  - eauto 6.
Qed.
Lemma counts_same su to h o : delivered o = [] -> counts su to h -> counts su to (h ++ o).
Proof. unfold counts. intros D. rewrite delivered_app, D, app_nil_r. auto. Qed.
Lemma job_number s h j : binv s h -> In j (accepted h) -> (exists rest, map snd (accepted h) ++ rest = ms) -> fst j < length ms.
Proof.
  intros V IN (rest & R). assert (K : In (fst j) (seq 0 (n_next (b_pool s)))). { rewrite <- (i_num _ _ _ (b_inv _ _ V)). apply in_map. exact IN. }
  apply in_seq in K. rewrite <- R, app_length, map_length, <- (map_length fst), (i_num _ _ _ (b_inv _ _ V)), seq_length. lia.
Qed.
Lemma binv_step s h e s' o : binv s h -> bstep s e = Some (s', o) -> binv s' (h ++ o).
Proof.
  intros V0 H. pose proof V0 as V. destruct V as [VI VF (VD & VA) VS]. destruct e as [|w]; cbn [M_Batch.bstep] in H.
  - destruct (b_main s) as [[|m rest]|su to|ok|] eqn:EM; try discriminate.
    + destruct (nstep (b_pool s) DropHandle) as [[p o']|] eqn:E1; [|discriminate]. injection H as <- <-.
      pose proof (inv_step _ _ _ _ _ _ VI E1) as VI'. destruct VS as (S1 & S2 & S3 & S4 & S5). cbn [nstep] in E1. rewrite S3 in E1. injection E1 as <- <-.
      rewrite app_nil_r in *. split; cbn [b_pool b_main n_done n_alive n_handles]; auto. conjs; auto.
      unfold counts. rewrite S4. conjs; try reflexivity. intros d [].
    + destruct (nstep (b_pool s) (Spawn m)) as [[p o']|] eqn:E1; [|discriminate]. injection H as <- <-.
      pose proof (inv_step _ _ _ _ _ _ VI E1) as VI'. destruct VS as (S1 & S2 & S3 & S4 & S5). cbn [nstep] in E1. rewrite S3, S2 in E1. injection E1 as <- <-.
      split; cbn [b_pool b_main n_done n_alive n_handles n_closed]; auto.
      * apply (finished_in (fun j => download (fst j))); [exact VF|intros ? ? []].
      * rewrite accepted_app, map_app, <- app_assoc, delivered_app, S4. conjs; auto.
    + destruct (nstep (b_pool s) Recv) as [[p o']|] eqn:E1.
      * injection H as <- <-. pose proof (inv_step _ _ _ _ _ _ VI E1) as VI'. destruct VS as (S1 & S2 & (C1 & C2 & C3) & S5). cbn [nstep] in E1. rewrite VA in E1.
        destruct (n_out (b_pool s)) as [|[j r] q] eqn:EQ; [discriminate|]. injection E1 as <- <-.
        split; cbn [b_pool b_main n_done n_alive n_handles n_closed]; auto.
        -- apply (finished_in (fun j => download (fst j))); [exact VF|intros ? ? []].
        -- destruct r as [b|].
           ++ rewrite accepted_app, app_nil_r. conjs; auto. unfold counts. rewrite delivered_app. cbn [delivered pick flat_map app].
              rewrite filter_app, !app_length. cbn [filter yes snd length].
              conjs; [destruct b; cbn [length]; lia|lia|]. intros d. rewrite in_app_iff. intros [X|[<-|[]]]; [auto|discriminate].
           ++ exists (fst j). assert (F : In (j, Panic) (finished h)). { apply (i_res _ _ _ VI). rewrite EQ. right. left. left. reflexivity. }
              split; [|symmetry; apply VF; exact F]. eapply job_number; [exact V0| |exists []; rewrite app_nil_r; exact S1].
              apply (i_from _ _ _ VI). right. right. right. left. apply in_map_iff. exists (j, Panic). auto.
      * destruct (nstep (b_pool s) End) as [[p o']|] eqn:E2; [|discriminate]. injection H as <- <-.
        pose proof (inv_step _ _ _ _ _ _ VI E2) as VI'. destruct VS as (S1 & S2 & S3 & S5). cbn [nstep] in E2.
        destruct (n_out (b_pool s)); [|discriminate]. destruct (n_alive (b_pool s) && _); [|discriminate]. injection E2 as <- <-.
        split; cbn [b_pool b_main]; auto.
        -- apply (finished_in (fun j => download (fst j))); [exact VF|intros ? ? []].
        -- left. exists su, to. rewrite accepted_app, app_nil_r. conjs; auto; [apply in_or_app; right; left; reflexivity|]. apply counts_same; [reflexivity|exact S3].
  - destruct (wstep _ (b_pool s) w) as [[p o']|] eqn:E1; [|discriminate]. injection H as <- <-.
    destruct (wstep_frame _ _ _ _ _ E1) as ((e' & E') & HH & HC & HD & HA & _ & OA & OD & OE & OF).
    split; cbn [b_pool b_main]; rewrite ?HH, ?HC, ?HD, ?HA; auto.
    + eapply inv_step; eauto.
    + apply (finished_in (fun j => download (fst j))); assumption.
    + rewrite accepted_app, OA, app_nil_r. destruct (b_main s); auto.
      * rewrite delivered_app, OD, app_nil_r. exact VS.
      * destruct VS as (S1 & S2 & S3 & S4). conjs; auto. apply counts_same; auto.
      * destruct VS as [(su & to & S1 & S2 & S3 & S4 & S5)|VS]; [left|right; exact VS]. exists su, to. rewrite in_app_iff. conjs; auto. apply counts_same; auto.
Qed.
Lemma binv_run l : forall s h s' h', binv s h -> brun s l = Some (s', h') -> binv s' (h ++ h').
Proof.
  induction l as [|e l IH]; intros s h s' h' V H; cbn [M_Batch.brun] in H; [injection H as <- <-; rewrite app_nil_r; exact V|].
  destruct (bstep s e) as [[s1 o1]|] eqn:E1; [|discriminate]. destruct (brun s1 l) as [[s2 o2]|] eqn:E2; [|discriminate]. injection H as <- <-.
  rewrite app_assoc. eapply IH; [|exact E2]. eapply binv_step; eauto.
Qed.
Lemma breach l s h : brun (b_start n parsed) l = Some (s, h) -> binv s h.
Proof. intros H. exact (binv_run _ _ _ _ _ binv_start H). Qed.
Lemma filter_all {X} (f : X -> bool) l : length (filter f l) = length l <-> forall x, In x l -> f x = true.
Proof.
  induction l as [|x l IH]; cbn [filter length]; [split; [intros _ y []|reflexivity]|].
  assert (L : length (filter f l) <= length l). { clear. induction l as [|x l IH]; cbn; [lia|]. destruct (f x); cbn; lia. }
  destruct (f x) eqn:E1; cbn [length].
  - split.
    + intros H y [<-|Y]; [exact E1|]. apply IH; [lia|exact Y].
    + intros H. f_equal. apply IH. intros y Y. apply H. right. exact Y.
  - split; [lia|]. intros H. rewrite (H x (or_introl eq_refl)) in E1. discriminate.
Qed.
Lemma truthful l s h ok : n <> 0 -> brun (b_start n parsed) l = Some (s, h) -> b_main s = BExit ok ->
  (ok = true <-> exists magnets, parsed = Ok magnets /\ forall k, k < length magnets -> download k = Ret true).
Proof.
  intros N0 H E1. pose proof (breach _ _ _ H) as V. pose proof (b_st _ _ V) as B. rewrite E1 in B.
  destruct B as [(su & to & S1 & S2 & (C1 & C2 & C3) & S4 & S5)|[(P1 & ->)|((e & P1) & ->)]].
  - destruct (ended n _ _ N0 (b_inv _ _ V) S2 (proj2 (b_flags _ _ V)) (proj1 (b_flags _ _ V))) as (PM & _).
    assert (DV : forall j r, In (j, r) (delivered h) -> r = download (fst j)). { intros j r X. apply (b_fin _ _ V). apply (i_res _ _ _ (b_inv _ _ V)). auto. }
    assert (KS : forall k, k < length ms <-> In k (map fst (accepted h))).
    { intros k. rewrite (i_num _ _ _ (b_inv _ _ V)), in_seq, <- S1, map_length, <- (map_length fst), (i_num _ _ _ (b_inv _ _ V)), seq_length. lia. }
    rewrite S4, Nat.eqb_eq, C1, C2, filter_all. split.
    + intros ALL. exists ms. split; [exact S5|]. intros k K. apply KS in K. apply in_map_iff in K. destruct K as (j & <- & IN).
      apply (Permutation_in _ (Permutation_sym PM)) in IN. apply in_map_iff in IN. destruct IN as ([j' r] & EJ & IN). cbn in EJ. subst j'.
      rewrite <- (DV _ _ IN). specialize (ALL _ IN). unfold yes in ALL. cbn [snd] in ALL. destruct r as [[]|]; congruence.
    + intros (l' & P1 & ALL) [j r] IN. assert (l' = ms) by congruence. subst l'.
      rewrite (DV _ _ IN). unfold yes. cbn [snd]. rewrite ALL; [reflexivity|]. apply KS. apply in_map.
      apply (Permutation_in _ PM). apply in_map_iff. exists (j, r). auto.
  - split; [|auto]. intros _. exists []. split; [exact P1|]. intros k K. cbn in K. lia.
  - split; [discriminate|]. intros (l' & P2 & _). congruence.
Qed.
Lemma bprogress l s h : brun (b_start n parsed) l = Some (s, h) -> (forall e, bstep s e = None) ->
  (exists ok, b_main s = BExit ok) \/ (b_main s = BPanicked /\ exists magnets k, parsed = Ok magnets /\ k < length magnets /\ download k = Panic).
Proof.
  intros H ST. pose proof (breach _ _ _ H) as V. pose proof (b_st _ _ V) as B. pose proof (ST BMain) as SM. cbn [M_Batch.bstep] in SM.
  destruct (b_main s) as [[|m rest]|su to|ok|] eqn:EM.
  - exfalso. destruct B as (_ & _ & S3 & _). cbn [nstep] in SM. rewrite S3 in SM. discriminate.
  - exfalso. destruct B as (_ & S2 & S3 & _). cbn [nstep] in SM. rewrite S3, S2 in SM. discriminate.
  - exfalso. destruct (nstep (b_pool s) Recv) as [[p o]|] eqn:ER; [discriminate|].
    assert (SK : stuck (b_pool s)).
    { apply (wstuck (fun j => download (fst j))); [|exact ER]. intros w. specialize (ST (BWork w)). cbn [M_Batch.bstep] in ST. destruct (wstep _ _ _) as [[]|]; [discriminate|reflexivity]. }
    rewrite (stuck_ends _ _ _ (b_inv _ _ V) (proj2 (b_flags _ _ V)) SK) in SM; [discriminate|].
    apply (i_closed _ _ _ (b_inv _ _ V)). left. apply B.
  - eauto.
  - right. split; [reflexivity|]. destruct B as (k & K & D). exists ms, k. unfold ms in *. destruct parsed as [l'|e]; [auto|cbn in K; lia].
Qed.
Definition bw (m : bmain Mg) : nat := match m with BSpawn rest => 8 + 7 * length rest | BRecv _ _ => 2 | _ => 0 end.
Definition bmu s : nat := bw (b_main s) + wmu (fun j : job Mg => download (fst j)) (fun _ => 0) (b_pool s).
Lemma bmu_step s e s' o : bstep s e = Some (s', o) -> bmu s' < bmu s.
Proof.
  intros H. destruct e as [|w]; cbn [M_Batch.bstep] in H.
  - destruct (b_main s) as [[|m rest]|su to|ok|] eqn:EM; cbn [nstep] in H; try discriminate;
    repeat match type of H with
    | match (match ?x with _ => _ end) with _ => _ end = Some _ => destruct x eqn:?; try discriminate
    | match (if ?x then _ else _) with _ => _ end = Some _ => destruct x eqn:?; try discriminate
    end; injection H as <- <-; unfold bmu, wmu; rewrite EM; cbn [b_main b_pool n_queue n_workers n_out bw length];
    rewrite ?W_app, ?W_cons, ?W_nil; unfold g; cbn [fst snd]; try lia.
    all: match goal with E : n_out _ = _ |- _ => rewrite E end; rewrite ?W_cons, ?W_nil; repeat match goal with |- context [match ?x with _ => _ end] => destruct x end; cbn [bw]; lia.
  - destruct (wstep _ (b_pool s) w) as [[p o']|] eqn:E1; [|discriminate]. injection H as <- <-.
    pose proof (wmu_step _ (fun _ => 0) _ _ _ _ E1) as X. unfold bmu. cbn [b_main b_pool]. lia.
Qed.
Lemma bterminates s : exists bound, forall l s' h, brun s l = Some (s', h) -> length l <= bound.
Proof.
  exists (bmu s). intros l. revert s. induction l as [|e l IH]; intros s s' h H; cbn [M_Batch.brun] in H; [cbn; lia|].
  destruct (bstep s e) as [[s1 o1]|] eqn:E1; [|discriminate]. destruct (brun s1 l) as [[s2 o2]|] eqn:E2; [|discriminate].
  pose proof (bmu_step _ _ _ _ E1). specialize (IH _ _ _ E2). cbn [length]. lia.
Qed.
End B.
