(** A batch does for each link what 'get' does. *)
From Verif Require Import Base M_Nursery S_Nursery P_Nursery M_Resolve S_Resolve P_Resolve P_Resolve2 M_Batch P_Batch M_Magnet M_Config M_Get M_Save S_Disk M_BatchCmd S_BatchCmd P_BatchCmd P_BatchCmd2.
From Coq Require Import Permutation.
Local Open Scope nat_scope.

Section B.
Context (show_url : M_Tracker.url -> bytes) (parse_url : bytes -> option M_Tracker.url) (cfg : config) (pid : bytes) (template : list M_Template.elem) (content : bytes) (trips : nat -> trip).
Notation magnets := (batch_magnets parse_url content).
Notation run := (batch_cmd show_url parse_url cfg pid template content trips).
Notation result := (bjob_result show_url cfg pid template magnets trips).
Notation n := (N.to_nat (c_batch_jobs cfg)).
Lemma no_panics l s h ok : n <> 0 -> run l = Some (s, h) -> b_main (c_batch s) = BExit ok -> forall k, k < length magnets -> result k <> Panic.
Proof.
  intros N0 H EX k K. pose proof (creach _ _ _ _ _ _ _ _ _ _ H) as V. pose proof (c_inv _ _ _ _ _ _ _ _ _ V) as VB. pose proof (b_st _ _ _ _ _ VB) as B. rewrite EX in B.
  assert (EMS : ms (parse_magnets_file parse_url content) = magnets) by reflexivity.
  destruct B as [(su & to & S1 & S2 & (C1 & C2 & C3) & S4 & S5)|[(P1 & _)|((e & P1) & _)]]; [|exfalso; unfold batch_magnets in K; rewrite P1 in K; cbn in K; lia|exfalso; unfold batch_magnets in K; rewrite P1 in K; cbn in K; lia].
  destruct (ended n _ _ N0 (b_inv _ _ _ _ _ VB) S2 (proj2 (b_flags _ _ _ _ _ VB)) (proj1 (b_flags _ _ _ _ _ VB))) as (PM & _). rewrite EMS in S1.
  assert (KS : In k (map fst (S_Nursery.accepted h))).
  { rewrite (i_num _ _ _ (b_inv _ _ _ _ _ VB)), in_seq. rewrite <- S1, map_length, <- (map_length fst), (i_num _ _ _ (b_inv _ _ _ _ _ VB)), seq_length in K. lia. }
  apply in_map_iff in KS. destruct KS as (j & <- & IN). apply (Permutation_in _ (Permutation_sym PM)) in IN. apply in_map_iff in IN. destruct IN as ([j' r] & EJ & IN). cbn in EJ. subst j'.
  assert (F : In (j, r) (finished h)) by (apply (i_res _ _ _ (b_inv _ _ _ _ _ VB)); auto).
  rewrite <- (b_fin _ _ _ _ _ VB j r F). exact (C3 _ IN).
Qed.
Lemma each_as_get l s h ok : c_batch_jobs cfg <> 0%N -> run l = Some (s, h) -> b_main (c_batch s) = BExit ok ->
  (forall k m, nth_error magnets k = Some m -> exists ops b, gets show_url cfg pid template (trips k) m = Some (Ret (ops, b)) /\ map snd (filter (fun r => Nat.eqb (fst r) k) (c_log s)) = ops) /\
  (forall k o, In (k, o) (c_log s) -> k < length magnets).
Proof.
  intros N0 H EX. assert (N1 : n <> 0) by (clear - N0; lia). destruct (all_ended _ _ _ _ _ _ _ _ _ _ _ N1 H EX) as (A & _). split.
  - intros k m E. assert (K : k < length magnets) by (apply nth_error_Some; congruence). destruct (A k K) as (R & EN). pose proof (no_panics _ _ _ _ N1 H EX k K) as NP.
    rewrite <- (bjob_gets show_url cfg pid template magnets trips k m E). unfold bjob_ends, bjob_result, bjob_ops in *. destruct (bjob _ _ _ _ _ _ k) as [[[ops b]|]|]; [|contradiction|discriminate].
    exists ops, b. split; [reflexivity|exact R].
  - intros k o I. exact (log_jobs _ _ _ _ _ _ _ _ _ _ _ _ H I).
Qed.
Lemma only_one : forall (log : list (nat * op)), (forall k o, In (k, o) log -> k < 1) -> log = map (pair 0) (map snd (filter (fun r => Nat.eqb (fst r) 0) log)).
Proof.
  induction log as [|[k o] log IH]; intros H; [reflexivity|]. assert (k = 0) as -> by (specialize (H k o (or_introl eq_refl)); lia).
  cbn [filter fst Nat.eqb map snd]. f_equal. apply IH. intros k' o' I. apply (H k' o'). right. exact I.
Qed.
Lemma one_as_get m l s h ok : c_batch_jobs cfg <> 0%N -> magnets = [m] -> run l = Some (s, h) -> b_main (c_batch s) = BExit ok ->
  exists ops, gets show_url cfg pid template (trips 0) m = Some (Ret (ops, ok)) /\ c_log s = map (pair 0) ops.
Proof.
  intros N0 E H EX. destruct (each_as_get l s h ok N0 H EX) as (A & B). destruct (A 0 m) as (ops & b & G & O); [rewrite E; reflexivity|].
  exists ops. rewrite E in B. cbn [length] in B. split; [|rewrite <- O; apply only_one; exact B]. rewrite G. do 3 f_equal.
  pose proof (truthful_gets show_url parse_url cfg pid template content trips l s h ok N0 H EX) as T. rewrite E in T.
  destruct b, ok; try reflexivity.
  - symmetry. apply T. split.
    + unfold batch_magnets in E. destruct (parse_magnets_file parse_url content) as [ms|]; [eauto|discriminate E].
    + intros [|k] x K; [|destruct k; discriminate K]. injection K as <-. eauto.
  - destruct (proj1 T eq_refl) as (_ & X). destruct (X 0 m eq_refl) as (ops' & G'). congruence.
Qed.
End B.
