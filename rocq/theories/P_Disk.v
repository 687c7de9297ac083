From Verif Require Import Base BaseFacts S_Path M_Save S_Disk.
Local Open Scope nat_scope.

Lemma put_same f q c : put f q c q = Some c.
Proof. unfold put. destruct (place_eq_dec q q); congruence. Qed.
Lemma put_other f q c x : x <> q -> put f q c x = f x.
Proof. unfold put. destruct (place_eq_dec x q); congruence. Qed.
Lemma reopen_same o k x : reopen o k x k = Some x.
Proof. unfold reopen. now rewrite Nat.eqb_refl. Qed.
Lemma reopen_other o k x i : i <> k -> reopen o k x i = o i.
Proof. unfold reopen. intros H. apply Nat.eqb_neq in H. now rewrite H. Qed.
Lemma write_end old c : write_at old (length old) c = old ++ c.
Proof. unfold write_at. rewrite firstn_all, Nat.sub_diag, skipn_all2 by lia. cbn [repeat app]. now rewrite app_nil_r. Qed.

Section D.
Context (cwd : place) (f : place -> option bytes).
Notation run := (disk_run cwd f).
Lemma run_snoc log r : run (log ++ [r]) = disk_step cwd (run log) r.
Proof. unfold disk_run. now rewrite fold_left_app. Qed.

Definition makes (q : place) (r : nat * op) : Prop := exists p, snd r = OCreate p /\ locate cwd p = q.

(** A file no one opens *)
Lemma untouched q log : (forall r, In r log -> ~ makes q r) ->
  d_file (run log) q = f q /\ forall j pos, d_open (run log) j <> Some (q, pos).
Proof.
  induction log as [|[k o] log IH] using rev_ind; intros H; [split; [reflexivity|discriminate]|].
  assert (H' : forall r, In r log -> ~ makes q r) by (intros r X; apply H; apply in_or_app; auto).
  assert (HN : ~ makes q (k, o)) by (apply H; apply in_or_app; right; left; reflexivity).
  destruct (IH H') as (A & B). rewrite run_snoc. cbn [disk_step]. destruct o as [p|p|p c|c]; auto.
  - assert (locate cwd p <> q). { intros X. apply HN. exists p. auto. }
    cbn [d_file d_open]. split; [rewrite put_other by auto; exact A|]. intros j pos. destruct (Nat.eq_dec j k) as [->|N].
    + rewrite reopen_same. congruence.
    + rewrite reopen_other by auto. apply B.
  - destruct (d_open (run log) k) as [[q' pos']|] eqn:E; [|auto].
    assert (q' <> q). { intros ->. exact (B _ _ E). }
    cbn [d_file d_open]. split; [rewrite put_other by auto; exact A|]. intros j pos. destruct (Nat.eq_dec j k) as [->|N].
    + rewrite reopen_same. congruence.
    + rewrite reopen_other by auto. apply B.
Qed.

(** The requests of one task *)
Definition of_task (k : nat) (log : list (nat * op)) : list op := map snd (filter (fun r => Nat.eqb (fst r) k) log).
Lemma of_task_app k a b : of_task k (a ++ b) = of_task k a ++ of_task k b.
Proof. unfold of_task. now rewrite filter_app, map_app. Qed.
Lemma of_task_same k o : of_task k [(k, o)] = [o].
Proof. unfold of_task. cbn. now rewrite Nat.eqb_refl. Qed.
Lemma of_task_other k j o : j <> k -> of_task k [(j, o)] = [].
Proof. intros H. unfold of_task. cbn. apply Nat.eqb_neq in H. now rewrite H. Qed.

(** How far the task [k] has got with writing to [p], if nobody else opens that file *)
Definition progress (k : nat) (p : bytes) (d : disk) (done : list op) : Prop :=
  (forall j pos, j <> k -> d_open d j <> Some (locate cwd p, pos)) /\
  match done with
  | [] | [_] => d_file d (locate cwd p) = f (locate cwd p) /\ d_open d k = None
  | _ :: _ :: r => exists cs, r = map (OWrite p) cs /\ d_file d (locate cwd p) = Some (concat cs) /\ d_open d k = Some (locate cwd p, length (concat cs))
  end.
Lemma alone k p chunks log :
  (exists rest, of_task k log ++ rest = OMkdirs p :: OCreate p :: map (OWrite p) chunks) ->
  (forall j o, In (j, o) log -> j <> k -> ~ makes (locate cwd p) (j, o)) ->
  progress k p (run log) (of_task k log).
Proof.
  induction log as [|[j o] log IH] using rev_ind; intros (rest & E) H.
  { split; [discriminate|]. split; reflexivity. }
  assert (H' : forall j o, In (j, o) log -> j <> k -> ~ makes (locate cwd p) (j, o)) by (intros ? ? X; apply H; apply in_or_app; auto).
  rewrite run_snoc, of_task_app in *. destruct (Nat.eq_dec j k) as [->|NE].
  - rewrite of_task_same in *. destruct IH as (A & B); [|exact H'|]. { exists (o :: rest). rewrite <- app_assoc in E. exact E. }
    destruct (of_task k log) as [|o1 [|o2 r]].
    + cbn [app] in E. injection E as -> _. cbn [app disk_step]. split; assumption.
    + cbn [app] in E. injection E as -> -> _. cbn [app disk_step]. destruct B as (B1 & B2). split; cbn [d_file d_open].
      * intros i pos N. rewrite reopen_other by auto. apply A. exact N.
      * exists []. split; [reflexivity|]. rewrite put_same, reopen_same. auto.
    + cbn [app] in E. injection E as -> -> E. destruct B as (cs & -> & B1 & B2).
      assert (exists c, o = OWrite p c) as (c & ->).
      { rewrite <- app_assoc in E. cbn [app] in E. assert (X : In o (map (OWrite p) chunks)) by (rewrite <- E; apply in_or_app; right; left; reflexivity).
        apply in_map_iff in X. destruct X as (c & <- & _). eauto. }
      cbn [app disk_step]. rewrite B2, B1. split; cbn [d_file d_open].
      * intros i pos N. rewrite reopen_other by auto. apply A. exact N.
      * exists (cs ++ [c]). rewrite put_same, reopen_same, write_end, map_app, concat_app, app_length. cbn [map concat]. rewrite app_nil_r. auto.
  - rewrite (of_task_other _ _ _ NE), app_nil_r in *. destruct IH as (A & B); [eauto|exact H'|].
    assert (HN : ~ makes (locate cwd p) (j, o)) by (apply H; [apply in_or_app; right; left; reflexivity|exact NE]).
    cbn [disk_step]. destruct o as [q|q|q c|c]; try (split; assumption).
    + assert (NQ : locate cwd q <> locate cwd p). { intros X. apply HN. exists q. auto. }
      split; cbn [d_file d_open].
      * intros i pos N. destruct (Nat.eq_dec i j) as [->|N2]; [rewrite reopen_same; congruence|rewrite reopen_other by auto; apply A; exact N].
      * rewrite put_other, reopen_other by auto. exact B.
    + destruct (d_open (run log) j) as [[q' pos']|] eqn:EO; [|split; assumption].
      assert (NQ : q' <> locate cwd p). { intros ->. exact (A _ _ NE EO). }
      split; cbn [d_file d_open].
      * intros i pos N. destruct (Nat.eq_dec i j) as [->|N2]; [rewrite reopen_same; congruence|rewrite reopen_other by auto; apply A; exact N].
      * rewrite put_other, reopen_other by auto. exact B.
Qed.
End D.

(** Standard output, if only one task uses it *)
Lemma stdout_alone k log : (forall j o, In (j, o) log -> j <> k -> forall c, o <> OStdout c) ->
  on_stdout log = concat (map (fun o => match o with OStdout c => c | _ => [] end) (of_task k log)).
Proof.
  unfold on_stdout. induction log as [|[j o] log IH]; intros H; [reflexivity|]. cbn [map snd concat of_task filter fst].
  rewrite IH by (intros ? ? X; apply H; right; exact X). unfold of_task. cbn [filter fst]. destruct (Nat.eqb_spec j k) as [->|N]; [reflexivity|].
  destruct o as [p|p|p c|c]; try reflexivity. exfalso. exact (H _ _ (or_introl eq_refl) N c eq_refl).
Qed.
