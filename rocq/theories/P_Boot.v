(** Proofs for the resolution of the bootstrap nodes. *)
From Coq Require Import Permutation.
From Verif Require Import Base M_Net M_Tracker M_Config M_Boot S_Boot.
Local Open Scope nat_scope.

Lemma resolve_address v6 n answer : address_of v6 n answer (resolve v6 n answer).
Proof.
  unfold address_of, resolve. destruct (ia_host n) as [d|[i|i]].
  - destruct answer as [l|]; [|right; split; [discriminate|reflexivity]].
    assert (U : forall a, (v6 || match sa_ip a with V4 _ => true | V6 _ => false end)%bool = true <-> (v6 = true \/ v4 a)).
    { intros a. unfold v4. destruct v6; cbn; [tauto|]. destruct (sa_ip a) as [i|i]; split; intros H; try discriminate; auto; [right; eauto|]. destruct H as [H|(j & H)]; discriminate. }
    assert (G : forall l, (exists before a after, l = before ++ a :: after /\ Forall (fun b => ~ (v6 = true \/ v4 b)) before /\ (v6 = true \/ v4 a) /\
        find (fun a => (v6 || match sa_ip a with V4 _ => true | V6 _ => false end)%bool) l = Some a) \/
      (Forall (fun b => ~ (v6 = true \/ v4 b)) l /\ find (fun a => (v6 || match sa_ip a with V4 _ => true | V6 _ => false end)%bool) l = None)).
    { clear l. induction l as [|a l IH]; [right; split; [constructor|reflexivity]|]. cbn [find]. destruct (v6 || match sa_ip a with V4 _ => true | V6 _ => false end)%bool eqn:E.
      - left. exists [], a, l. split; [reflexivity|]. split; [constructor|]. split; [apply U, E|reflexivity].
      - assert (N : ~ (v6 = true \/ v4 a)) by (intros X; apply U in X; congruence). destruct IH as [(b & x & c & -> & F & X & ->)|(F & ->)].
        + left. exists (a :: b), x, c. split; [reflexivity|]. split; [constructor; auto|]. auto.
        + right. split; [constructor; auto|reflexivity]. }
    destruct (G l) as [(b & x & c & -> & F & X & ->)|(F & ->)]; [left; exists b, x, c; auto|right]. split; [|reflexivity]. intros l' [= <-]. exact F.
  - left. split; [right; exists i; reflexivity|reflexivity].
  - destruct v6; [left; auto|right]. split; [|reflexivity]. intros [H|(j & H)]; discriminate.
Qed.

Local Notation item := (nat * inet_addr * (option (list sockaddr) * option sockaddr))%type.
Record boot_inv (v6 : bool) (nodes : list inet_addr) (l : list boot_ev) (s : boot_st) (D : list item) : Prop := {
  b_addrs : bo_addrs s = somes (map (fun d => snd (snd d)) D);
  b_perm : Permutation (map fst D ++ bo_running s) (combine (seq 0 (bo_next s)) (firstn (bo_next s) nodes));
  b_todo : bo_todo s = skipn (bo_next s) nodes;
  b_le : bo_next s <= length nodes;
  b_limit : length (bo_running s) <= RESOLVE_JOB_LIMIT;
  b_done : forall d, In d D -> In (BoAnswer (fst (fst d)) (fst (snd d))) l /\ snd (snd d) = resolve v6 (snd (fst d)) (fst (snd d));
  b_steps : length l = bo_next s + length D }.
Lemma firstn_snoc {A} (x : A) rest : forall k l, skipn k l = x :: rest -> firstn (S k) l = firstn k l ++ [x] /\ skipn (S k) l = rest /\ k < length l.
Proof. induction k as [|k IH]; intros [|y l] H; try discriminate; [injection H as -> ->; repeat split; cbn; lia|]. cbn [skipn] in H. destruct (IH l H) as (E1 & E2 & E3). cbn [firstn app length] in *. rewrite <- E1. repeat split; auto. lia. Qed.
Lemma combine_snoc {A B} (y : B) (x : A) : forall (l : list A) (l' : list B), length l = length l' -> combine (l ++ [x]) (l' ++ [y]) = combine l l' ++ [(x, y)].
Proof. induction l as [|a l IH]; intros [|b l'] H; try discriminate; [reflexivity|]. cbn. rewrite IH by (cbn in H; lia). reflexivity. Qed.
Lemma run_nodup v6 nodes l s D : boot_inv v6 nodes l s D -> NoDup (map fst (map fst D ++ bo_running s)).
Proof.
  intros V. eapply Permutation_NoDup; [apply Permutation_map, Permutation_sym, V|]. assert (E : forall (A B : Type) (l1 : list A) (l2 : list B), length l1 = length l2 -> map fst (combine l1 l2) = l1).
  { intros A B l1. induction l1 as [|a l1 IH]; intros [|b l2] H; try discriminate; [reflexivity|]. cbn. f_equal. apply IH. cbn in H. lia. }
  rewrite E; [apply seq_NoDup|]. rewrite seq_length, firstn_length. pose proof (b_le _ _ _ _ _ V). lia.
Qed.
Lemma find_perm (R : list (nat * inet_addr)) k e : NoDup (map fst R) -> find (fun x => Nat.eqb (fst x) k) R = Some e ->
  fst e = k /\ Permutation R (e :: filter (fun x => negb (Nat.eqb (fst x) k)) R).
Proof.
  induction R as [|x R IH]; intros ND H; [discriminate|]. cbn [find filter map] in *. inversion ND as [|? ? N1 N2]; subst. destruct (Nat.eqb_spec (fst x) k) as [E|E].
  - injection H as <-. split; [exact E|]. cbn [negb]. constructor. assert (F : filter (fun y => negb (Nat.eqb (fst y) k)) R = R).
    { clear - N1 E. induction R as [|y R IH]; [reflexivity|]. cbn [filter map] in *. destruct (Nat.eqb_spec (fst y) k) as [E'|E']; [exfalso; apply N1; left; congruence|]. cbn [negb]. f_equal. apply IH. intros X. apply N1. right. exact X. }
    rewrite F. reflexivity.
  - destruct (IH N2 H) as (E1 & P). split; [exact E1|]. cbn [negb]. etransitivity; [apply perm_skip, P|]. apply perm_swap.
Qed.
Lemma boot_start_inv v6 nodes : boot_inv v6 nodes [] (boot_start nodes) [].
Proof. constructor; cbn; auto; try lia; try (intros d []; fail). Qed.
Lemma boot_step_inv v6 nodes l s D e s' : boot_inv v6 nodes l s D -> boot_step v6 s e = Some s' -> exists D', boot_inv v6 nodes (l ++ [e]) s' D'.
Proof.
  intros V E. destruct e as [|k ans]; cbn [boot_step] in E.
  - destruct (bo_todo s) as [|n rest] eqn:T; [discriminate|]. destruct (Nat.ltb_spec (length (bo_running s)) RESOLVE_JOB_LIMIT) as [L|]; [|discriminate]. injection E as <-. exists D.
    rewrite (b_todo _ _ _ _ _ V) in T. destruct (firstn_snoc _ _ _ _ T) as (F1 & F2 & F3). constructor; cbn [bo_addrs bo_running bo_next bo_todo].
    + apply V.
    + rewrite seq_S, F1, combine_snoc by (rewrite seq_length, firstn_length; lia). rewrite app_assoc. cbn [Nat.add]. apply Permutation_app_tail, V.
    + rewrite F2. reflexivity.
    + lia.
    + rewrite app_length. cbn [length]. lia.
    + intros d X. destruct (b_done _ _ _ _ _ V d X) as (A & B). split; [apply in_or_app; auto|exact B].
    + rewrite app_length. cbn [length]. rewrite (b_steps _ _ _ _ _ V). lia.
  - destruct (find _ (bo_running s)) as [[k' n]|] eqn:F; [|discriminate]. injection E as <-. pose proof (run_nodup _ _ _ _ _ V) as ND. rewrite map_app in ND.
    assert (ND2 : NoDup (map fst (bo_running s))). { revert ND. clear. induction (map fst (map fst D)) as [|x q IH]; [auto|]. cbn. intros H. inversion H; auto. }
    destruct (find_perm _ _ _ ND2 F) as (K & P). cbn [fst] in K. subst k'. exists (D ++ [((k, n), (ans, resolve v6 n ans))]). constructor; cbn [bo_addrs bo_running bo_next bo_todo].
    + rewrite (b_addrs _ _ _ _ _ V), map_app. unfold somes. rewrite flat_map_app. f_equal. cbn. destruct (resolve v6 n ans); reflexivity.
    + rewrite map_app, <- app_assoc. cbn [map fst app]. etransitivity; [|apply V]. apply Permutation_app_head, Permutation_sym, P.
    + apply V.
    + apply V.
    + apply Permutation_length in P. cbn [length] in P. pose proof (b_limit _ _ _ _ _ V). lia.
    + intros d X. apply in_app_iff in X. destruct X as [X|[<-|[]]].
      * destruct (b_done _ _ _ _ _ V d X) as (A & B). split; [apply in_or_app; auto|exact B].
      * cbn [fst snd]. split; [apply in_or_app; right; left; reflexivity|reflexivity].
    + rewrite !app_length. cbn [length]. rewrite (b_steps _ _ _ _ _ V). lia.
Qed.
Lemma boot_run_inv v6 nodes : forall l' l s D s', boot_inv v6 nodes l s D -> boot_run v6 s l' = Some s' -> exists D', boot_inv v6 nodes (l ++ l') s' D'.
Proof.
  induction l' as [|e l' IH]; intros l s D s' V; cbn [boot_run]; [intros [= <-]; rewrite app_nil_r; eauto|]. destruct (boot_step v6 s e) as [s1|] eqn:E; [|discriminate]. intros R.
  destruct (boot_step_inv _ _ _ _ _ _ _ V E) as (D1 & V1). replace (l ++ e :: l') with ((l ++ [e]) ++ l') by (rewrite <- app_assoc; reflexivity). eapply IH; eauto.
Qed.
Lemma boot_reached v6 nodes l s : boot_run v6 (boot_start nodes) l = Some s -> exists D, boot_inv v6 nodes l s D.
Proof. intros R. exact (boot_run_inv v6 nodes l [] _ [] s (boot_start_inv v6 nodes) R). Qed.
Lemma boot_limit v6 nodes l s : boot_run v6 (boot_start nodes) l = Some s -> length (bo_running s) <= 10.
Proof. intros R. destruct (boot_reached _ _ _ _ R) as (D & V). apply V. Qed.
Lemma boot_bounded v6 nodes l s : boot_run v6 (boot_start nodes) l = Some s -> length l <= 2 * length nodes.
Proof.
  intros R. destruct (boot_reached _ _ _ _ R) as (D & V). rewrite (b_steps _ _ _ _ _ V). pose proof (b_le _ _ _ _ _ V). pose proof (Permutation_length (b_perm _ _ _ _ _ V)) as P.
  rewrite app_length, map_length, combine_length, seq_length, firstn_length in P. lia.
Qed.
Lemma boot_progress v6 nodes l s : boot_run v6 (boot_start nodes) l = Some s -> boot_over s = false ->
  (exists k n, In (k, n) (bo_running s) /\ forall answer, boot_step v6 s (BoAnswer k answer) <> None) \/ boot_step v6 s BoStart <> None.
Proof.
  intros R O. unfold boot_over in O. destruct (bo_running s) as [|[k n] q] eqn:Q.
  - right. cbn [boot_step]. rewrite Q. destruct (bo_todo s); [discriminate|]. cbn. discriminate.
  - left. exists k, n. split; [left; reflexivity|]. intros ans. cbn [boot_step]. rewrite Q. cbn [find fst]. rewrite Nat.eqb_refl. discriminate.
Qed.
Lemma combine_split {A B} : forall (l : list A) (l' : list B), length l = length l' -> map fst (combine l l') = l /\ map snd (combine l l') = l'.
Proof. induction l as [|a l IH]; intros [|b l'] H; try discriminate; [auto|]. cbn. cbn in H. destruct (IH l' ltac:(lia)) as (-> & ->). auto. Qed.
Lemma boot_result v6 nodes l s : boot_run v6 (boot_start nodes) l = Some s -> boot_over s = true ->
  exists answers rs, length answers = length nodes /\ length rs = length nodes /\
    (forall k n ans r, nth_error nodes k = Some n -> nth_error answers k = Some ans -> nth_error rs k = Some r -> In (BoAnswer k ans) l /\ address_of v6 n ans r) /\
    Permutation (bo_addrs s) (somes rs).
Proof.
  intros R O. destruct (boot_reached _ _ _ _ R) as (D & V). unfold boot_over in O. destruct (bo_todo s) as [|? ?] eqn:T; [|discriminate]. destruct (bo_running s) as [|? ?] eqn:Q; [|discriminate].
  pose proof (b_perm _ _ _ _ _ V) as P. rewrite Q, app_nil_r in P. rewrite (b_todo _ _ _ _ _ V) in T. pose proof (b_le _ _ _ _ _ V) as LE.
  assert (EN : bo_next s = length nodes). { apply (f_equal (@length _)) in T. rewrite skipn_length in T. cbn in T. lia. } rewrite EN, firstn_all in P.
  apply Permutation_sym in P. destruct (Permutation_map_inv _ _ P) as (D' & E & P').
  destruct (combine_split (seq 0 (length nodes)) nodes) as (C1 & C2); [rewrite seq_length; reflexivity|]. rewrite E in C1, C2. rewrite !map_map in C1, C2.
  assert (LD : length D' = length nodes) by (apply (f_equal (@length _)) in C2; rewrite map_length in C2; exact C2).
  exists (map (fun d => fst (snd d)) D'), (map (fun d => snd (snd d)) D'). split; [rewrite map_length; exact LD|]. split; [rewrite map_length; exact LD|]. split.
  - intros k n ans r N1 N2 N3. rewrite nth_error_map in N2, N3. destruct (nth_error D' k) as [d|] eqn:ND; [|discriminate]. injection N2 as <-. injection N3 as <-.
    assert (K1 : fst (fst d) = k).
    { apply (map_nth_error (fun x : item => fst (fst x))) in ND. rewrite C1 in ND. assert (KL : k < length nodes) by (apply nth_error_Some; congruence).
      rewrite (nth_error_nth' _ 0) in ND by (rewrite seq_length; exact KL). rewrite seq_nth in ND by exact KL. injection ND as ND. symmetry. exact ND. }
    assert (K2 : snd (fst d) = n). { apply (map_nth_error (fun x : item => snd (fst x))) in ND. rewrite C2, N1 in ND. injection ND as ->. reflexivity. }
    destruct (b_done _ _ _ _ _ V d) as (A & B). { apply (Permutation_in (l := D')); [apply Permutation_sym, P'|]. eapply nth_error_In. exact ND. }
    rewrite K1 in A. rewrite K2 in B. split; [exact A|]. rewrite B. apply resolve_address.
  - rewrite (b_addrs _ _ _ _ _ V). unfold somes. apply Permutation_flat_map, Permutation_map, P'.
Qed.
Lemma boot_reachable nodes l s a : boot_run false (boot_start nodes) l = Some s -> In a (bo_addrs s) -> v4 a.
Proof.
  intros R X. destruct (boot_reached _ _ _ _ R) as (D & V). rewrite (b_addrs _ _ _ _ _ V) in X. unfold somes in X. apply in_flat_map in X. destruct X as (r & Y & X). apply in_map_iff in Y. destruct Y as (d & <- & Y).
  destruct (b_done _ _ _ _ _ V d Y) as (_ & E). pose proof (resolve_address false (snd (fst d)) (fst (snd d))) as A. rewrite <- E in A. destruct (snd (snd d)) as [b|]; [|destruct X]. destruct X as [->|[]].
  unfold address_of in A. destruct (ia_host (snd (fst d))) as [dm|i].
  - destruct A as [(? & ? & ? & _ & _ & U & [= ->])|(_ & A)]; [|discriminate]. destruct U as [U|U]; [discriminate|exact U].
  - destruct A as [(U & [= ->])|(_ & A)]; [|discriminate]. destruct U as [U|U]; [discriminate|exact U].
Qed.
