(** A lookup has no more replies than queries. *)
From Coq Require Import Permutation.
From Verif Require Import Base BaseFacts M_Net M_Tracker M_DhtMsg M_Dht S_Dht P_Dht6 M_DhtTime S_DhtTime P_DhtTime.
Local Open Scope nat_scope.

Definition qkeys (h : list aobs) (sid : nat) : list (sockaddr * bytes) := flat_map (fun o => match o with OQuery i a q _ => if Nat.eqb i sid then [(a, gq_txn q)] else [] | _ => [] end) h.
Definition rkeys (h : list aobs) (sid : nat) : list (sockaddr * bytes) := flat_map (fun o => match o with OReply i a t _ => if Nat.eqb i sid then [(a, t)] else [] | _ => [] end) h.
Lemma qkeys_app h o sid : qkeys (h ++ o) sid = qkeys h sid ++ qkeys o sid. Proof. apply flat_map_app. Qed.
Lemma rkeys_app h o sid : rkeys (h ++ o) sid = rkeys h sid ++ rkeys o sid. Proof. apply flat_map_app. Qed.
Lemma qkeys_asked h sid : length (qkeys h sid) = length (asked h sid).
Proof. induction h as [|o h IH]; [reflexivity|]. unfold qkeys, asked in *. cbn [flat_map]. rewrite !app_length, IH. destruct o; auto. destruct (Nat.eqb _ _); reflexivity. Qed.

(** What is awaited after one more observation *)
Lemma awaiting_snoc h o sid addr txn : awaiting (h ++ [o]) sid addr txn ->
  (exists q, o = OQuery sid addr q true /\ gq_txn q = txn) \/ awaiting h sid addr txn /\ (forall r, o <> OReply sid addr txn r).
Proof.
  intros (h1 & q & h2 & E & T & NR & NT). destruct h2 as [|o' h2 _] using rev_ind.
  - apply app_inj_tail in E. destruct E as [_ ->]. left. eauto.
  - right. rewrite app_comm_cons, app_assoc in E. apply app_inj_tail in E. destruct E as [-> ->]. split.
    + exists h1, q, h2. split; [reflexivity|]. split; [exact T|]. split; [intros r X; apply (NR r), in_or_app; auto|intros X; apply NT, in_or_app; auto].
    + intros r ->. apply (NR r), in_or_app. right. left. reflexivity.
Qed.
Lemma replies_matched h sid : (forall h1 addr txn r h2, h = h1 ++ OReply sid addr txn r :: h2 -> awaiting h1 sid addr txn) ->
  exists rest, Permutation (qkeys h sid) (rkeys h sid ++ rest) /\ forall addr txn, awaiting h sid addr txn -> In (addr, txn) rest.
Proof.
  induction h as [|o h IH] using rev_ind; intros A.
  - exists []. split; [constructor|]. intros addr txn (h1 & q & h2 & E & _). destruct h1; discriminate E.
  - destruct IH as (rest & P & W). { intros h1 addr txn r h2 ->. apply (A h1 addr txn r (h2 ++ [o])). rewrite <- app_assoc. reflexivity. }
    rewrite qkeys_app, rkeys_app.
    assert (OTHER : qkeys [o] sid = [] -> rkeys [o] sid = [] -> (forall addr q, o <> OQuery sid addr q true) ->
      exists rest, Permutation (qkeys h sid ++ qkeys [o] sid) ((rkeys h sid ++ rkeys [o] sid) ++ rest) /\ forall addr txn, awaiting (h ++ [o]) sid addr txn -> In (addr, txn) rest).
    { intros -> -> NQ. exists rest. rewrite !app_nil_r. split; [exact P|]. intros addr txn X. apply awaiting_snoc in X. destruct X as [(q & E & _)|[X _]]; [destruct (NQ _ _ E)|auto]. }
    destruct o as [i hash|i a q ok|i a t r|i a t|i r|i]; try (apply OTHER; [reflexivity|reflexivity|discriminate]).
    + destruct (Nat.eqb_spec i sid) as [->|NE].
      * exists ((a, gq_txn q) :: rest). unfold qkeys, rkeys. cbn [flat_map]. rewrite Nat.eqb_refl, !app_nil_r. split.
        -- etransitivity; [symmetry; apply Permutation_cons_append|]. etransitivity; [apply perm_skip, P|]. apply Permutation_middle.
        -- intros addr txn X. apply awaiting_snoc in X. destruct X as [(q' & [= <- <- _] & <-)|[X _]]; [left; reflexivity|right; auto].
      * apply OTHER; [| |congruence]; unfold qkeys, rkeys; cbn [flat_map]; [destruct (Nat.eqb_spec i sid); [contradiction|]|]; reflexivity.
    + destruct (Nat.eqb_spec i sid) as [->|NE].
      * assert (AW := W _ _ (A h a t r [] eq_refl)). apply in_split in AW. destruct AW as (r1 & r2 & ->). exists (r1 ++ r2). unfold qkeys, rkeys. cbn [flat_map]. rewrite Nat.eqb_refl, !app_nil_r. split.
        -- etransitivity; [exact P|]. rewrite <- app_assoc. apply Permutation_app_head. cbn [app]. symmetry. apply Permutation_middle.
        -- intros addr txn X. apply awaiting_snoc in X. destruct X as [(q & D & _)|[X NR]]; [discriminate D|]. apply W in X. apply in_app_iff in X. apply in_app_iff.
           destruct X as [X|[[= -> ->]|X]]; auto. destruct (NR r eq_refl).
      * apply OTHER; [| |congruence]; unfold qkeys, rkeys; cbn [flat_map]; [|destruct (Nat.eqb_spec i sid); [contradiction|]]; reflexivity.
Qed.

Lemma replies_few my_id v6 boot a h sid : history my_id v6 boot a h -> length (rkeys h sid) <= length (asked h sid).
Proof.
  intros (l & W & R). destruct (replies_matched h sid) as (rest & P & _).
  - intros h1 addr txn r h2 E. destruct (reply_origin' my_id v6 boot l a h W R _ _ _ _ _ _ E) as (l1 & msg & oks & l2 & a1 & _ & _ & _ & _ & AW). exact AW.
  - apply Permutation_length in P. rewrite app_length, qkeys_asked in P. lia.
Qed.
Lemma reply_times_rkeys th sid : length (reply_times th sid) <= length (rkeys (map snd th) sid).
Proof.
  induction th as [|[t o] th IH]; [apply le_n|]. unfold reply_times, rkeys in *. cbn [map snd flat_map]. rewrite !app_length.
  destruct o as [| |i a x [r|e]| | |]; cbn [length]; try lia; destruct (Nat.eqb _ _); cbn [length]; lia.
Qed.
Lemma bounded_queries timeout my_id v6 boot x th sid hash t0 : timed timeout my_id v6 boot x th -> few (map snd th) -> In (t0, OLookup sid hash) th ->
  (forall t r, In (t, OAnswer sid r) th -> t <= t0 + (length (asked (map snd th) sid) + 1) * timeout) /\
  (unanswered th sid -> d_now x <= t0 + (length (asked (map snd th) sid) + 1) * timeout).
Proof.
  intros T F X. assert (L := replies_few _ _ _ _ _ sid (timed_history _ _ _ _ _ _ T)). assert (M := reply_times_rkeys th sid). split.
  - intros t r Y. pose proof (proj2 (bounded timeout my_id v6 boot x th T F sid hash t0 X) t r Y). nia.
  - intros U. pose proof (bounded_unanswered timeout my_id v6 boot x th sid hash t0 T F X U). nia.
Qed.
