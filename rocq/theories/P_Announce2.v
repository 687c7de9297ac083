(** Lemmas for C99: the addresses trackers report are well-formed. *)
From Verif Require Import Base S_Types S_Bencode M_Utf8 M_Net M_Session M_Tracker M_Udp M_Http M_Announce S_Wire P_Wire S_IpText S_Form S_Udp S_UdpSession S_Http
  M_Config M_Magnet M_Mse M_Get S_Get S_Announce P_Announce.

Lemma index_of_lt c : forall l n, index_of c l = Some n -> n < N.of_nat (length l).
Proof.
  induction l as [|x l IH]; intros n; cbn [index_of length]; [discriminate|].
  destruct (Byte.eqb c x); [intros [= <-]; lia|]. destruct (index_of c l) as [k|]; cbn [obind]; [|discriminate]. intros [= <-]. specialize (IH k eq_refl). lia.
Qed.
Lemma number_bound base digit : (forall c d, digit c = Some d -> d < base) -> forall s n, number base digit s = Some n -> n < base ^ N.of_nat (length s).
Proof.
  intros D. induction s as [|c s IH]; intros n; cbn [number].
  - intros [= <-]. cbn. lia.
  - destruct (digit c) as [d|] eqn:E; [|discriminate]. destruct (number base digit s) as [m|]; [|discriminate]. cbn [obind]. intros [= <-].
    specialize (D _ _ E). specialize (IH m eq_refl). cbn [length]. replace (N.of_nat (S (length s))) with (N.succ (N.of_nat (length s))) by lia.
    rewrite N.pow_succ_r'. nia.
Qed.
Lemma group_bound s g : hex_group s g -> g < 65536.
Proof.
  intros [L H]. apply number_bound in H; [|intros c d; unfold hex_value; intros X; apply index_of_lt in X; exact X].
  eapply N.lt_le_trans; [exact H|]. change 65536 with (16 ^ 4). apply N.pow_le_mono_r; lia.
Qed.
Lemma ipv4_bound s n : ipv4_text s n -> n < 2 ^ 32.
Proof. intros (a & b & c & d & ? & ? & ? & ? & _ & ->). change (2 ^ 32) with 4294967296. lia. Qed.
Lemma groups_bound s l dotted : hex_groups s l dotted -> Forall (fun g => g < 65536) l.
Proof.
  induction 1 as [s g H|s n H|s g r l dotted H G IH].
  - constructor; [eapply group_bound; eauto|constructor].
  - apply ipv4_bound in H. change (2 ^ 32) with (65536 * 65536) in H. constructor; [|constructor; [|constructor]].
    + apply N.div_lt_upper_bound; lia.
    + apply N.mod_lt. lia.
  - constructor; [eapply group_bound; eauto|auto].
Qed.
Lemma value_bound l : Forall (fun g => g < 65536) l -> forall a k, a < 65536 ^ N.of_nat k -> fold_left (fun a g => a * 65536 + g) l a < 65536 ^ N.of_nat (k + length l).
Proof.
  induction 1 as [|g l G F IH]; intros a k A; cbn [fold_left length].
  - now rewrite Nat.add_0_r.
  - replace (k + S (length l))%nat with (S k + length l)%nat by lia. apply IH.
    replace (N.of_nat (S k)) with (N.succ (N.of_nat k)) by lia. rewrite N.pow_succ_r'. nia.
Qed.
Lemma groups_value_bound l : Forall (fun g => g < 65536) l -> length l = 8%nat -> groups_value l < 2 ^ 128.
Proof. intros F L. pose proof (value_bound l F 0 0%nat) as H. rewrite L in H. apply H. reflexivity. Qed.
Lemma address_text_wf s i : address_text s i -> wf_ip i.
Proof.
  destruct i as [n|n]; cbn [address_text wf_ip]; [apply ipv4_bound|].
  intros [(l & dotted & G & L & ->)|(a & la & b & lb & dotted & -> & GA & GB & L & ->)].
  - apply groups_value_bound; auto. eapply groups_bound; eauto.
  - apply groups_value_bound.
    + assert (SG : forall s l dt, some_groups s l dt -> Forall (fun g => g < 65536) l).
      { intros s l dt [(_ & -> & _)|G]; [constructor|eapply groups_bound; eauto]. }
      apply Forall_app. split; [eauto|]. apply Forall_app. split; [|eauto].
      apply Forall_forall. intros x X. apply repeat_spec in X. subst. lia.
    + rewrite !app_length, repeat_length. lia.
Qed.

Lemma compact_peers_wf v6 v ps : compact_peers v6 v ps -> forall p, In p ps -> wf_sa (pr_addr p).
Proof.
  intros (parts & _ & F) p I. induction F as [|w q ws qs (C & _) F IH]; [destruct I|].
  destruct I as [->|I]; [eapply compact_wf; eauto|auto].
Qed.
Lemma peer_list_wf v ps : peer_list v ps -> forall p, In p ps -> wf_sa (pr_addr p).
Proof.
  intros [(vs & -> & F)|C] p I; [|eapply compact_peers_wf; eauto].
  induction F as [|w q ws qs (d & _ & _ & IP & PO & _) F IH]; [destruct I|].
  destruct I as [->|I]; [|auto]. unfold field in IP, PO.
  destruct (lookup (bs "ip") d) as [v|]; [|contradiction]. destruct (lookup (bs "port") d) as [v'|]; [|contradiction].
  destruct IP as (s & _ & A). destruct PO as [_ LT]. split; [eapply address_text_wf; eauto|exact LT].
Qed.
Lemma http_success_wf d r p : http_success d r -> In p (ar_peers r) -> wf_sa (pr_addr p).
Proof.
  intros (_ & (flags & p4 & p6 & out & _ & F4 & F6 & (LEN & FL) & ->) & _) I. apply in_app_iff in I as [I|I].
  - apply In_nth_error in I as [i NI]. assert (LT : (i < length out)%nat) by (apply nth_error_Some; congruence).
    rewrite LEN in LT. apply nth_error_Some in LT. destruct (nth_error (of_option p4) i) as [q|] eqn:NQ; [|congruence].
    destruct (FL i q NQ) as (c & NO & _). assert (p = mkPeer (pr_addr q) (pr_id q) c) as -> by congruence. cbn [pr_addr].
    destruct p4 as [p4|]; [|destruct i; discriminate NQ]. unfold field in F4. destruct (lookup (bs "peers") d); [|contradiction].
    eapply peer_list_wf; eauto. eapply nth_error_In; eauto.
  - destruct p6 as [p6|]; [|destruct I]. unfold field in F6. destruct (lookup (bs "peers6") d); [|contradiction]. eapply compact_peers_wf; eauto.
Qed.
Lemma announce_reply_wf v6 d txn r p : announce_reply v6 d txn r -> In p (ar_peers r) -> wf_sa (pr_addr p).
Proof.
  intros (b & addrs & ws & le & se & _ & _ & F & _ & E) I. rewrite E in I. cbn [ar_peers] in I. clear E.
  apply in_map_iff in I as (a & <- & I). cbn [pr_addr]. induction F as [|x w xs ws' C F IH]; [destruct I|].
  destruct I as [->|I]; [eapply compact_wf; eauto|auto].
Qed.
Lemma connecting_reply v6 is : (forall txn t r, connecting v6 txn is t r -> exists d txn', announce_reply v6 d txn' r) /\
  (forall txn x t r, announcing v6 txn x is t r -> exists d txn', announce_reply v6 d txn' r).
Proof.
  induction is as [|i is [IH1 IH2]]; split; intros; match goal with H : _ |- _ => inversion H; subst; eauto end.
Qed.
Lemma answered_wf tr a n t r p : answered tr a n t r -> In p (ar_peers r) -> wf_sa (pr_addr p).
Proof.
  destruct tr as [u|u]; cbn [answered].
  - intros (v & d & _ & _ & S). eapply http_success_wf; eauto.
  - intros (t0 & addr & others & v6 & _ & _ & C). apply connecting_reply in C as (d & txn & A). eapply announce_reply_wf; eauto.
Qed.

Lemma to_try_answered cfg pid key port m nets w c : (forall k, in_order (nets k)) -> peers_from cfg pid key port m nets w -> mg_trackers m <> [] ->
  to_try m w c -> exists k tr t r, nth_error (mg_trackers m) k = Some tr /\ answered tr (told cfg pid key port (mg_hash m)) (nets k) t r /\
    t <= ns (c_announce_timeout cfg) /\ In (snd c) (ar_peers r).
Proof.
  intros IO PF NE X. destruct (to_try_inv _ _ _ _ _ _ _ PF NE c X) as (k & tr & NT & I).
  apply job_peers_inv in I as (t & r & A & LE & I); auto. exists k, tr, t, r. auto.
Qed.
Lemma answers_to_try cfg pid key port m nets w k tr t r p : (forall k, in_order (nets k)) -> peers_from cfg pid key port m nets w ->
  nth_error (mg_trackers m) k = Some tr -> answers tr (told cfg pid key port (mg_hash m)) (nets k) t r -> t <= ns (c_announce_timeout cfg) -> In p (ar_peers r) ->
  exists c, snd c = p /\ to_try m w c.
Proof. intros IO PF NT A LE I. eapply to_try_iff; eauto. exists k, tr. split; auto. eapply job_peers; eauto. Qed.
Lemma to_try_wf cfg pid key port m nets w c : (forall k, in_order (nets k)) -> peers_from cfg pid key port m nets w -> mg_trackers m <> [] ->
  to_try m w c -> wf_ip (sa_ip (contact_addr c)).
Proof.
  intros IO PF NE X. destruct (to_try_answered _ _ _ _ _ _ _ c IO PF NE X) as (k & tr & t & r & _ & A & _ & I).
  exact (proj1 (answered_wf _ _ _ _ _ _ A I)).
Qed.
Lemma no_nodes m w : mg_trackers m <> [] -> Forall wf_sa (file_nodes m w).
Proof. unfold file_nodes. destruct (mg_trackers m); [easy|constructor]. Qed.
Lemma no_tracker_panics cfg pid key port m nets w : peers_from cfg pid key port m nets w -> no_other m w -> forall k, w_announce w k <> Panic.
Proof.
  intros PF NO k. destruct (nth_error (mg_trackers m) k) as [tr|] eqn:E; [destruct (PF k tr E) as (l & -> & _)|rewrite (NO k E)]; discriminate.
Qed.
