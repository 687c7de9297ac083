From Coq Require Import Sorted.
From Verif Require Import Base BaseFacts M_Net M_Sha1 M_Types M_Tracker M_Torrent M_Template S_Template M_Save M_Magnet M_Config M_Http M_DhtMsg S_Wire S_DhtMsg P_Wire P_DhtMsg M_Dht S_Dht P_Dht P_Dht2 P_Dht5 P_Dht6 M_App S_App P_App2 P_App4 P_App5 P_App7 P_App8
  M_Nursery M_Resolve S_Resolve M_Get S_Get P_Get P_Get2 M_GetDht S_GetDht S_Bencode S_Http.
Local Open Scope nat_scope.

Lemma begin_once l s h t c c' : Forall wf_pev l -> prun app_new l = Some (s, h) -> In (OBegin t c) h -> In (OBegin t c') h -> c = c'.
Proof.
  intros W R A B. apply (reached _ _ _ W) in R. destruct (v_calls _ _ _ R) as (Q & _). apply Q in A, B. destruct A as (st & A), B as (st' & B). congruence.
Qed.
Lemma return_once l s h t r r' : Forall wf_pev l -> prun app_new l = Some (s, h) -> In (OReturn t r) h -> In (OReturn t r') h -> r = r'.
Proof.
  intros W R A B. apply in_results in A, B. pose proof (once _ _ _ t W R) as L. destruct (S_App.results h t) as [|x [|y z]]; cbn in *; [destruct A| |lia].
  destruct A as [->|[]], B as [->|[]]. reflexivity.
Qed.
Lemma values_wf msg rsp p : decode_response msg = Ok rsp -> In p (gr_values rsp) -> wf_sa (pr_addr p) /\ pr_id p = None /\ pr_crypto p = false.
Proof.
  intros D I. apply response_iff in D. destruct D as (d & _ & _ & _ & _ & _ & rd & vs & n4 & n6 & _ & _ & _ & F & E & _). rewrite E in I.
  unfold field in F. destruct vs as [ps|]; [|destruct I]. destruct (lookup _ rd) as [v|]; [|destruct F]. destruct F as (ys0 & -> & F). cbn [of_option] in I. clear E.
  induction F as [|y q ys qs ((s & _ & C) & A & B) F IH]; [destruct I|]. destruct I as [->|I]; [|auto]. apply compact_wf in C. auto.
Qed.
Lemma in_combine_seq {X} (l : list X) x : In x l -> forall k, exists i, In (i, x) (combine (seq k (length l)) l).
Proof. induction l as [|y l IH]; intros I k; [destruct I|]. cbn. destruct I as [->|I]; [eauto|]. destruct (IH I (S k)) as (i & J). eauto. Qed.
Lemma combine_seq_fun {X} (l : list X) : NoDup l -> forall k i j x, In (i, x) (combine (seq k (length l)) l) -> In (j, x) (combine (seq k (length l)) l) -> i = j.
Proof.
  induction 1 as [|y l N ND IH]; intros k i j x A B; [destruct A|]. cbn in A, B. destruct A as [A|A], B as [B|B].
  - congruence.
  - injection A as <- <-. apply in_combine_r in B. destruct (N B).
  - injection B as <- <-. apply in_combine_r in A. destruct (N A).
  - eauto.
Qed.
(** What a lookup that returns has been told *)
Lemma lookup_facts l s h t m f w : Forall wf_pev l -> prun app_new l = Some (s, h) -> looked_up h t m (Found f) w ->
  exists n sid, In (OServe t n sid) h /\ In (OLookup sid (mg_hash m)) (of_node n h) /\
    (forall p, In p (fp_peers f) <-> named h n sid (mg_hash m) p) /\ NoDup (fp_peers f) /\
    (forall p, In p (fp_peers f) -> wf_sa (pr_addr p) /\ pr_id p = None /\ pr_crypto p = false) /\
    exists ns, fp_nodes f = map node_address ns /\ length ns <= 8 /\ StronglySorted (fun a b => (xdist (mg_hash m) a <= xdist (mg_hash m) b)%N) ns /\
      NoDup (map node_address ns) /\ (forall x, In x ns -> heard_of h n sid x) /\ Forall (fun x => wf_sa (node_address x)) ns.
Proof.
  intros W R (_ & B & RT & _). destruct (own_result _ _ _ _ _ W R RT) as (hash & n & sid & B' & SV & LK & AN).
  pose proof (begin_once _ _ _ _ _ _ W R B B') as E. injection E as <-. exists n, sid. split; [exact SV|]. split; [exact LK|].
  destruct (histories _ _ _ n W R) as (id & v6 & boot & a & H). assert (IN : In f (answers (of_node n h) sid)) by (rewrite AN; left; reflexivity).
  destruct (result_peers _ _ _ _ _ _ _ _ H LK IN) as (ND & PE).
  assert (OR : forall addr txn rsp, In (OReply sid addr txn (Ok rsp)) (of_node n h) -> exists h1 h2 msg q, of_node n h = h1 ++ OReply sid addr txn (Ok rsp) :: h2 /\ decode_response msg = Ok rsp /\
     In (OQuery sid addr q true) h1 /\ gq_txn q = txn /\ gq_hash q = mg_hash m).
  { intros addr txn rsp I. apply in_split in I. destruct I as (h1 & h2 & E). pose proof H as (l0 & W0 & R0).
    destruct (reply_origin' _ _ _ _ _ _ W0 R0 _ _ _ _ _ _ E) as (l1 & msg & oks & l2 & a1 & _ & _ & D & _ & (x1 & q & x2 & EX & ET & _)).
    exists h1, h2, msg, q. split; [exact E|]. split; [exact D|]. assert (Q : In (OQuery sid addr q true) h1) by (rewrite EX; apply in_elt). split; [exact Q|]. split; [exact ET|].
    assert (Q' : In (OQuery sid addr q true) (of_node n h)) by (rewrite E; apply in_or_app; auto).
    destruct (queries_say _ _ _ _ _ _ _ _ _ H Q') as (hash' & L' & U & EH & _). rewrite EH. symmetry. apply U. exact LK. }
  split. { intros p. rewrite PE. split.
    - intros (addr & txn & rsp & I & V). destruct (OR _ _ _ I) as (h1 & h2 & msg & q & E & _ & Q1 & Q2 & Q3). exists h1, addr, txn, rsp, h2, q. auto.
    - intros (h1 & addr & txn & rsp & h2 & q & E & V & _). exists addr, txn, rsp. split; [rewrite E; apply in_elt|exact V]. }
  split; [exact ND|]. split. { intros p I. apply PE in I. destruct I as (addr & txn & rsp & I & V). destruct (OR _ _ _ I) as (_ & _ & msg & _ & _ & D & _). exact (values_wf _ _ _ D V). }
  destruct (result_nodes _ _ _ _ _ _ _ _ H LK IN) as (ns & EN & T). exists ns. split; [exact EN|]. split; [exact (t_len _ _ _ _ T)|]. split; [exact (t_sorted _ _ _ _ T)|].
  split; [exact (t_nodup _ _ _ _ T)|]. destruct (t_known _ _ _ _ T) as (kn & KN & INC).
  assert (HO : forall x, In x ns -> heard_of h n sid x). { intros x X. apply INC in X. unfold known_nodes in KN. apply keys_nodup in KN. apply KN. exact X. }
  split; [exact HO|]. apply Forall_forall. intros x X. exact (proj2 (told_wf _ _ _ _ _ _ _ H (HO x X))).
Qed.
Lemma try_found h t m f w c : looked_up h t m (Found f) w -> (to_try m w c <-> In c (combine (seq 0 (length (fp_peers f))) (fp_peers f))).
Proof.
  intros (NT & _ & _ & D & A). unfold to_try, known. rewrite NT, D. cbn [dht_found option_map fst length]. split.
  - intros [(_ & x & [= <-] & I)|(k & ps & K & _)]; [exact I|lia].
  - intros I. left. eauto.
Qed.
Lemma contacts l s h t m f w : Forall wf_pev l -> prun app_new l = Some (s, h) -> looked_up h t m (Found f) w ->
  exists n sid, In (OServe t n sid) h /\ In (OLookup sid (mg_hash m)) (of_node n h) /\
    (forall p, (exists c, to_try m w c /\ snd c = p) <-> named h n sid (mg_hash m) p) /\
    (forall c c', to_try m w c -> to_try m w c' -> contact_addr c = contact_addr c' -> c = c') /\
    exists ns, file_nodes m w = map node_address ns /\ length ns <= 8 /\ StronglySorted (fun a b => (xdist (mg_hash m) a <= xdist (mg_hash m) b)%N) ns /\
      NoDup (map node_address ns) /\ (forall x, In x ns -> heard_of h n sid x).
Proof.
  intros W R LU. destruct (lookup_facts _ _ _ _ _ _ _ W R LU) as (n & sid & SV & LK & PE & ND & WF & ns & EN & LN & SO & NN & HO & _). exists n, sid. split; [exact SV|]. split; [exact LK|].
  split. { intros p. rewrite <- PE. split.
    - intros (c & X & <-). apply (try_found _ _ _ _ _ _ LU) in X. destruct c as [i p]. exact (in_combine_r _ _ _ _ X).
    - intros I. destruct (in_combine_seq _ _ I 0) as (i & J). exists (i, p). split; [|reflexivity]. apply (try_found _ _ _ _ _ _ LU). exact J. }
  split. { intros [i p] [j q] A B E. apply (try_found _ _ _ _ _ _ LU) in A, B. unfold contact_addr in E. cbn [snd] in E.
    destruct (WF p (in_combine_r _ _ _ _ A)) as (_ & I1 & C1). destruct (WF q (in_combine_r _ _ _ _ B)) as (_ & I2 & C2).
    assert (p = q) as <- by (destruct p, q; cbn in *; congruence). f_equal. exact (combine_seq_fun _ ND 0 _ _ _ A B). }
  exists ns. destruct LU as (NT & _ & _ & D & _). unfold file_nodes. rewrite NT, D. cbn [dht_found]. auto.
Qed.
(** The addresses are in range. *)
Lemma lookup_sound l s h t m r w : Forall wf_pev l -> prun app_new l = Some (s, h) -> looked_up h t m r w ->
  (forall c, to_try m w c -> wf_ip (sa_ip (contact_addr c))) /\ Forall wf_sa (file_nodes m w).
Proof.
  intros W R LU. destruct r as [f| | |].
  { destruct (lookup_facts _ _ _ _ _ _ _ W R LU) as (n & sid & _ & _ & _ & _ & WF & ns & EN & _ & _ & _ & _ & WN). split.
    - intros [i p] X. apply (try_found _ _ _ _ _ _ LU) in X. exact (proj1 (proj1 (WF p (in_combine_r _ _ _ _ X)))).
    - destruct LU as (NT & _ & _ & D & _). unfold file_nodes. rewrite NT, D. cbn [dht_found]. rewrite EN. apply Forall_map. exact WN. }
  all: destruct LU as (NT & _ & _ & D & _); unfold file_nodes, to_try, known; rewrite NT, D; cbn [dht_found option_map length]; split; [|constructor];
    intros c [(_ & x & E & _)|(k & ps & K & _)]; [discriminate E|lia].
Qed.
