(** The metadata exchange with one peer: invariants over all histories. *)
From Verif Require Import Base BaseFacts S_Bencode M_Bencode P_Bencode M_Sha1 M_Torrent M_Messages
  M_Peer S_Download P_Torrent.

Lemma upto_succ n : upto (n + 1) = upto n ++ [n].
Proof.
  unfold upto. replace (N.to_nat (n + 1)) with (S (N.to_nat n)) by lia.
  rewrite seq_S, map_app. cbn. f_equal. f_equal. lia.
Qed.

Lemma requests_sent_app a b : requests_sent (a ++ b) = requests_sent a ++ requests_sent b.
Proof.
  induction a as [|w a IH]; [reflexivity|]. cbn.
  repeat match goal with |- context [match ?x with _ => _ end] => destruct x end; cbn; now rewrite ?IH.
Qed.
Lemma rejects_sent_app a b : rejects_sent (a ++ b) = rejects_sent a ++ rejects_sent b.
Proof.
  induction a as [|w a IH]; [reflexivity|]. cbn.
  repeat match goal with |- context [match ?x with _ => _ end] => destruct x end; cbn; now rewrite ?IH.
Qed.
Lemma requests_received_app a b : requests_received (a ++ b) = requests_received a ++ requests_received b.
Proof.
  induction a as [|w a IH]; [reflexivity|]. cbn.
  repeat match goal with |- context [match ?x with _ => _ end] => destruct x end; cbn; now rewrite ?IH.
Qed.
Lemma data_received_app a b : data_received (a ++ b) = data_received a ++ data_received b.
Proof.
  induction a as [|w a IH]; [reflexivity|]. cbn.
  repeat match goal with |- context [match ?x with _ => _ end] => destruct x end; cbn; now rewrite ?IH.
Qed.

(** Everything sent so far was allowed when it was sent. *)
Definition good (size : N) (tr : list wire) : Prop :=
  forall p m q, tr = p ++ Sent m :: q -> allowed_send size p m.

Lemma good_nil size : good size [].
Proof. intros p m q E. destruct p; discriminate. Qed.

Lemma snoc_split {A} (l : list A) x p y q :
  l ++ [x] = p ++ y :: q -> (q = [] /\ l = p /\ x = y) \/ exists q', q = q' ++ [x] /\ l = p ++ y :: q'.
Proof.
  destruct q as [|z q] using rev_ind.
  - intros E. apply app_inj_tail in E. left. intuition.
  - intros E. right. exists q. rewrite app_comm_cons, app_assoc in E.
    apply app_inj_tail in E as [-> ->]. auto.
Qed.

Lemma good_snoc size tr w :
  good size tr -> match w with Sent m => allowed_send size tr m | Recv _ => True end ->
  good size (tr ++ [w]).
Proof.
  intros G H p m q E. apply snoc_split in E as [(-> & -> & ->)|(q' & -> & ->)]; auto.
  eapply G; reflexivity.
Qed.

(** State of the exchange while waiting for piece [i]; [tr] is the history. *)
Record winv (ih : bytes) (size : N) (b : builder) (i : N) (tr : list wire) : Prop := {
  w_shape : shape ih size b;
  w_small : size <= MAX_INFO_LENGTH;
  w_next : b_next b = i;
  w_lt : i < pieces size;
  w_len : blen (b_data b) = 16384 * i;
  w_req : requests_sent tr = upto (i + 1);
  w_data : data_received tr = map (fun j => (j, size, 16384)) (upto i);
  w_rej : rejects_sent tr = requests_received tr;
  w_good : good size tr }.

(** State after the function returned. *)
Record finv (ih : bytes) (osize : option N) (r : res peer_error torrent_info) (tr : list wire) : Prop := {
  f_good : forall size, osize = Some size -> good size tr;
  f_rej : rejects_sent tr = requests_received tr;
  f_ok : forall info, r = Ok info ->
           sha1 (ti_data info) = ih /\ ti_hash info = ih /\ osize = Some (blen (ti_data info)) /\
           bencoded_dict (ti_data info) }.

Definition Inv (ih : bytes) (osize : option N) (st : fetch) (tr : list wire) : Prop :=
  match st with
  | Waiting size b i => osize = Some size /\ winv ih size b i tr
  | Finished r => finv ih osize r tr
  | Crashed => False
  end.

Lemma pieces_lt size i : i < pieces size <-> 16384 * i < size.
Proof. unfold pieces. lia. Qed.

(** Top of the outer loop, with the previous request answered. *)
Lemma next_inv ih size b tr st out :
  shape ih size b -> size <= MAX_INFO_LENGTH ->
  blen (b_data b) = N.min size (16384 * b_next b) ->
  requests_sent tr = upto (b_next b) ->
  (b_next b < pieces size -> data_received tr = map (fun j => (j, size, 16384)) (upto (b_next b))) ->
  rejects_sent tr = requests_received tr -> good size tr ->
  fetch_next size b = (st, out) -> Inv ih (Some size) st (tr ++ map Sent out).
Proof.
  intros Sb Hsz Hl Hr Hd Hj G. unfold fetch_next, builder_next. rewrite (sh_qty _ _ _ Sb).
  destruct (N.ltb_spec (b_next b) (pieces size)) as [Hi|Hi].
  - intros E; inversion E; subst; clear E. cbn [map]. split; [reflexivity|].
    specialize (Hd Hi). assert (Hlt : 16384 * b_next b < size) by now apply pieces_lt.
    constructor; auto.
    + lia.
    + rewrite requests_sent_app, Hr, upto_succ. reflexivity.
    + rewrite data_received_app. cbn. now rewrite app_nil_r.
    + rewrite rejects_sent_app, requests_received_app. cbn. now rewrite !app_nil_r.
    + apply good_snoc; auto. left. eexists. repeat split; auto.
  - destruct (builder_build b) as [info|e] eqn:B; intros E; inversion E; subst; clear E;
      cbn [map]; rewrite app_nil_r; constructor; auto; try (intros ? E; inversion E; subst; auto; fail).
    + intros info' E; inversion E; subst; clear E.
      apply build_ok in B as (_ & HS & HD & ->). cbn.
      rewrite (sh_fed _ _ _ Sb), (sh_hash _ _ _ Sb) in HS. rewrite (sh_hash _ _ _ Sb).
      repeat split; auto. rewrite Hl. f_equal.
      assert (~ 16384 * b_next b < size) by (rewrite <- pieces_lt; lia). lia.
Qed.

Lemma start_inv ih osize st out :
  fetch_start ih osize = (st, out) -> Inv ih osize st (map Sent out).
Proof.
  unfold fetch_start. destruct osize as [size|].
  2:{ intros E; inversion E; subst. constructor; auto; intros ? E'; inversion E'. }
  destruct (N.ltb_spec MAX_INFO_LENGTH size).
  - rewrite builder_new_big by auto. intros E; inversion E; subst.
    constructor; auto; [intros; apply good_nil|intros ? E'; inversion E'].
  - rewrite builder_new_eq by auto. intros E.
    assert (I : Inv ih (Some size) st ([] ++ map Sent out)); [|exact I].
    revert E. apply next_inv; auto using shape_new, good_nil. cbn. lia.
Qed.

Lemma fin_snoc ih osize size b i tr ev e :
  osize = Some size -> winv ih size b i tr ->
  (match ev with Ok (Meta (MRequest _)) => False | _ => True end) ->
  Inv ih osize (Finished (Err e)) (tr ++ [Recv ev]).
Proof.
  intros -> W Hev. destruct W. constructor.
  - intros s E; inversion E; subst. now apply good_snoc.
  - rewrite rejects_sent_app, requests_received_app, w_rej0. cbn.
    destruct ev as [[|?|[]]|]; cbn; rewrite ?app_nil_r; auto; tauto.
  - intros ? E; inversion E.
Qed.

Lemma wait_snoc ih size b i tr m :
  winv ih size b i tr ->
  (match m with Meta (MRequest _) | Meta (MData _ _ _) => False | _ => True end) ->
  winv ih size b i (tr ++ [Recv (Ok m)]).
Proof.
  intros W Hm. destruct W. constructor; auto.
  - rewrite requests_sent_app, w_req0. cbn. now rewrite app_nil_r.
  - rewrite data_received_app, w_data0. destruct m as [|?|[]]; cbn; rewrite ?app_nil_r; tauto.
  - rewrite rejects_sent_app, requests_received_app, w_rej0.
    destruct m as [|?|[]]; cbn; rewrite ?app_nil_r; tauto.
  - now apply good_snoc.
Qed.

Lemma step_inv ih osize size b i tr ev st out :
  Inv ih osize (Waiting size b i) tr -> fetch_step (Waiting size b i) ev = (st, out) ->
  Inv ih osize st (tr ++ Recv ev :: map Sent out).
Proof.
  intros [-> W] E.
  destruct ev as [m|e].
  2:{ inversion E; subst. eapply fin_snoc; eauto. }
  destruct m as [cm|h|mm].
  - cbn [fetch_step] in E. destruct (msg_ignorable (Core cm)); inversion E; subst; cbn [map].
    + split; auto. now apply wait_snoc.
    + eapply fin_snoc; eauto.
  - cbn in E. inversion E; subst. cbn [map]. split; auto. now apply wait_snoc.
  - destruct mm as [p|p t pl|p|t]; cbn [fetch_step] in E.
    + inversion E; subst; clear E. cbn [map]. split; auto. destruct W. constructor; auto.
      * rewrite requests_sent_app, w_req0. cbn. now rewrite app_nil_r.
      * rewrite data_received_app, w_data0. cbn. now rewrite app_nil_r.
      * rewrite rejects_sent_app, requests_received_app, w_rej0. reflexivity.
      * change [Recv (Ok (Meta (MRequest p))); Sent (Meta (MReject p))] with
          ([Recv (Ok (Meta (MRequest p)))] ++ [Sent (Meta (MReject p))]).
        rewrite app_assoc. apply good_snoc; [now apply good_snoc|]. right. eauto.
    + destruct (N.eqb_spec t size) as [->|NE]; cbn [negb] in E.
      2:{ inversion E; subst. eapply fin_snoc; eauto. }
      destruct (N.eqb_spec p i) as [->|NE]; cbn [negb] in E.
      2:{ inversion E; subst. eapply fin_snoc; eauto. }
      destruct (push_total ih size b pl (w_shape _ _ _ _ _ W)) as (r & b' & P & S' & R).
      rewrite P in E. destruct r as [[]|e].
      2:{ inversion E; subst. eapply fin_snoc; eauto. }
      destruct R as (Hlt & Hn & Hd & Hpl). destruct W. rewrite w_next0 in *.
      change (Recv (Ok (Meta (MData i size pl))) :: map Sent out) with
        ([Recv (Ok (Meta (MData i size pl)))] ++ map Sent out).
      rewrite app_assoc. revert E. apply next_inv; auto.
      * rewrite Hd, Hn. unfold blen in *. rewrite app_length. apply pieces_lt in w_lt0. lia.
      * rewrite requests_sent_app, w_req0, Hn. cbn. now rewrite app_nil_r.
      * intros Hlt2. rewrite Hn in *. apply pieces_lt in Hlt2.
        rewrite data_received_app, w_data0, upto_succ, map_app. cbn. rewrite Hpl. do 3 f_equal. lia.
      * rewrite rejects_sent_app, requests_received_app, w_rej0. reflexivity.
      * now apply good_snoc.
    + destruct (N.eqb_spec p i) as [->|NE]; cbn [negb] in E; inversion E; subst;
        eapply fin_snoc; eauto.
    + inversion E; subst. cbn [map]. split; auto. now apply wait_snoc.
Qed.

Lemma run_inv ih osize evs : forall st tr0 st' tr,
  Inv ih osize st tr0 -> fetch_run st evs = (st', tr) -> Inv ih osize st' (tr0 ++ tr).
Proof.
  induction evs as [|ev evs IH]; intros st tr0 st' tr HI E.
  - destruct st; inversion E; subst; now rewrite app_nil_r.
  - destruct st as [size b i|r|].
    + cbn [fetch_run] in E. destruct (fetch_step (Waiting size b i) ev) as [st1 out] eqn:E1.
      destruct (fetch_run st1 evs) as [st2 tr2] eqn:E2. inversion E; subst.
      pose proof (step_inv _ _ _ _ _ _ _ _ _ HI E1) as H1.
      replace (tr0 ++ Recv ev :: map Sent out ++ tr2)
        with ((tr0 ++ Recv ev :: map Sent out) ++ tr2) by now rewrite <- app_assoc.
      eapply IH; eauto.
    + inversion E; subst; now rewrite app_nil_r.
    + destruct HI.
Qed.

Lemma fetch_inv ih osize evs st tr :
  get_metadata_info ih osize evs = (st, tr) -> Inv ih osize st tr.
Proof.
  unfold get_metadata_info. destruct (fetch_start ih osize) as [st0 out0] eqn:E0.
  destruct (fetch_run st0 evs) as [st1 tr1] eqn:E1. intros E; inversion E; subst.
  eapply run_inv; eauto. now apply start_inv.
Qed.

(** ** Corollaries used by the property files *)
Lemma fetch_authentic ih osize evs info tr :
  get_metadata_info ih osize evs = (Finished (Ok info), tr) ->
  sha1 (ti_data info) = ih /\ ti_hash info = ih /\ osize = Some (blen (ti_data info)) /\
  bencoded_dict (ti_data info).
Proof. intros H. apply fetch_inv in H. apply (f_ok _ _ _ _ H). reflexivity. Qed.

Lemma fetch_never_panics ih osize evs tr : get_metadata_info ih osize evs <> (Crashed, tr).
Proof. intros H. now apply fetch_inv in H. Qed.

Lemma fetch_sends ih size evs st tr :
  get_metadata_info ih (Some size) evs = (st, tr) ->
  (forall p m q, tr = p ++ Sent m :: q -> allowed_send size p m) /\
  rejects_sent tr = requests_received tr.
Proof.
  intros H. apply fetch_inv in H. destruct st as [s b i|r|]; [| |destruct H].
  - destruct H as [E W]. inversion E; subst. split; [exact (w_good _ _ _ _ _ W)|exact (w_rej _ _ _ _ _ W)].
  - split; [exact (f_good _ _ _ _ H _ eq_refl)|exact (f_rej _ _ _ _ H)].
Qed.

Lemma fetch_no_size ih evs : get_metadata_info ih None evs = (Finished (Err NoMetadataSize), []).
Proof. destruct evs; reflexivity. Qed.

Lemma fetch_too_big ih size evs : MAX_INFO_LENGTH < size ->
  get_metadata_info ih (Some size) evs = (Finished (Err (InfoConstruct (TooLarge size))), []).
Proof.
  intros H. unfold get_metadata_info, fetch_start. rewrite builder_new_big by auto. destruct evs; reflexivity.
Qed.

Lemma fetch_buffer ih osize evs size b i tr :
  get_metadata_info ih osize evs = (Waiting size b i, tr) ->
  osize = Some size /\ size <= MAX_INFO_LENGTH /\ blen (b_data b) <= size.
Proof.
  intros H. apply fetch_inv in H as [-> W]. destruct W. apply pieces_lt in w_lt0.
  repeat split; auto. lia.
Qed.

(** ** An honest peer *)
Lemma harmless_step m size b i : harmless m ->
  exists out, fetch_step (Waiting size b i) (Ok m) = (Waiting size b i, out).
Proof. intros H; inversion H; subst; eexists; reflexivity. Qed.

Lemma takeN_add {A} (l : list A) a b : takeN (a + b) l = takeN a l ++ takeN b (dropN a l).
Proof.
  unfold takeN, dropN. rewrite N2Nat.inj_add.
  rewrite <- (firstn_skipn (N.to_nat a) l) at 1. rewrite firstn_app, firstn_firstn.
  rewrite Nat.min_r by lia. f_equal.
  destruct (Nat.le_gt_cases (N.to_nat a) (length l)).
  - rewrite firstn_length_le by auto. f_equal. lia.
  - rewrite !skipn_all2 by lia. now rewrite !firstn_nil.
Qed.

Lemma takeN_all {A} (l : list A) n : N.of_nat (length l) <= n -> takeN n l = l.
Proof. intros H. unfold takeN. apply firstn_all2. lia. Qed.

Section Honest.
  Variables (ih data : bytes).
  Hypothesis Hdict : bencoded_dict data.
  Hypothesis Hhash : sha1 data = ih.
  Hypothesis Hsize : blen data <= MAX_INFO_LENGTH.

  Lemma next_honest b st out :
    shape ih (blen data) b -> b_data b = takeN (16384 * b_next b) data ->
    fetch_next (blen data) b = (st, out) ->
    (st = Waiting (blen data) b (b_next b) /\ b_next b < pieces (blen data)) \/
    st = Finished (Ok (mkTI ih data)).
  Proof.
    intros Sb Hd. unfold fetch_next, builder_next. rewrite (sh_qty _ _ _ Sb).
    destruct (N.ltb_spec (b_next b) (pieces (blen data))) as [H|H].
    - intros E; inversion E; auto.
    - assert (Hx : b_data b = data).
      { rewrite Hd. apply takeN_all. assert (~ 16384 * b_next b < blen data) by (rewrite <- pieces_lt; lia).
        unfold blen in *. lia. }
      rewrite build_complete.
      + intros [= <- <-]. right. now rewrite (sh_hash _ _ _ Sb), Hx.
      + rewrite (sh_qty _ _ _ Sb). pose proof (sh_next _ _ _ Sb). lia.
      + rewrite (sh_fed _ _ _ Sb), Hx, (sh_hash _ _ _ Sb). auto.
      + rewrite Hx. auto.
  Qed.

  Lemma run_honest i evs : honest data i evs -> forall b,
    shape ih (blen data) b -> b_next b = i -> i < pieces (blen data) ->
    b_data b = takeN (16384 * i) data ->
    exists tr, fetch_run (Waiting (blen data) b i) evs = (Finished (Ok (mkTI ih data)), tr).
  Proof.
    induction 1 as [i evs H|i m evs Hm HH IH|i evs Hlt HH IH]; intros b Sb Hn Hi Hd.
    - apply pieces_lt in Hi. lia.
    - destruct (harmless_step m (blen data) b i Hm) as [out E].
      cbn [fetch_run]. rewrite E. destruct (IH b Sb Hn Hi Hd) as [tr ->]. eauto.
    - cbn [fetch_run fetch_step]. rewrite !N.eqb_refl. cbn [negb].
      destruct (push_ok ih (blen data) b (slice data i)) as (b' & P & S' & Hn' & Hd').
      { auto. } { now rewrite Hn. }
      { rewrite Hn. unfold slice, takeN, dropN, blen in *.
        rewrite firstn_length, skipn_length. lia. }
      rewrite P. destruct (fetch_next (blen data) b') as [st1 out] eqn:E1.
      assert (Hdata : b_data b' = takeN (16384 * b_next b') data).
      { rewrite Hd', Hn', Hn, Hd. unfold slice. rewrite <- takeN_add. f_equal. lia. }
      destruct (next_honest _ _ _ S' Hdata E1) as [[-> Hlt']| ->].
      + destruct (IH b') as [tr E]; auto.
        * now rewrite Hn', Hn.
        * rewrite Hn', Hn in Hlt'. auto.
        * rewrite Hdata. do 2 f_equal. now rewrite Hn', Hn.
        * rewrite Hn' in *. rewrite Hn in *. rewrite E. eauto.
      + destruct evs; cbn; eauto.
  Qed.

  Lemma fetch_honest evs : honest data 0 evs ->
    exists tr, get_metadata_info ih (Some (blen data)) evs = (Finished (Ok (mkTI ih data)), tr).
  Proof.
    intros HH. unfold get_metadata_info, fetch_start. rewrite builder_new_eq by auto.
    destruct (fetch_next _ _) as [st out] eqn:E.
    destruct (next_honest _ _ _ (shape_new ih (blen data)) eq_refl E) as [[-> Hlt]| ->].
    - cbn [b_next] in *. edestruct run_honest as [tr R]; eauto using shape_new.
      rewrite R. eauto.
    - destruct evs; cbn; eauto.
  Qed.
End Honest.
