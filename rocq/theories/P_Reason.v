(** Why an exchange with a peer failed. *)
From Verif Require Import Base BaseFacts S_Bencode P_Bencode S_Wire P_Wire P_PeerWire P_ExtWire S_Download P_Torrent P_Peer P_Download
  M_Util M_Net M_Bencode M_Torrent M_Sha1 M_Extensions M_Messages M_Frame S_Frame P_Frame M_Peer M_Session S_Session P_Session P_Exchange S_Reason.

(** ** What is wrong with a frame *)
Definition kind (t : byte) : option (nat * bool) :=
  match t with
  | x00 | x01 | x02 | x03 | x0e | x0f => Some (0%nat, true)
  | x04 | x0d | x11 => Some (4%nat, true)
  | x05 => Some (0%nat, false)
  | x06 | x08 | x10 => Some (12%nat, true)
  | x07 => Some (8%nat, false)
  | x09 => Some (2%nat, true)
  | x14 => Some (1%nat, false)
  | _ => None
  end.
Lemma eof_cases r : eof r = (if Nat.ltb 0 (length r) then Err Long else Ok tt).
Proof. destruct r; reflexivity. Qed.
Lemma uint_cases k r : try_get_uint k r = (if Nat.ltb (length r) k then Err Short else Ok (be_val (firstn k r), skipn k r)).
Proof. unfold try_get_uint. destruct (Nat.leb_spec k (length r)), (Nat.ltb_spec (length r) k); try reflexivity; lia. Qed.
Lemma decode_kind t r :
  match kind t with
  | None => core_decode (t :: r) = Err (MUnknown t)
  | Some (L, fx) =>
      if Nat.ltb (length r) L then core_decode (t :: r) = Err (MLength t Short)
      else if (fx && Nat.ltb L (length r))%bool then core_decode (t :: r) = Err (MLength t Long)
      else exists m, core_decode (t :: r) = Ok m
  end.
Proof.
  destruct t; try reflexivity; cbn [kind core_decode andb]; unfold get_u32_eof, get_3u32_eof, get_eof;
    repeat (rewrite uint_cases; rewrite ?skipn_length;
      match goal with |- context [Nat.ltb ?a ?b] => match goal with |- context [if Nat.ltb a b then Err Short else _] => destruct (Nat.ltb_spec a b) end end; cbn [res_map_err res_bind]);
    rewrite ?eof_cases, ?skipn_length;
    repeat match goal with |- context [Nat.ltb ?a ?b] => destruct (Nat.ltb_spec a b) end; cbn [res_map_err res_bind]; try reflexivity; try lia; eauto.
Qed.
Lemma wire_decode m s : core_wire m s <-> core_decode s = Ok m.
Proof. split; [intros H; apply core_codec; split; [now apply core_wire_unique in H|exact H]|intros H; now apply core_codec in H]. Qed.
Lemma wire_kind m t r : core_wire m (t :: r) -> exists L fx, kind t = Some (L, fx) /\ (L <= length r)%nat /\ (fx = true -> length r = L).
Proof.
  intros H. apply wire_decode in H. pose proof (decode_kind t r) as D. destruct (kind t) as [[L fx]|]; [|congruence]. exists L, fx. split; [reflexivity|].
  destruct (Nat.ltb_spec (length r) L); [congruence|]. split; [assumption|]. intros ->. cbn [andb] in D. destruct (Nat.ltb_spec L (length r)); [congruence|lia].
Qed.
Lemma kind_wire t L fx r : kind t = Some (L, fx) -> length r = L -> exists m, core_wire m (t :: r).
Proof.
  intros K LR. pose proof (decode_kind t r) as D. rewrite K, LR, Nat.ltb_irrefl, andb_false_r in D. destruct D as (m & D). exists m. now apply wire_decode.
Qed.
Lemma layout_small m id ints tail : layout m = Some (id, ints, tail) -> id < 256.
Proof. destruct m; cbn [layout]; intros [= <- _ _]; lia. Qed.
Lemma known_kind t : known_type t <-> kind t <> None.
Proof.
  split.
  - intros (m & ints & tail & E) K.
    assert (T : exists r, core_wire m (t :: r)).
    { pose (z := map (fun kn : nat * N => be_bytes (fst kn) (snd kn)) ints).
      assert (E' : t = n2b (b2n t)) by now rewrite n2b_b2n.
      destruct m; cbn [layout] in E; try discriminate E; injection E as E _ _; rewrite E' in K; rewrite <- E in K; discriminate K. }
    destruct T as (r & T). apply wire_kind in T as (L & fx & K' & _). congruence.
  - destruct (kind t) as [[L fx]|] eqn:K; [|congruence]. intros _. destruct (kind_wire t L fx (repeat x00 L) K (repeat_length _ _)) as (m & W).
    unfold core_wire in W. destruct (layout m) as [[[id ints] tail]|] eqn:EL; [|discriminate W]. destruct W as (b & _ & E). injection E as -> _.
    exists m, ints, tail. rewrite b2n_n2b, N.mod_small by (eapply layout_small; exact EL). exact EL.
Qed.
Lemma core_fails f y : core_decode f = Err y <->
  exists t r, f = t :: r /\
   ((y = MUnknown t /\ ~ known_type t) \/
    (y = MLength t Short /\ (forall m', ~ core_wire m' f) /\ exists m x, core_wire m (f ++ x)) \/
    (y = MLength t Long /\ (forall m', ~ core_wire m' f) /\ exists m r1 x, r = r1 ++ x /\ core_wire m (t :: r1))).
Proof.
  assert (NW : forall z, core_decode f = Err z -> forall m', ~ core_wire m' f) by (intros z E m' W; apply wire_decode in W; congruence).
  split.
  - intros E. destruct f as [|t r]; [discriminate E|]. exists t, r. split; [reflexivity|]. specialize (NW _ E).
    pose proof (decode_kind t r) as D. destruct (kind t) as [[L fx]|] eqn:K.
    2:{ left. split; [congruence|]. intros KT. apply known_kind in KT. congruence. }
    right. destruct (Nat.ltb_spec (length r) L) as [H|H].
    + left. split; [congruence|]. split; [exact NW|].
      destruct (kind_wire t L fx (r ++ repeat x00 (L - length r)) K) as (m & W); [rewrite app_length, repeat_length; lia|]. exists m, (repeat x00 (L - length r)). exact W.
    + right. destruct (fx && Nat.ltb L (length r))%bool; [|destruct D; congruence]. split; [congruence|]. split; [exact NW|].
      destruct (kind_wire t L fx (firstn L r) K) as (m & W); [rewrite firstn_length; lia|]. exists m, (firstn L r), (skipn L r). now rewrite firstn_skipn.
  - intros (t & r & -> & C).
    assert (NW' : (forall m', ~ core_wire m' (t :: r)) -> forall m, core_decode (t :: r) <> Ok m) by (intros H m E; apply (H m); now apply wire_decode).
    pose proof (decode_kind t r) as D. destruct C as [(-> & C)|[(-> & N & m & x & W)|(-> & N & m & r1 & x & -> & W)]].
    + destruct (kind t) eqn:K; [|exact D]. exfalso. apply C, known_kind. congruence.
    + cbn [app] in W. apply wire_kind in W as (L & fx & K & LL & LF). rewrite K in D. rewrite app_length in LL, LF.
      destruct (Nat.ltb_spec (length r) L); [exact D|]. destruct fx.
      * specialize (LF eq_refl). cbn [andb] in D. destruct (Nat.ltb_spec L (length r)); [lia|]. destruct D as (m' & D). destruct (NW' N _ D).
      * destruct D as (m' & D). destruct (NW' N _ D).
    + apply wire_kind in W as (L & fx & K & LL & LF). rewrite K in D. destruct (Nat.ltb_spec (length (r1 ++ x)) L) as [H|H]; [rewrite app_length in H; lia|].
      destruct (fx && Nat.ltb L (length (r1 ++ x)))%bool; [exact D|]. destruct D as (m' & D). destruct (NW' N _ D).
Qed.
Lemma eh_err p y : eh_decode p = Err y -> y = MExtHandshake.
Proof. unfold eh_decode. destruct (decode_tree _ p) as [[]|]; try congruence. unfold ok_or. destruct eh_fields; congruence. Qed.
Lemma mm_err p y : mm_decode p = Err y -> y = MMetadata.
Proof. unfold mm_decode. intros H. repeat match type of H with (match ?x with _ => _ end) = _ => destruct x end; congruence. Qed.

Lemma recv_fails f x : recv_event local_reg f = Err x <-> exists y, x = EMessage y /\ garbled f y.
Proof.
  assert (NS : forall z, recv_event local_reg f = Err z -> forall m, ~ frame_says 42 f m) by (intros z E m W; apply recv_says in W; congruence).
  split.
  - intros E. specialize (NS _ E). unfold recv_event, msg_decode in E. destruct (core_decode f) as [c|y] eqn:EC; cbn [res_bind] in E.
    2:{ injection E as <-. exists y. split; [reflexivity|]. apply core_fails in EC as (t & r & EF & [(-> & C)|[(-> & N & m & z & W)|(-> & N & m & r1 & z & EQ & W)]]).
        - eapply ga_type; eauto. - eapply ga_short; eauto. - eapply ga_long; eauto. }
    destruct c; try discriminate E. apply core_decode_ext in EC as [B EF]. destruct (N.eqb_spec msg_id 0) as [->|NZ].
    + destruct (eh_decode payload) as [h|y] eqn:EH; cbn [res_bind] in E; [discriminate|]. injection E as <-. apply eh_err in EH as ->. eexists. split; [reflexivity|].
      apply (ga_shake f payload EF). intros h. apply NS.
    + cbn [reg_for_message_id local_reg from_code get_ext] in E. destruct (N.eqb_spec msg_id 42) as [->|NM].
      * destruct (mm_decode payload) as [h|y] eqn:EH; cbn [res_bind] in E; [discriminate|]. injection E as <-. apply mm_err in EH as ->. eexists. split; [reflexivity|].
        apply (ga_meta f payload EF). intros h. apply NS.
      * injection E as <-. eexists. split; [reflexivity|]. assert (EI : b2n (n2b msg_id) = msg_id) by (rewrite b2n_n2b; now apply N.mod_small).
        rewrite <- EI. apply (ga_ext f _ payload EF); congruence.
  - intros (y & -> & G). unfold recv_event, msg_decode.
    assert (CF : core_decode f = Err y -> (match (let? m := core_decode f in
      match m with Extended id payload => if id =? 0 then let? h := eh_decode payload in Ok (ExtHandshake h) else match reg_for_message_id local_reg id with None => Err (MUnknownExtended id) | Some Metadata => let? mm := mm_decode payload in Ok (Meta mm) end | m => Ok (Core m) end) with Ok m => Ok m | Err e => Err (EMessage e) end) = Err (EMessage y)) by (intros ->; reflexivity).
    assert (EX : forall i p, f = n2b 20 :: i :: p -> core_decode f = Ok (Extended (b2n i) p)) by (intros i p EF; apply core_decode_ext; split; [apply b2n_bound|rewrite n2b_b2n; exact EF]).
    destruct G as [t r EF K|t r m z EF N W|t r m r1 z EF N EQ W|i p EF N0 N42|p EF N|p EF N].
    + apply CF, core_fails. eauto 10.
    + apply CF, core_fails. exists t, r. split; [exact EF|]. right. left. eauto.
    + apply CF, core_fails. exists t, r. split; [exact EF|]. right. right. eauto 10.
    + rewrite (EX _ _ EF). cbn [res_bind]. destruct (N.eqb_spec (b2n i) 0); [lia|]. cbn [reg_for_message_id local_reg from_code get_ext]. destruct (N.eqb_spec (b2n i) 42); [lia|]. reflexivity.
    + rewrite (EX _ _ EF). change (b2n (n2b 0)) with 0. cbn [res_bind N.eqb]. destruct (eh_decode p) as [h|y] eqn:EH; cbn [res_bind]; [|apply eh_err in EH as ->; reflexivity].
      exfalso. apply (N h), recv_says. unfold recv_event, msg_decode. rewrite (EX _ _ EF). change (b2n (n2b 0)) with 0. cbn [res_bind N.eqb]. rewrite EH. reflexivity.
    + rewrite (EX _ _ EF). change (b2n (n2b 42)) with 42. cbn [res_bind N.eqb reg_for_message_id local_reg from_code get_ext Pos.eqb]. destruct (mm_decode p) as [h|y] eqn:EH; cbn [res_bind]; [|apply mm_err in EH as ->; reflexivity].
      exfalso. apply (N h), recv_says. unfold recv_event, msg_decode. rewrite (EX _ _ EF). change (b2n (n2b 42)) with 42. cbn [res_bind N.eqb reg_for_message_id local_reg from_code get_ext Pos.eqb]. rewrite EH. reflexivity.
Qed.

(** ** What can be read next *)
Lemma cut_iff t e x : (exists rem, frames t [] rem /\ end_event (verdict rem e) = Some x) <-> cut t e x.
Proof.
  split.
  - intros (rem & F & E). inversion F as [s U|h s L B|]; subst.
    + destruct e; cbn [verdict] in E.
      * discriminate E.
      * destruct (Nat.eqb_spec (length t) 0) as [Z|Z]; cbn [orb] in E.
        -- cbn [end_event] in E. injection E as <-. apply cut_closed. now destruct t.
        -- destruct (Nat.eqb_spec (length t) 4) as [Q|Q]; cbn [end_event] in E; injection E as <-.
           ++ destruct U as [U|(h & r & -> & L & B & U)]; [lia|]. rewrite app_length in Q. destruct r; [|cbn [length] in Q; lia]. rewrite app_nil_r in *. apply cut_header; [exact L|]. cbn in U. lia.
           ++ apply cut_within; [exact U| |exact Q]. intros ->. now apply Z.
      * cbn [end_event] in E. injection E as <-. now apply cut_broken.
    + cbn in E. injection E as <-. eapply cut_long; eauto.
  - intros C. destruct C as [T|LT B|U N L4|U|e h r T L B].
    + subst t. exists (Unfinished []). split; [constructor; left; cbn; lia|reflexivity].
    + exists (Unfinished t). split; [constructor; right; exists t, []; rewrite app_nil_r; cbn; repeat split; auto; lia|]. cbn [verdict]. rewrite LT. reflexivity.
    + exists (Unfinished t). split; [now constructor|]. cbn [verdict]. destruct (Nat.eqb_spec (length t) 0) as [Z|Z]; [destruct t; [congruence|discriminate Z]|]. destruct (Nat.eqb_spec (length t) 4); [congruence|]. reflexivity.
    + exists (Unfinished t). split; [now constructor|reflexivity].
    + subst t. exists TooLong. split; [now constructor|destruct e; reflexivity].
Qed.
(** The events a stream [t] amounts to. *)
Definition evs (t : bytes) (e : ending) (l : list event) : Prop := exists fs rem, frames t fs rem /\ l = events fs (verdict rem e).
Lemma evs_fun t e l l' : evs t e l -> evs t e l' -> l = l'.
Proof. intros (fs & rem & F & ->) (fs' & rem' & F' & ->). destruct (frames_fun _ _ _ F _ _ F') as [-> ->]. reflexivity. Qed.
Lemma frames_any t : exists fs rem, frames t fs rem.
Proof.
  destruct (framed_all_spec Closed (S (length t)) Head [] [t] I) as (rem & F & _); [unfold total; cbn; rewrite app_nil_r; lia|].
  unfold total in F. cbn [pending app concat] in F. rewrite app_nil_r in F. eauto.
Qed.
Lemma evs_any t e : exists l, evs t e l.
Proof. destruct (frames_any t) as (fs & rem & F). eexists. exists fs, rem. eauto. Qed.
Lemma next_frames t f rest fs rem : next_frame t f rest -> frames rest fs rem -> frames t (f :: fs) rem.
Proof. intros (w & -> & h & -> & L & B & M) F. rewrite <- app_assoc. now constructor. Qed.
Lemma evs_frame t f rest e l : next_frame t f rest -> evs rest e l -> evs t e (recv_event local_reg f :: l).
Proof. intros NF (fs & rem & F & ->). exists (f :: fs), rem. split; [eapply next_frames; eauto|reflexivity]. Qed.
Lemma evs_message t m u e l : next_message t m u -> evs u e l -> evs t e (Ok m :: l).
Proof. intros (f & NF & S) E. apply recv_says in S. rewrite <- S. eapply evs_frame; eauto. Qed.
Lemma evs_messages t ms u e l : messages t ms u -> evs u e l -> evs t e (map Ok ms ++ l).
Proof. induction 1 as [|t m v ms u NM _ IH]; [auto|]. intros E. cbn [map app]. eapply evs_message; eauto. Qed.
Lemma evs_none t e x : no_message t e x -> exists l, evs t e (Err x :: l).
Proof.
  intros [x' C|f rest y NF G].
  - apply cut_iff in C as (rem & F & E). exists [], [], rem. split; [exact F|]. unfold events. rewrite E. reflexivity.
  - destruct (evs_any rest e) as (l & E). exists l. assert (R : recv_event local_reg f = Err (EMessage y)) by (apply recv_fails; eauto). rewrite <- R. eapply evs_frame; eauto.
Qed.
Lemma evs_inv t e l : evs t e l ->
  l = [] \/ (exists x l', l = Err x :: l' /\ no_message t e x) \/ exists m u l', l = Ok m :: l' /\ next_message t m u /\ evs u e l'.
Proof.
  intros (fs & rem & F & ->). inversion F as [s U|h s L B|h b s fs' r L B M F']; subst.
  - unfold events. cbn [map app]. destruct (end_event _) as [x|] eqn:E; [|auto]. right. left. exists x, []. split; [reflexivity|]. apply nm_cut, cut_iff. eauto.
  - unfold events. cbn [map app]. destruct (end_event _) as [x|] eqn:E; [|auto]. right. left. exists x, []. split; [reflexivity|]. apply nm_cut, cut_iff. eauto.
  - right. assert (NF : next_frame (h ++ b ++ s) b s) by (exists (h ++ b); split; [now rewrite app_assoc|exists h; auto]).
    unfold events. cbn [map app]. destruct (recv_event local_reg b) as [m|x] eqn:R.
    + right. exists m, s. eexists. split; [reflexivity|]. split; [exists b; split; [exact NF|now apply recv_says]|]. exists fs', rem. auto.
    + left. exists x. eexists. split; [reflexivity|]. apply recv_fails in R as (y & -> & G). eapply nm_garbled; eauto.
Qed.

(** ** The exchange *)
Definition bld (ih : bytes) (n k : N) (d : bytes) : builder := mkB ih d d (sizes_of n) k (pieces n).
Definition at_piece (ih : bytes) (n k : N) (d : bytes) : fetch := fst (fetch_next n (bld ih n k d)).
Lemma at_waiting ih n k d : 16384 * k < n -> fetch_next n (bld ih n k d) = (Waiting n (bld ih n k d) k, [Meta (MRequest k)]).
Proof. intros L. unfold fetch_next, builder_next. cbn [bld b_next b_qty]. destruct (N.ltb_spec k (pieces n)) as [|H]; [reflexivity|]. apply lt_pieces in L. lia. Qed.
Lemma at_end ih n k d : n <= 16384 * k ->
  at_piece ih n k d = Finished (match builder_build (bld ih n k d) with Ok i => Ok i | Err x => Err (InfoBuild x) end).
Proof.
  intros L. unfold at_piece, fetch_next, builder_next. cbn [bld b_next b_qty]. destruct (N.ltb_spec k (pieces n)) as [H|_]; [apply lt_pieces in H; lia|].
  fold (bld ih n k d). destruct builder_build; reflexivity.
Qed.
Lemma run_step size b i ev l : fst (fetch_run (Waiting size b i) (ev :: l)) = fst (fetch_run (fst (fetch_step (Waiting size b i) ev)) l).
Proof. cbn [fetch_run]. destruct (fetch_step _ ev) as [st1 out]. cbn [fst]. destruct (fetch_run st1 l). reflexivity. Qed.
Lemma run_finished x l : fst (fetch_run (Finished x) l) = Finished x.
Proof. destruct l; reflexivity. Qed.
Lemma step_harmless size b i m : harmless m -> fst (fetch_step (Waiting size b i) (Ok m)) = Waiting size b i.
Proof. intros H. destruct H; reflexivity. Qed.
Lemma push_bld ih n k d p : 16384 * k < n ->
  builder_push (bld ih n k d) p = Ret (if blen p =? N.min 16384 (n - 16384 * k) then (Ok tt, bld ih n (k + 1) (d ++ p))
    else (Err (PushLength k (N.min 16384 (n - 16384 * k)) (blen p)), bld ih n (k + 1) d)).
Proof.
  intros L. unfold builder_push. cbn [bld b_next b_qty b_sizes b_hash b_fed b_data]. apply lt_pieces in L as L'. destruct (N.ltb_spec k (pieces n)); [|lia].
  rewrite sizes_nth by assumption. destruct (_ =? _); reflexivity.
Qed.
Lemma run_delivered ih n k d ms : delivered n k d ms -> forall l, fst (fetch_run (at_piece ih n 0 []) (map Ok ms ++ l)) = fst (fetch_run (at_piece ih n k d) l).
Proof.
  induction 1 as [|k d ms m _ IH L H|k d ms p _ IH L B]; intros l; [reflexivity|..]; rewrite map_app, <- app_assoc, IH; cbn [map app]; unfold at_piece at 1; rewrite (at_waiting ih n k d L); cbn [fst]; rewrite run_step.
  - rewrite step_harmless by exact H. unfold at_piece. rewrite (at_waiting ih n k d L). reflexivity.
  - cbn [fetch_step]. rewrite !N.eqb_refl. cbn [negb]. rewrite push_bld by exact L. apply N.eqb_eq in B. rewrite B. reflexivity.
Qed.
Lemma harmless_ignorable c : harmless (Core c) -> msg_ignorable (Core c) = true.
Proof. inversion 1; reflexivity. Qed.
Lemma step_refused ih n k d m x : 16384 * k < n -> (fst (fetch_step (Waiting n (bld ih n k d) k) (Ok m)) = Finished (Err x) /\
    (forall p, blen p = N.min 16384 (n - 16384 * k) -> m <> Meta (MData k n p))) <-> refused n k m x.
Proof.
  intros L. split.
  - intros [E NP]. cbn [fetch_step] in E. destruct m as [c|h|[p|p t pl|p|ty]].
    + destruct (msg_ignorable (Core c)) eqn:EI; cbn [fst] in E; [discriminate|]. injection E as <-. apply rf_message; try congruence. intros H. apply harmless_ignorable in H. congruence.
    + discriminate E.
    + discriminate E.
    + destruct (N.eqb_spec t n) as [->|NT]; cbn [negb fst] in E; [|injection E as <-; now constructor].
      destruct (N.eqb_spec p k) as [->|NK]; cbn [negb fst] in E; [|injection E as <-; now constructor].
      rewrite push_bld in E by exact L. destruct (N.eqb_spec (blen pl) (N.min 16384 (n - 16384 * k))) as [EB|NB]; [destruct (NP _ EB eq_refl)|]. cbn [fst] in E. injection E as <-. now constructor.
    + destruct (N.eqb_spec p k) as [->|NK]; cbn [negb fst] in E; injection E as <-; now constructor.
    + discriminate E.
  - intros R. destruct R as [p t pl NT|p pl NK|pl NB|p NK| |m NH ND NR]; cbn [fetch_step]; rewrite ?N.eqb_refl; cbn [negb]; try (split; [|intros; congruence]).
    + apply N.eqb_neq in NT. rewrite NT. reflexivity.
    + apply N.eqb_neq in NK. rewrite NK. reflexivity.
    + rewrite push_bld by exact L. apply N.eqb_neq in NB. rewrite NB. reflexivity.
    + apply N.eqb_neq in NK. rewrite NK. reflexivity.
    + reflexivity.
    + destruct m as [c|h|[p|p t pl|p|ty]]; try (now destruct NH; constructor); try (now destruct (ND _ _ _ eq_refl)); try (now destruct (NR _ eq_refl)).
      destruct (msg_ignorable (Core c)) eqn:EI; [destruct NH; now apply ignorable_harmless|]. reflexivity.
Qed.
Lemma string_head s : exists c r, encode (VBytes s) = c :: r /\ is_digit c = true.
Proof. exact (encode_bytes_head s). Qed.
Lemma dict_fails d y : check_bencode_dict d = Err y <-> not_dict d y.
Proof.
  assert (IH' : forall c r, d = c :: r -> is_digit c = true -> c <> "d"%byte /\ c <> "l"%byte /\ c <> "i"%byte) by (intros c r _ H; repeat split; intros ->; discriminate H).
  assert (INT : forall z x, d = encode (VInt z) ++ x -> check_bencode_dict d = Err DNotADict).
  { intros z x ->. cbn [encode app]. unfold check_bencode_dict. change (Byte.eqb "i" "d") with false. change (Byte.eqb "i" "l") with false. change (Byte.eqb "i" "i") with true. cbv iota.
    rewrite <- app_assoc. cbn [app]. rewrite take_int_dec. reflexivity. }
  assert (STR : forall s x, d = encode (VBytes s) ++ x -> check_bencode_dict d = Err DNotADict).
  { intros s x E. pose proof (take_string_enc s x) as T. change (encode_bytes s) with (encode (VBytes s)) in T. rewrite <- E in T. destruct (string_head s) as (c & r & EC & DG). rewrite EC in E. cbn [app] in E.
    destruct (IH' _ _ E DG) as (N1 & N2 & N3). unfold check_bencode_dict. rewrite E in *. destruct (beqb_spec c "d"); [congruence|]. destruct (beqb_spec c "l"); [congruence|]. destruct (beqb_spec c "i"); [congruence|]. rewrite DG, T. reflexivity. }
  split.
  - intros E. unfold check_bencode_dict in E. destruct d as [|c r]; [injection E as <-; now constructor|].
    assert (HD : forall l x, c :: r = encode (VDict l) ++ x -> c = "d"%byte) by (intros l x; cbn [encode app]; congruence).
    assert (HI : forall z x, c :: r = encode (VInt z) ++ x -> c = "i"%byte) by (intros l x; cbn [encode app]; congruence).
    assert (HS : forall s x, c :: r = encode (VBytes s) ++ x -> is_digit c = true).
    { intros s x. destruct (string_head s) as (c' & r' & -> & DG). cbn [app]. intros [= -> _]. exact DG. }
    destruct (beqb_spec c "d") as [->|ND].
    + assert (SYN : forall y, (forall l x, "d"%byte :: r = encode (VDict l) ++ x -> canonical (VDict l) -> ~ (depth (VDict l) <= 2048)%nat) -> DSyntax = y -> not_dict ("d"%byte :: r) y).
      { intros y' H <-. apply nd_syntax; try congruence; try exact H; intros z x Q; [apply HI in Q|apply HS in Q]; discriminate Q. }
      destruct (parse DEFAULT_MAX_DEPTH _) as [[v [|c' r']]|] eqn:P; [discriminate| |].
      * injection E as <-. apply parse_sound in P as (P & C & DP). destruct v as [z|s|l|l]; try (now cbn [encode app] in P).
        -- apply HS in P. discriminate P.
        -- eapply nd_trailing; eauto. discriminate.
      * injection E as <-. apply SYN; [|reflexivity]. intros l x Q C DP. rewrite Q, parse_complete in P; [discriminate P|exact C|exact DP].
    + assert (SYN : (forall r', c :: r <> "l"%byte :: r') -> (forall z x, c :: r <> encode (VInt z) ++ x) -> (forall s x, c :: r <> encode (VBytes s) ++ x) -> not_dict (c :: r) DSyntax).
      { intros. apply nd_syntax; auto; try congruence. intros l x Q. apply HD in Q. congruence. }
      destruct (beqb_spec c "l") as [->|NL]; [injection E as <-; eapply nd_list; reflexivity|].
      destruct (beqb_spec c "i") as [->|NI].
      * destruct (take_int r) as [[z x]|] eqn:T; injection E as <-.
        -- apply take_int_sound in T as ->. apply (nd_int _ z x). cbn [encode app]. now rewrite <- app_assoc.
        -- apply SYN; [congruence| |].
           ++ intros z x Q. cbn [encode app] in Q. injection Q as Q. rewrite Q, <- app_assoc in T. cbn [app] in T. rewrite take_int_dec in T. discriminate T.
           ++ intros s x Q. apply HS in Q. discriminate Q.
      * destruct (is_digit c) eqn:DG.
        -- destruct (take_string (c :: r)) as [[s x]|] eqn:T; injection E as <-.
           ++ apply take_string_sound in T. eapply nd_string. exact T.
           ++ apply SYN; [congruence| |].
              ** intros z x Q. apply HI in Q. congruence.
              ** intros s x Q. cbn [encode] in Q. rewrite Q, take_string_enc in T. discriminate T.
        -- injection E as <-. apply SYN; [congruence| |].
           ++ intros z x Q. apply HI in Q. congruence.
           ++ intros s x Q. apply HS in Q. congruence.
  - intros N. destruct N as [E|l x E NX C DP|r E|z x E|s x E|NE ND NL NI NS].
    + rewrite E. reflexivity.
    + rewrite E. unfold check_bencode_dict. pose proof (parse_complete DEFAULT_MAX_DEPTH (VDict l) x C DP) as P. cbn [encode app] in *. change (Byte.eqb "d" "d") with true. cbv iota. rewrite P. now destruct x.
    + rewrite E. reflexivity.
    + eapply INT; exact E.
    + eapply STR; exact E.
    + clear INT STR IH'. destruct (check_bencode_dict d) as [[]|y'] eqn:CH.
      * apply check_bencode_dict_iff in CH as (l & -> & C & DP). exfalso. apply (ND l []); auto. now rewrite app_nil_r.
      * unfold check_bencode_dict in CH. destruct d as [|c r]; [congruence|].
        destruct (beqb_spec c "d") as [->|_].
        -- destruct (parse DEFAULT_MAX_DEPTH _) as [[v [|c' r']]|] eqn:P; [discriminate| |congruence]. apply parse_sound in P as (P & C & DP). destruct v as [z|s|l|l].
           ++ destruct (NI _ _ P). ++ destruct (NS _ _ P). ++ discriminate P. ++ destruct (ND _ _ P C DP).
        -- destruct (beqb_spec c "l") as [->|_]; [now destruct (NL r)|]. destruct (beqb_spec c "i") as [->|_].
           ++ destruct (take_int r) as [[z x]|] eqn:T; [|congruence]. apply take_int_sound in T. exfalso. apply (NI z x). cbn [encode app]. rewrite <- app_assoc. now rewrite T.
           ++ destruct (is_digit c); [|congruence]. destruct (take_string (c :: r)) as [[s x]|] eqn:T; [|congruence]. apply take_string_sound in T. now destruct (NS s x).
Qed.
Lemma build_fails ih n k d x : n <= 16384 * k -> (builder_build (bld ih n k d) = Err x <-> bad_metadata ih d x).
Proof.
  intros L. unfold builder_build. cbn [bld b_qty b_next b_fed b_hash b_data].
  assert (Z : pieces n - k = 0). { assert (~ k < pieces n) by (rewrite lt_pieces; lia). lia. } rewrite Z. cbn [N.ltb N.compare].
  destruct (bytes_eqb_spec (sha1 d) ih) as [EQ|NE]; cbn [negb].
  - destruct (check_bencode_dict d) as [[]|y] eqn:C.
    + split; [discriminate|]. intros [H|y _ H]; [congruence|]. apply dict_fails in H. congruence.
    + split; [intros [= <-]; apply bm_dict; [exact EQ|now apply dict_fails]|]. intros [H|y' _ H]; [congruence|]. apply dict_fails in H. congruence.
  - split; [intros [= <-]; now apply bm_digest|]. intros [H|y H _]; [reflexivity|congruence].
Qed.
(** Why the exchange after the handshakes fails. *)
Inductive fetch_failure (ih : bytes) (t : bytes) (e : ending) : option N -> peer_error -> Prop :=
| ff_size : fetch_failure ih t e None NoMetadataSize
| ff_large n : 20971520 < n -> fetch_failure ih t e (Some n) (InfoConstruct (TooLarge n))
| ff_message n k d ms u x : n <= 20971520 -> messages t ms u -> delivered n k d ms -> 16384 * k < n -> no_message u e x -> fetch_failure ih t e (Some n) x
| ff_refused n k d ms u m v x : n <= 20971520 -> messages t ms u -> delivered n k d ms -> 16384 * k < n -> next_message u m v -> refused n k m x -> fetch_failure ih t e (Some n) x
| ff_build n k d ms u x : n <= 20971520 -> messages t ms u -> delivered n k d ms -> n <= 16384 * k -> bad_metadata ih d x -> fetch_failure ih t e (Some n) (InfoBuild x).
Lemma messages_snoc t ms u m v : messages t ms u -> next_message u m v -> messages t (ms ++ [m]) v.
Proof. induction 1 as [|t m' w ms u NM _ IH]; intros H; cbn [app]; [econstructor; [exact H|constructor]|]. econstructor; [exact NM|auto]. Qed.
Lemma run_fails ih n t e x : n <= 20971520 -> forall l k d ms u, messages t ms u -> delivered n k d ms -> evs u e l ->
  fst (fetch_run (at_piece ih n k d) l) = Finished (Err x) -> fetch_failure ih t e (Some n) x.
Proof.
  intros LN. induction l as [|ev l IH]; intros k d ms u MS DE EV R; (destruct (N.lt_ge_cases (16384 * k) n) as [L|L];
    [|rewrite at_end, run_finished in R by exact L; destruct (builder_build _) as [|y] eqn:B; [discriminate R|]; injection R as <-; apply build_fails in B; [|exact L]; eapply ff_build; eauto]);
    unfold at_piece in R; rewrite (at_waiting ih n k d L) in R; cbn [fst] in R.
  - discriminate R.
  - rewrite run_step in R. destruct (evs_inv _ _ _ EV) as [Q|[(y & l' & Q & NM)|(m & v & l' & Q & NM & EV')]]; [discriminate Q|injection Q as -> <-..].
    + cbn [fetch_step fst] in R. rewrite run_finished in R. injection R as ->. eapply ff_message; eauto.
    + assert (DH : harmless m \/ (exists p, m = Meta (MData k n p) /\ blen p = N.min 16384 (n - 16384 * k)) \/ exists y, refused n k m y).
      { destruct m as [c|h|[p|p tt pl|p|ty]]; try (left; constructor; fail).
        - destruct (msg_ignorable (Core c)) eqn:EI; [left; now apply ignorable_harmless|]. right. right. eexists. apply rf_message; try congruence. intros H. apply harmless_ignorable in H. congruence.
        - destruct (N.eq_dec tt n) as [->|NT]; [|right; right; eexists; now constructor]. destruct (N.eq_dec p k) as [->|NK]; [|right; right; eexists; now constructor].
          destruct (N.eq_dec (blen pl) (N.min 16384 (n - 16384 * k))) as [EB|NB]; [|right; right; eexists; now constructor]. right. left. eauto.
        - destruct (N.eq_dec p k) as [->|NK]; right; right; eexists; now constructor. }
      destruct DH as [H|[(p & -> & B)|(y & RF)]].
      * rewrite step_harmless in R by exact H. eapply (IH k d (ms ++ [m]) v); [eapply messages_snoc; eauto|now apply de_other|exact EV'|]. unfold at_piece. rewrite (at_waiting ih n k d L). exact R.
      * cbn [fetch_step] in R. rewrite !N.eqb_refl in R. cbn [negb] in R. rewrite push_bld in R by exact L. apply N.eqb_eq in B as B'. rewrite B' in R.
        eapply (IH (k + 1) (d ++ p)); [eapply messages_snoc; eauto|now apply de_piece|exact EV'|exact R].
      * pose proof RF as RF'. apply (step_refused ih n k d) in RF' as [ST _]; [|exact L]. rewrite ST, run_finished in R. injection R as ->. eapply ff_refused; eauto.
Qed.
Lemma start_large ih n l : 20971520 < n -> fst (get_metadata_info ih (Some n) l) = Finished (Err (InfoConstruct (TooLarge n))).
Proof. intros H. unfold get_metadata_info, fetch_start. rewrite builder_new_big by exact H. destruct l; reflexivity. Qed.
Lemma start_fits ih n l : n <= 20971520 -> fst (get_metadata_info ih (Some n) l) = fst (fetch_run (at_piece ih n 0 []) l).
Proof.
  intros H. unfold get_metadata_info, fetch_start. rewrite builder_new_eq by exact H. fold (bld ih n 0 []). unfold at_piece. destruct (fetch_next n (bld ih n 0 [])) as [st out]. cbn [fst].
  destruct (fetch_run st l). reflexivity.
Qed.
Lemma fetch_fails ih size t e l x : evs t e l -> (fst (get_metadata_info ih size l) = Finished (Err x) <-> fetch_failure ih t e size x).
Proof.
  intros EV. split.
  - destruct size as [n|]; [|destruct l; cbn; intros [= <-]; constructor]. destruct (N.le_gt_cases n 20971520) as [H|H].
    + rewrite start_fits by exact H. intros R. eapply (run_fails ih n t e x H l 0 [] [] t); [constructor|constructor|exact EV|exact R].
    + rewrite start_large by exact H. intros [= <-]. now constructor.
  - intros F. destruct F as [|n H|n k d ms u x H MS DE L NM|n k d ms u m v x H MS DE L NM RF|n k d ms u x H MS DE L B].
    + destruct l; reflexivity.
    + now apply start_large.
    + rewrite start_fits by exact H. apply evs_none in NM as (l' & E'). rewrite (evs_fun _ _ _ _ EV (evs_messages _ _ _ _ _ MS E')).
      rewrite (run_delivered ih n k d ms DE). unfold at_piece. rewrite (at_waiting ih n k d L). cbn [fst]. rewrite run_step. cbn [fetch_step fst]. apply run_finished.
    + rewrite start_fits by exact H. destruct (evs_any v e) as (l' & E'). rewrite (evs_fun _ _ _ _ EV (evs_messages _ _ _ _ _ MS (evs_message _ _ _ _ _ NM E'))).
      rewrite (run_delivered ih n k d ms DE). unfold at_piece. rewrite (at_waiting ih n k d L). cbn [fst]. rewrite run_step.
      apply (step_refused ih n k d) in RF as [-> _]; [|exact L]. apply run_finished.
    + rewrite start_fits by exact H. destruct (evs_any u e) as (l' & E'). rewrite (evs_fun _ _ _ _ EV (evs_messages _ _ _ _ _ MS E')).
      rewrite (run_delivered ih n k d ms DE), at_end, run_finished by exact L. apply (build_fails ih n k d) in B; [|exact L]. rewrite B. reflexivity.
Qed.

(** ** Connecting *)
Lemma handshake_fails h y : length h = 68%nat -> (handshake_decode h = Err y <-> y = InvalidHeader /\ forall ih r, ~ hello ih r h).
Proof.
  intros L. assert (D : (exists v, handshake_decode h = Ok v) \/ handshake_decode h = Err InvalidHeader).
  { unfold handshake_decode, try_get_uint, try_get_bytes. rewrite L. cbn [Nat.leb res_map_err res_bind]. destruct (bytes_eqb _ HANDSHAKE_HEADER); cbn [negb]; [|now right].
    rewrite !skipn_length, L. cbn [Nat.leb Nat.sub res_map_err res_bind]. rewrite ?skipn_length, ?L. cbn [Nat.leb Nat.sub res_map_err res_bind]. rewrite ?skipn_length, ?L. cbn [Nat.leb Nat.sub res_map_err res_bind].
    rewrite eof_cases, !skipn_length, L. cbn. eauto. }
  split.
  - intros E. split; [destruct D as [(v & D)|D]; congruence|]. intros ih r H. apply hello_decode in H as (_ & pid & H). congruence.
  - intros (-> & N). destruct D as [(v & D)|D]; [|exact D]. apply handshake_decode_iff in D. destruct v. apply hello_wire in D as (r & H & _). destruct (N _ _ H).
Qed.
Lemma next_first t f rest e : next_frame t f rest -> forall r, concat r = t -> exists st b r', framed_next Head [] r e = (Frame f, st, b, r') /\ st = Head /\ total Head b r' = rest.
Proof. intros (w & -> & F) r E. eapply frame_first; eauto. Qed.
Lemma next_cut t e x : cut t e x -> forall r, concat r = t -> exists q st b r', framed_next Head [] r e = (q, st, b, r') /\ (forall f, q <> Frame f) /\ end_event q = Some x.
Proof.
  intros C r E. apply cut_iff in C as (rem & F & V). pose proof (framed_next_spec e r Head [] I) as FN. assert (ET : total Head [] r = t) by exact E.
  destruct (framed_next Head [] r e) as [[[q st] b] r']. exists q, st, b, r'. split; [reflexivity|].
  assert (D : (exists f', q = Frame f') \/ (forall f', q <> Frame f')) by (destruct q; eauto; right; congruence).
  destruct D as [(f' & ->)|N].
  - exfalso. destruct FN as (-> & hd & EH & L & B & M). assert (F2 : exists fs rem2, frames t (f' :: fs) rem2).
    { destruct (frames_any (total Head b r')) as (fs & rem2 & F2). exists fs, rem2. rewrite <- ET, EH. now constructor. }
    destruct F2 as (fs & rem2 & F2). now destruct (frames_fun _ _ _ F _ _ F2).
  - split; [exact N|]. assert (FN' : exists rem', frames (total Head [] r) [] rem' /\ q = verdict rem' e) by (destruct q; auto; now destruct (N f)).
    destruct FN' as (rem' & F' & ->). rewrite ET in F'. destruct (frames_fun _ _ _ F _ _ F') as [_ <-]. exact V.
Qed.
Lemma from_m_err m : forall r y, NoDup (map fst m) -> (In (bs "ut_metadata") (map fst m) -> r = reg_new) -> reg_from_m_go m r = Err y -> y = RHandshake.
Proof.
  induction m as [|[k v] m IH]; intros r y ND HN; cbn [reg_from_m_go]; [discriminate|]. cbn [map fst] in *. inversion ND as [|? ? NI ND']; subst.
  unfold ext_of_name. destruct (bytes_eqb_spec k (bs "ut_metadata")) as [->|NK].
  - rewrite HN by now left. unfold reg_register. destruct (v =? 0); cbn [res_bind]; [congruence|]. cbn [reg_for_message_id reg_get_message_id reg_new from_code to_code get_ext get_code res_bind].
    apply IH; [exact ND'|]. intros H. destruct (NI H).
  - apply IH; [exact ND'|]. intros H. apply HN. now right.
Qed.
Lemma shake_zero id f h : frame_says id f (ExtHandshake h) -> match eh_registry h with Err y => y = RHandshake /\ offers h 0 | Ok _ => ~ offers h 0 end.
Proof.
  intros FS. destruct (shake_registry _ _ _ FS) as [_ HR]. destruct (eh_registry h) as [r|y] eqn:E.
  - destruct HR as [RR RO]. intros H. apply RO in H. apply registered_inverse in RR as [_ RB]. apply RB in H. lia.
  - split; [|exact HR]. unfold eh_registry in E. destruct (eh_m h) as [m|] eqn:EM; [|discriminate E]. eapply from_m_err; [| |exact E]; [|auto].
    destruct FS as (d & _ & C & _ & (_ & HM & _)). rewrite EM in HM. unfold field in HM. destruct (lookup (bs "m") d) as [v|] eqn:EL; [|destruct HM]. destruct HM as (d' & -> & F2).
    assert (C' : canonical (VDict d')).
    { destruct C as [_ C]. clear -C EL. revert C EL. induction d as [|[k x] d IH]; cbn [lookup]; [discriminate|].
      cbn [fold_right snd]. intros [C1 C2]. destruct (bytes_eqb (bs "m") k); [intros [= ->]; exact C1|auto]. }
    assert (EK : map fst m = map fst d').
    { clear -F2. induction F2 as [|x y' l l' (Q & _) _ IH]; cbn [map]; congruence. }
    rewrite EK. apply ascending_nodup, C'.
Qed.
Lemma read_hello reads e h t : concat reads = h ++ t -> length h = 68%nat -> exists r1, read_exact 68 [] reads e = RDone h r1 /\ concat r1 = t.
Proof.
  intros EC L68. pose proof (read_exact_spec e reads 68 []) as R.
  destruct (read_exact 68 [] reads e) as [buf r1| |]; [|destruct R as [R _]; rewrite EC, app_length in R; lia..].
  destruct R as (x & EB & LX & ER). cbn [app] in EB. subst x. rewrite EC in ER. apply app_len_inj in ER as [-> ER]; [|congruence]. eauto.
Qed.
Lemma connect_fails ih pid i reads e x : length ih = 20%nat -> length pid = 20%nat -> wf_ip i ->
  (snd (connect ih pid i reads e) = SDone (Err x) <-> no_connection ih (concat reads) e x).
Proof.
  intros L1 L2 W. split.
  - unfold connect. set (h0 := handshake_bytes _).
    pose proof (read_exact_spec e reads 68 []) as R. destruct (read_exact 68 [] reads e) as [buf r1| |]; cbn [snd].
    2:{ intros [= <-]. destruct R. now apply nc_short. }
    2:{ discriminate. }
    destruct R as (x0 & EB & LX & EC). cbn [app] in EB. subst x0.
    destruct (handshake_decode buf) as [h|y] eqn:EH.
    2:{ cbn [snd]. intros [= <-]. apply handshake_fails in EH as [-> N]; [|exact LX]. eapply nc_header; eauto. }
    apply handshake_decode_iff in EH. destruct h as [ext hash hpid]. cbn [hs_hash hs_ext].
    destruct (hello_wire _ _ _ _ EH) as (reserved & HH & EX & LR). subst ext.
    destruct (bytes_eqb_spec hash ih) as [EQ|NE]; cbn [negb].
    2:{ cbn [snd]. intros [= <-]. eapply nc_hash; eauto. }
    subst hash. destruct (ext_has _ Bep10) eqn:EB; cbn [negb].
    2:{ cbn [snd]. intros [= <-]. eapply nc_bep10; eauto. intros A. apply nego in A; [congruence|auto|left; reflexivity]. }
    apply nego in EB; [|auto|left; reflexivity]. rewrite local_registry_eq.
    change (mkEH None (Some (reg_to_m local_reg)) (Some CLIENT) None (Some i)) with (our_shake i).
    destruct (shake_send i W) as (w & f & ES & _). rewrite ES.
    pose proof (framed_next_spec e r1 Head [] I) as FN. destruct (framed_next Head [] r1 e) as [[[q st] buf'] r2]. assert (ET : total Head [] r1 = concat r1) by reflexivity. rewrite ET in FN.
    assert (D : (exists f', q = Frame f') \/ (forall f', q <> Frame f')) by (destruct q; eauto; right; congruence).
    destruct D as [(f0 & ->)|N].
    + destruct FN as (-> & hd & EF & LH & BH & MH).
      assert (NF : next_frame (concat r1) f0 (total Head buf' r2)) by (exists (hd ++ f0); split; [rewrite EF; now rewrite app_assoc|exists hd; auto]).
      destruct (recv_event local_reg f0) as [m|y] eqn:ER.
      2:{ cbn [snd]. intros [= <-]. apply recv_fails in ER as (y' & -> & G). eapply nc_message; eauto. eapply nm_garbled; eauto. }
      apply recv_says in ER.
      assert (NE' : next_message (concat r1) m (total Head buf' r2)) by (exists f0; auto).
      destruct m as [m|their|mm]; [cbn [snd]; intros [= <-]; eapply nc_other; eauto; congruence| |cbn [snd]; intros [= <-]; eapply nc_other; eauto; congruence].
      pose proof (shake_zero _ _ _ ER) as SZ. destruct (shake_registry _ _ _ ER) as [HS HR]. destruct (eh_registry their) as [remote|y].
      2:{ cbn [snd]. intros [= <-]. destruct SZ as [-> SZ]. eapply nc_zero; eauto. }
      destruct HR as [RR RO]. unfold reg_contains. destruct (reg_get_message_id remote Metadata) as [code|] eqn:EG; cbn [negb].
      2:{ cbn [snd]. intros [= <-]. eapply nc_none; eauto. intros c O. apply RO in O. congruence. }
      destruct (ext_has _ Fast); [destruct (havenone_ok remote) as (b2 & f2 & E2 & _); rewrite E2|]; cbn [snd]; discriminate.
    + intros E. assert (E' : end_event q = Some x). { destruct q as [f0| | |]; [now destruct (N f0)|..]; cbn [snd end_event] in *; congruence. }
      assert (FN' : exists rem, frames (concat r1) [] rem /\ q = verdict rem e) by (destruct q; auto; now destruct (N f0)).
      eapply nc_message; eauto. apply nm_cut, cut_iff. destruct FN' as (rem & F & ->). eauto.
  - assert (GO : forall r h t, concat reads = h ++ t -> hello ih r h -> advertises r Bep10 ->
      exists r1 exts out, concat r1 = t /\ forall k, (k = match framed_next Head [] r1 e with
                      | (Frame f, st, buf', reads2) =>
                          match recv_event local_reg f with
                          | Err x => (out, SDone (Err x))
                          | Ok (ExtHandshake their) =>
                              match eh_registry their with
                              | Err x => (out, SDone (Err (ERegistry x)))
                              | Ok remote =>
                                  if negb (reg_contains remote Metadata) then (out, SDone (Err NoMetadataExt))
                                  else
                                    let c := mkConn local_reg remote exts (eh_size their) st buf' reads2 in
                                    if ext_has exts Fast then
                                      match channel_send remote (Core HaveNone) with
                                      | Panic => (out, SPanicked)
                                      | Ret (Err x) => (out, SDone (Err x))
                                      | Ret (Ok b2) => (out ++ [b2], SDone (Ok c))
                                      end
                                    else (out, SDone (Ok c))
                              end
                          | Ok _ => (out, SDone (Err NoExtendedHandshake))
                          end
                      | (r, _, _, _) =>
                          (out, match end_event r with Some x => SDone (Err x) | None => SWaiting end)
                      end) -> connect ih pid i reads e = k).
    { intros r h t EC HH HB. destruct (hello_decode _ _ _ HH) as (L68 & hpid & HD). destruct (read_hello reads e h t EC L68) as (r1 & RE & E1).
      destruct (shake_send i W) as (w & f & ES & _). assert (LR : length r = 8%nat) by (destruct HH as (? & _ & ? & _); auto).
      eexists r1, _, _. split; [exact E1|]. intros k ->. unfold connect. rewrite RE, HD. cbn [hs_hash hs_ext]. rewrite bytes_eqb_refl. cbn [negb].
      rewrite (proj2 (nego r Bep10 LR ltac:(left; reflexivity)) HB). cbn [negb]. rewrite local_registry_eq.
      change (mkEH None (Some (reg_to_m local_reg)) (Some CLIENT) None (Some i)) with (our_shake i). rewrite ES. reflexivity. }
    intros F. destruct F as [SH NS|h t EC L68 NH|ih' r h t EC HH NE|r h t EC HH NB|r h t x EC HH HB NM|r h t m rest EC HH HB (f & NF & FS) NO|r h t k rest EC HH HB (f & NF & FS) HO|r h t k rest EC HH HB (f & NF & FS) HO].
    + unfold connect. pose proof (read_exact_spec e reads 68 []) as R. destruct (read_exact 68 [] reads e) as [buf r1| |]; [|reflexivity|destruct R; congruence].
      destruct R as (y & _ & LY & EC). rewrite EC, app_length in SH. lia.
    + destruct (read_hello reads e h t EC L68) as (r1 & RE & _). unfold connect. rewrite RE. rewrite (proj2 (handshake_fails h InvalidHeader L68)) by auto. reflexivity.
    + destruct (hello_decode _ _ _ HH) as (L68 & hpid & HD). destruct (read_hello reads e h t EC L68) as (r1 & RE & _). unfold connect. rewrite RE, HD. cbn [hs_hash].
      destruct (bytes_eqb_spec ih' ih); [congruence|]. reflexivity.
    + destruct (hello_decode _ _ _ HH) as (L68 & hpid & HD). destruct (read_hello reads e h t EC L68) as (r1 & RE & _). unfold connect. rewrite RE, HD. cbn [hs_hash hs_ext]. rewrite bytes_eqb_refl. cbn [negb].
      assert (LR : length r = 8%nat) by (destruct HH as (? & _ & ? & _); auto).
      destruct (ext_has _ Bep10) eqn:EB; [|reflexivity]. apply nego in EB; [destruct (NB EB)|auto|left; reflexivity].
    + destruct (GO _ _ _ EC HH HB) as (r1 & exts & out & E1 & G). rewrite (G _ eq_refl). destruct NM as [x C|f rest y NF GA].
      * destruct (next_cut _ _ _ C _ E1) as (q & st & b & r' & EN & N & EV). rewrite EN. destruct q as [f0| | |]; [now destruct (N f0)|..]; cbn [snd]; rewrite EV; reflexivity.
      * destruct (next_first _ _ _ e NF _ E1) as (st & b & r' & EN & _). rewrite EN. rewrite (proj2 (recv_fails f (EMessage y))) by eauto. reflexivity.
    + destruct (GO _ _ _ EC HH HB) as (r1 & exts & out & E1 & G). rewrite (G _ eq_refl). destruct (next_first _ _ _ e NF _ E1) as (st & b & r' & EN & _). rewrite EN.
      rewrite (proj2 (recv_says f m) FS). destruct m as [m|h'|m]; [reflexivity|now destruct (NO h')|reflexivity].
    + destruct (GO _ _ _ EC HH HB) as (r1 & exts & out & E1 & G). rewrite (G _ eq_refl). destruct (next_first _ _ _ e NF _ E1) as (st & b & r' & EN & _). rewrite EN.
      rewrite (proj2 (recv_says f (ExtHandshake k)) FS). pose proof (shake_zero _ _ _ FS) as SZ. destruct (eh_registry k) as [rr|y]; [destruct (SZ HO)|]. destruct SZ as [-> _]. reflexivity.
    + destruct (GO _ _ _ EC HH HB) as (r1 & exts & out & E1 & G). rewrite (G _ eq_refl). destruct (next_first _ _ _ e NF _ E1) as (st & b & r' & EN & _). rewrite EN.
      rewrite (proj2 (recv_says f (ExtHandshake k)) FS). pose proof (shake_registry _ _ _ FS) as [_ HR]. destruct (eh_registry k) as [rr|y]; [|destruct (HO _ HR)]. destruct HR as [_ RO].
      unfold reg_contains. destruct (reg_get_message_id rr Metadata) as [c|]; [destruct (HO c); now apply RO|]. reflexivity.
Qed.

(** ** The whole exchange *)
Lemma session_fails ih pid i reads e x : length ih = 20%nat -> length pid = 20%nat -> wf_ip i ->
  (snd (session ih pid i reads e) = SDone (Err x) <-> failure ih (concat reads) e x).
Proof.
  intros L1 L2 W. unfold session. destruct (connect_spec ih pid i reads e L1 L2 W) as [_ GC]. pose proof (connect_fails ih pid i reads e) as CF.
  assert (FF : forall s t size y, connection ih s size t -> (fetch_failure ih t e size y) -> failure ih s e y).
  { intros s t size y C F. destruct F as [|n H|n k d ms u y H MS DE L NM|n k d ms u m v y H MS DE L NM RF|n k d ms u y H MS DE L B].
    - eapply fa_size; eauto. - eapply fa_large; eauto. - eapply fa_message; eauto. - eapply fa_refused; eauto. - eapply fa_build; eauto. }
  assert (FB : forall s y, failure ih s e y -> no_connection ih s e y \/ exists size t, connection ih s size t /\ fetch_failure ih t e size y).
  { intros s y F. destruct F as [y NC|t C|n t C H|n t k d ms u y C H MS DE L NM|n t k d ms u m v y C H MS DE L NM RF|n t k d ms u y C H MS DE L B]; [left; exact NC|right; eexists _, _; (split; [exact C|])..].
    - constructor. - now constructor. - eapply ff_message; eauto. - eapply ff_refused; eauto. - eapply ff_build; eauto. }
  assert (CO : forall size t, connection ih (concat reads) size t -> exists out c, connect ih pid i reads e = (out, SDone (Ok c)) /\ cn_size c = size /\ total Head (cn_buf c) (cn_reads c) = t).
  { intros size t (h & t0 & r & k & c & EC & HH & HB & (f & (w & -> & FW) & FS) & HO & HC & ->). eapply connect_honest; eauto. }
  assert (RUN : forall c out, connect ih pid i reads e = (out, SDone (Ok c)) ->
    snd (let (out', s) := fetch_from ih c e in (out ++ out', s)) = SDone (Err x) <-> fetch_failure ih (total Head (cn_buf c) (cn_reads c)) e (cn_size c) x).
  { intros c out EC. rewrite EC in GC. cbn [snd] in GC. destruct GC as [GC _]. destruct GC as [GL GS GR (h0 & reserved & w0 & f0 & shake & code & EQ & HH & HB & FW & FS & HZ & HO & HG & HC)].
    destruct (shake_registry _ _ _ FS) as [HS _].
    destruct (fetch_from_run ih c e GL GS ltac:(rewrite HZ; exact HS) ltac:(exists code; split; [auto|lia])) as (fs & rem & out2 & FR & EF & _). rewrite EF. cbn [snd].
    rewrite <- (fetch_fails ih (cn_size c) _ e (events fs (verdict rem e)) x) by (exists fs, rem; auto).
    destruct (fst _) as [| |]; cbn [stage_of]; split; congruence. }
  split.
  - destruct (connect ih pid i reads e) as [o st] eqn:EC. destruct st as [[c|y]| |]; cbn [snd]; try discriminate.
    + intros R. apply (RUN _ _ eq_refl) in R. eapply FF; [|exact R]. cbn [snd] in GC. destruct GC as [[GL GS GR (h0 & reserved & w0 & f0 & shake & code & EQ & HH & HB & FW & FS & HZ & HO & HG & HC)] _].
      exists h0, (w0 ++ total Head (cn_buf c) (cn_reads c)), reserved, shake, code. split; [exact EQ|]. split; [exact HH|]. split; [exact HB|].
      split; [exists f0; split; [exists w0; auto|exact FS]|]. split; [exact HO|]. split; [lia|exact HZ].
    + intros [= ->]. apply fa_connect. apply CF; auto.
  - intros F. apply FB in F as [NC|(size & t & C & F)].
    + apply (CF x L1 L2 W) in NC. destruct (connect ih pid i reads e) as [o st]. cbn [snd] in NC. subst st. reflexivity.
    + destruct (CO _ _ C) as (out & c & EC & <- & <-). rewrite EC. now apply (RUN _ _ EC).
Qed.
