(** The metadata is obtained from no other byte streams than those of C79. *)
From Verif Require Import Base BaseFacts S_Bencode S_Wire S_Download S_Frame S_Session M_Net M_Sha1 M_Torrent M_Extensions M_Messages M_Frame M_Peer M_Session P_Bencode P_Torrent P_Peer P_Frame P_Session.

Lemma ignorable_harmless m : msg_ignorable m = true -> harmless m.
Proof. destruct m as [c|h|[]]; try discriminate; try (intros _; constructor). destruct c; try discriminate; intros _; constructor. Qed.
Lemma next_only ih size b info out : shape ih size b -> fetch_next size b = (Finished (Ok info), out) -> b_next b = pieces size /\ ti_data info = b_data b.
Proof.
  intros Sb. unfold fetch_next, builder_next. rewrite (sh_qty _ _ _ Sb). destruct (N.ltb_spec (b_next b) (pieces size)) as [H|H]; [discriminate|].
  destruct (builder_build b) as [x|x] eqn:E; [|discriminate]. intros [= <- <-]. apply build_ok in E. destruct E as (_ & _ & _ & ->). pose proof (sh_next _ _ _ Sb). split; [lia|reflexivity].
Qed.
Lemma dropN_app {A} (a b : list A) n : N.of_nat (length a) = n -> dropN n (a ++ b) = b.
Proof. intros <-. unfold dropN. rewrite Nat2N.id, skipn_app, skipn_all, Nat.sub_diag. reflexivity. Qed.
Lemma takeN_app {A} (a b : list A) n : N.of_nat (length a) = n -> takeN n (a ++ b) = a.
Proof. intros <-. unfold takeN. rewrite Nat2N.id, firstn_app, firstn_all, Nat.sub_diag, firstn_O, app_nil_r. reflexivity. Qed.

Lemma run_only ih size evs : forall b i info tr, shape ih size b -> b_next b = i -> i < pieces size -> blen (b_data b) = 16384 * i ->
  fetch_run (Waiting size b i) evs = (Finished (Ok info), tr) ->
  exists ms rest tl, evs = map Ok ms ++ rest /\ ti_data info = b_data b ++ tl /\ blen (ti_data info) = size /\ honest (ti_data info) i (map Ok ms).
Proof.
  induction evs as [|ev evs IH]; intros b i info tr Sb NB LT BD R; cbn [fetch_run] in R; [discriminate|].
  destruct (fetch_step (Waiting size b i) ev) as [st1 out] eqn:ES. destruct (fetch_run st1 evs) as [st2 tr2] eqn:RR. injection R as -> <-.
  assert (STAY : st1 = Waiting size b i -> forall m, ev = Ok m -> harmless m ->
    exists ms rest tl, ev :: evs = map Ok ms ++ rest /\ ti_data info = b_data b ++ tl /\ blen (ti_data info) = size /\ honest (ti_data info) i (map Ok ms)).
  { intros -> m -> HM. destruct (IH _ _ _ _ Sb NB LT BD RR) as (ms & rest & tl & -> & E1 & E2 & E3). exists (m :: ms), rest, tl. split; [reflexivity|]. split; [exact E1|]. split; [exact E2|]. now apply honest_other. }
  assert (BAD : forall e, st1 = Finished (Err e) -> False) by (intros e ->; destruct evs; discriminate RR).
  cbn [fetch_step] in ES. destruct ev as [m|e]; [|injection ES as <- <-; destruct (BAD _ eq_refl)].
  destruct m as [c|h|[p|p tot pl|p|ty]].
  - destruct (msg_ignorable (Core c)) eqn:EI; injection ES as <- <-; [|destruct (BAD _ eq_refl)]. apply (STAY eq_refl _ eq_refl). now apply ignorable_harmless.
  - injection ES as <- <-. apply (STAY eq_refl _ eq_refl). constructor.
  - injection ES as <- <-. apply (STAY eq_refl _ eq_refl). constructor.
  - destruct (N.eqb_spec tot size) as [->|]; cbn [negb] in ES; [|injection ES as <- <-; destruct (BAD _ eq_refl)].
    destruct (N.eqb_spec p i) as [->|]; cbn [negb] in ES; [|injection ES as <- <-; destruct (BAD _ eq_refl)].
    destruct (push_total ih size b pl Sb) as (r & b' & P & S' & RS). rewrite P in ES. destruct r as [[]|x]; [|injection ES as <- <-; destruct (BAD _ eq_refl)].
    destruct RS as (_ & N1 & D1 & L1). rewrite NB in *. pose proof (proj1 (lt_pieces _ _) LT) as LT'.
    assert (FIN : forall tl, ti_data info = (b_data b ++ pl) ++ tl -> (blen pl < 16384 -> tl = []) -> blen (ti_data info) = size -> slice (ti_data info) i = pl).
    { intros tl E T Z. unfold slice. rewrite E, <- app_assoc, dropN_app by (fold (blen (b_data b)); exact BD). destruct (N.eq_dec (blen pl) 16384) as [F|F]; [apply takeN_app; exact F|].
      rewrite T, app_nil_r by lia. apply takeN_all. unfold blen in *. lia. }
    destruct (N.lt_ge_cases (i + 1) (pieces size)) as [MORE|LAST].
    + assert (EN : fetch_next size b' = (Waiting size b' (i + 1), [Meta (MRequest (i + 1))])).
      { unfold fetch_next, builder_next. rewrite (sh_qty _ _ _ S'), N1. destruct (N.ltb_spec (i + 1) (pieces size)); [reflexivity|lia]. }
      rewrite EN in ES. injection ES as <- <-. apply lt_pieces in MORE as MORE'.
      assert (BD' : blen (b_data b') = 16384 * (i + 1)) by (rewrite D1; unfold blen in *; rewrite app_length; lia).
      destruct (IH _ _ _ _ S' N1 MORE BD' RR) as (ms & rest & tl & -> & E1 & E2 & E3). exists (Meta (MData i size pl) :: ms), rest, (pl ++ tl). split; [reflexivity|].
      rewrite D1 in E1. split; [rewrite E1, app_assoc; reflexivity|]. split; [exact E2|]. cbn [map].
      replace (Meta (MData i size pl)) with (Meta (MData i (blen (ti_data info)) (slice (ti_data info) i))); [apply honest_piece; [rewrite E2; exact LT'|exact E3]|].
      rewrite E2. do 2 f_equal. apply (FIN tl E1); [intros; lia|exact E2].
    + destruct (fetch_next size b') as [st1' out'] eqn:EN. injection ES as -> ->.
      assert (EF : st1 = Finished (Ok info)).
      { unfold fetch_next, builder_next in EN. rewrite (sh_qty _ _ _ S'), N1 in EN. destruct (N.ltb_spec (i + 1) (pieces size)); [lia|]. destruct (builder_build b'); injection EN as <- <-; destruct evs; cbn in RR; congruence. }
      subst st1. destruct (next_only _ _ _ _ _ S' EN) as (_ & EI). rewrite D1 in EI. exists [Meta (MData i size pl)], evs, pl. split; [reflexivity|]. split; [exact EI|].
      assert (Z : blen (ti_data info) = size). { rewrite EI. assert (~ 16384 * (i + 1) < size) by (rewrite <- lt_pieces; lia). unfold blen in *. rewrite app_length. lia. }
      split; [exact Z|]. cbn [map].
      replace (Meta (MData i size pl)) with (Meta (MData i (blen (ti_data info)) (slice (ti_data info) i))).
      2:{ rewrite Z. do 2 f_equal. apply (FIN []); [rewrite app_nil_r; exact EI|reflexivity|exact Z]. }
      apply honest_piece; [rewrite Z; exact LT'|]. apply honest_done. rewrite Z. assert (~ 16384 * (i + 1) < size) by (rewrite <- lt_pieces; lia). lia.
  - destruct (p =? i) in ES; cbn [negb] in ES; injection ES as <- <-; destruct (BAD _ eq_refl).
  - injection ES as <- <-. apply (STAY eq_refl _ eq_refl). constructor.
Qed.
Lemma fetch_only ih size evs info tr : get_metadata_info ih size evs = (Finished (Ok info), tr) ->
  blen (ti_data info) <= 20971520 /\ exists ms rest, evs = map Ok ms ++ rest /\ honest (ti_data info) 0 (map Ok ms).
Proof.
  intros E. pose proof (fetch_authentic _ _ _ _ _ E) as (_ & _ & -> & _). unfold get_metadata_info, fetch_start in E. set (n := blen (ti_data info)) in *.
  destruct (N.le_gt_cases n MAX_INFO_LENGTH) as [L|L].
  2:{ rewrite builder_new_big in E by exact L. destruct evs; cbn in E; discriminate E. }
  rewrite builder_new_eq in E by exact L. set (b := mkB _ _ _ _ _ _) in E. split; [exact L|].
  pose proof (shape_new ih n) as Sb. fold b in Sb. destruct (fetch_next n b) as [st out] eqn:EN. destruct (fetch_run st evs) as [st' tr'] eqn:RR. injection E as -> <-.
  destruct (N.lt_ge_cases 0 (pieces n)) as [MORE|LAST].
  - unfold fetch_next, builder_next in EN. cbn [b b_qty b_next] in EN. destruct (N.ltb_spec 0 (pieces n)); [|lia]. injection EN as <- <-.
    destruct (run_only ih n evs b 0 info tr' Sb eq_refl MORE eq_refl RR) as (ms & rest & tl & E1 & _ & _ & E2). eauto.
  - exists [], evs. split; [reflexivity|]. apply honest_done. assert (~ 16384 * 0 < n) by (rewrite <- lt_pieces; lia). fold n. lia.
Qed.

Lemma frames_split s fs r : frames s fs r -> forall f1 f2, fs = f1 ++ f2 -> exists ws rest, s = concat ws ++ rest /\ Forall2 framed f1 ws.
Proof.
  induction 1 as [s U|h s L B|h b s fs r L B M F IH]; intros f1 f2 E.
  - destruct f1; [|discriminate E]. exists [], s. auto.
  - destruct f1; [|discriminate E]. exists [], (h ++ s). auto.
  - destruct f1 as [|g f1]; [exists [], (h ++ b ++ s); auto|]. injection E as <- E. destruct (IH _ _ E) as (ws & rest & -> & F2).
    exists ((h ++ b) :: ws), rest. split; [cbn [concat]; rewrite <- !app_assoc; reflexivity|]. constructor; [|exact F2]. exists h. auto.
Qed.
Lemma session_only ih pid i reads e info :
  length ih = 20%nat -> length pid = 20%nat -> wf_ip i -> snd (session ih pid i reads e) = SDone (Ok info) ->
  blen (ti_data info) <= 20971520 /\ honest_stream ih (ti_data info) (concat reads).
Proof.
  intros L1 L2 W. unfold session. destruct (connect_spec ih pid i reads e L1 L2 W) as [_ GC].
  destruct (connect ih pid i reads e) as [o st]. cbn [fst snd] in *. destruct st as [[c|x]| |]; try discriminate.
  destruct GC as [GC _]. destruct GC as [GL GS GR (h0 & reserved & w0 & f0 & shake & code & EC & HH & HB & FW & FS & HZ & HO & HG & HC)].
  destruct (shake_registry _ _ _ FS) as [HS _].
  destruct (fetch_from_run ih c e GL GS ltac:(rewrite HZ; exact HS) ltac:(exists code; split; [auto|lia])) as (fs & rem & out2 & FR & EF & _).
  rewrite EF. destruct (get_metadata_info ih (cn_size c) (events fs (verdict rem e))) as [st1 tr1] eqn:EI. cbn [fst snd].
  intros HI. assert (ES : st1 = Finished (Ok info)) by (destruct st1; cbn in HI; congruence). subst st1.
  pose proof (fetch_authentic _ _ _ _ _ EI) as (_ & _ & EZ & _). destruct (fetch_only _ _ _ _ _ EI) as (LB & ms & rest & EV & HON). split; [exact LB|].
  assert (X : exists f1 f2, fs = f1 ++ f2 /\ Forall2 (frame_says 42) f1 ms).
  { clear - EV. unfold events in EV. revert fs EV. induction ms as [|m ms IH]; intros fs EV; [exists [], fs; auto|]. destruct fs as [|f fs]; cbn [map app] in EV.
    - destruct (end_event (verdict rem e)); discriminate EV.
    - injection EV as E1 E2. destruct (IH _ E2) as (f1 & f2 & -> & F). exists (f :: f1), f2. split; [reflexivity|]. constructor; [now apply recv_says|exact F]. }
  destruct X as (f1 & f2 & -> & F2). destruct (frames_split _ _ _ FR _ _ eq_refl) as (ws & more & ET & F1).
  exists h0, reserved, w0, f0, shake, code, f1, ws, ms, more. rewrite EC, ET. repeat (split; [solve [auto]|]). split; [congruence|]. split; [exact HO|]. split; [lia|]. auto.
Qed.
Lemma session_exact ih pid i reads e data :
  length ih = 20%nat -> length pid = 20%nat -> wf_ip i ->
  (snd (session ih pid i reads e) = SDone (Ok (mkTI ih data)) <->
   bencoded_dict data /\ sha1 data = ih /\ blen data <= 20971520 /\ honest_stream ih data (concat reads)).
Proof.
  intros L1 L2 W. split.
  - intros E. destruct (session_only _ _ _ _ _ _ L1 L2 W E) as (LB & HS). destruct (session ih pid i reads e) as [out s] eqn:ES. cbn [snd] in E.
    destruct (session_spec _ _ _ _ _ _ _ L1 L2 W ES) as (_ & A & _). destruct (A _ E) as (A1 & _ & A2 & _). auto.
  - intros (A & B & C & D). now apply session_honest.
Qed.
