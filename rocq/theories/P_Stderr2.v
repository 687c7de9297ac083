(** How many lines 'get' and 'batch' write about failures. *)
From Verif Require Import Base BaseFacts M_Net M_Template M_Save M_Tracker M_Torrent M_Types M_Magnet M_Peer M_Session M_Config M_Nursery M_Resolve M_Http M_Batch
  M_Get M_Report S_Report P_Report P_Report2 P_Report3 M_Log S_Log M_Stderr S_Stderr P_Stderr.

Lemma gnote_own {E} (n : gnote E) : own (gnote_target n).
Proof. destruct n; (left; reflexivity) || (right; eexists; reflexivity). Qed.
Lemma notes_map {E} notes (fin : list (gnote E)) : notes_of fin = [] -> notes_of (Fetching :: map Note notes ++ fin) = notes.
Proof.
  intros F. unfold notes_of in *. cbn [flat_map app]. rewrite flat_map_app, F, app_nil_r. induction notes as [|r l IH]; [reflexivity|]. cbn [map flat_map app]. f_equal. exact IH.
Qed.
Lemma notes_filter {E} f notes : filter (fun n : gnote E => verbosity (gnote_level n) <=? filter_verbosity f) (map Note notes) =
  if verbosity Warn <=? filter_verbosity f then map Note notes else [].
Proof.
  induction notes as [|r rs IH]; cbn [map filter gnote_level]; [destruct (_ <=? _); reflexivity|]. destruct (verbosity Warn <=? filter_verbosity f); [f_equal|]; exact IH.
Qed.
Section Get.
Context {E : Type} (te : nat -> option E) (show_url : url -> bytes) (cfg : config) (pid : bytes) (m : magnet) (w : world).
Lemma get_lines styled l template cut fail ops ok g es :
  get_cmd show_url cfg pid m w l template cut fail = Some (Ret (ops, ok)) -> get_log show_url cfg pid te m w l template cut fail = Some (Ret g) ->
  Forall2 (fun n e => is_entry (gnote_target n) (gnote_level n) e) g es -> Forall (fun e => one_line (e_text e)) es ->
  let last := if ok then 0%nat else 1%nat in
  (exists ls, lines_of (stderr styled (Some Error) es) ls /\ length ls = last) /\
  (exists ls, lines_of (stderr styled (Some Warn) es) ls /\ length ls = (length (notes_of g) + last)%nat) /\
  (exists ls, lines_of (stderr styled default_filter es) ls /\ length ls = (1 + length (notes_of g) + last)%nat) /\
  stderr styled None es = [].
Proof.
  intros H G F O last. destruct (get_verdict_logged show_url cfg pid m w te _ _ _ _ _ _ H) as (notes & fin & G' & V). rewrite G' in G. injection G as <-.
  assert (FIN : (fin = [] /\ last = 0%nat) \/ (exists y, fin = [Failed y]) /\ last = 1%nat).
  { subst last. destruct ok; [left; auto|right]. split; [|reflexivity]. destruct V as [[-> _]|[[-> _]| ->]]; eauto. }
  assert (N0 : notes_of (Fetching :: map Note notes ++ fin) = notes) by (apply notes_map; destruct FIN as [[-> _]|[[y ->] _]]; reflexivity).
  rewrite N0. clear G' V N0.
  assert (C : forall f, exists k, kept (wanted f) es k /\
    length k = length (filter (fun n => verbosity (gnote_level n) <=? filter_verbosity f) (Fetching :: map Note notes ++ fin))) by (intros f; exact (own_count gnote_level gnote_target f _ _ gnote_own F)).
  assert (NA : forall f, filter (fun n : gnote E => verbosity (gnote_level n) <=? filter_verbosity f) (map Note notes) =
    if verbosity Warn <=? filter_verbosity f then map Note notes else []).
  { intros f. apply notes_filter. }
  assert (FA : forall f, length (filter (fun n : gnote E => verbosity (gnote_level n) <=? filter_verbosity f) fin) = if verbosity Error <=? filter_verbosity f then last else 0%nat).
  { intros f. destruct FIN as [[-> ->]|[[y ->] ->]]; cbn [filter gnote_level length]; destruct (_ <=? _); reflexivity. }
  assert (CN : forall f, exists ls, lines_of (stderr styled f es) ls /\ length ls =
    ((if N.leb (verbosity Info) (filter_verbosity f) then 1 else 0) + (if N.leb (verbosity Warn) (filter_verbosity f) then length notes else 0) +
     (if N.leb (verbosity Error) (filter_verbosity f) then last else 0))%nat).
  { intros f. destruct (C f) as (k & K & LK). destruct (count_lines styled f es k K O) as (ls & L1 & L2). exists ls. split; auto. rewrite L2, LK.
    cbn [filter gnote_level]. rewrite filter_app, NA. specialize (FA f).
    destruct (verbosity Info <=? _), (verbosity Warn <=? _); cbn [length]; rewrite app_length, FA, ?map_length; reflexivity. }
  split; [|split; [|split]].
  - destruct (CN (Some Error)) as (ls & A & B). exists ls. split; auto.
  - destruct (CN (Some Warn)) as (ls & A & B). exists ls. split; auto.
  - destruct (CN default_filter) as (ls & A & B). exists ls. split; auto.
  - destruct (CN None) as (ls & [A _] & B). cbn in B. destruct ls; [exact A|discriminate B].
Qed.
End Get.

Lemma batch_lines {Mg E : Type} styled download n (parsed : res E (list Mg)) l s h (g : list (bnote Mg E)) ok m0 more es :
  n <> 0%nat -> parsed = Ok (m0 :: more) -> blrun download (b_start n parsed) l = Some (s, h, g) -> b_main s = BExit ok ->
  Forall2 (fun n e => is_entry (bs "demagnetize") (bnote_level n) e) g es -> Forall (fun e => one_line (e_text e)) es ->
  exists fails, NoDup fails /\ (forall k, In k fails <-> (k < length (m0 :: more))%nat /\ download k = Ret false) /\
    (exists ls, lines_of (stderr styled (Some Error) es) ls /\ length ls = length fails) /\
    (exists ls, lines_of (stderr styled default_filter es) ls /\ length ls = S (length fails)).
Proof.
  intros N0 PA R X F O. destruct (batch_logged download n parsed l s h g ok m0 more N0 PA R X) as (fails & -> & ND & IN).
  exists (map fst fails). split; [exact ND|]. split.
  { intros k. rewrite in_map_iff. split.
    - intros ((k' & m) & E1 & I). cbn [fst] in E1. subst k'. apply IN in I. destruct I as [A B]. split; [|exact B]. apply nth_error_Some. rewrite A. discriminate.
    - intros [L D]. destruct (nth_error (m0 :: more) k) as [m|] eqn:E1; [|apply nth_error_None in E1; lia]. exists (k, m). split; auto. apply IN. auto. }
  rewrite map_length.
  assert (C : forall f, exists k, kept (wanted f) es k /\ length k = length (filter (fun n : bnote Mg E => verbosity (bnote_level n) <=? filter_verbosity f) (link_notes fails ++ [Summary (length (m0 :: more) - length fails) (length (m0 :: more))]))).
  { intros f. apply (own_count bnote_level (fun _ => bs "demagnetize") f _ _ (fun _ => or_introl eq_refl) F). }
  assert (NA : forall f, verbosity Error <=? filter_verbosity f = true -> filter (fun n : bnote Mg E => verbosity (bnote_level n) <=? filter_verbosity f) (link_notes fails) = link_notes fails).
  { intros f L. unfold link_notes. clear -L. induction fails as [|r rs IH]; [reflexivity|]. cbn [map filter bnote_level]. rewrite L. f_equal. exact IH. }
  split.
  - destruct (C (Some Error)) as (k & K & LK). destruct (count_lines styled _ es k K O) as (ls & L1 & L2). exists ls. split; auto. rewrite L2, LK, filter_app, NA by reflexivity.
    rewrite app_length. unfold link_notes. rewrite map_length. cbn. lia.
  - destruct (C default_filter) as (k & K & LK). destruct (count_lines styled _ es k K O) as (ls & L1 & L2). exists ls. split; auto. rewrite L2, LK, filter_app, NA by reflexivity.
    rewrite app_length. unfold link_notes. rewrite map_length. cbn. lia.
Qed.
