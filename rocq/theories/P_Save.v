From Verif Require Import Base BaseFacts S_Utf8 M_Utf8 P_Utf8 M_Sha1 M_Net M_Types P_Types M_Torrent M_Template S_Template
  P_Template S_Path M_Save.

(** ** sanitize *)
Lemma unsanitary_iff c : unsanitary c = true <-> forbidden c.
Proof.
  unfold unsanitary, forbidden. rewrite orb_true_iff, N.ltb_lt, existsb_exists, in_map_iff.
  split; intros [H|(b & H1 & H2)]; auto; right; exists b; split; auto; lia.
Qed.

Lemma utf8_char_bytes c b : c < 1114112 -> In b (utf8_char c) -> b2n b = c \/ 128 <= b2n b.
Proof.
  unfold utf8_char. intros Hc H.
  repeat match type of H with context [?x <? ?y] => destruct (N.ltb_spec x y) end; cbn [In] in H;
    repeat (destruct H as [<-|H]; [rewrite b2n_n2b; lia|]); destruct H.
Qed.

Lemma forbidden_small c : forbidden c -> c < 128.
Proof. intros [H|H]; [lia|]. cbn in H. lia. Qed.

Lemma scalar_bound c : scalar c -> c < 1114112.
Proof. unfold scalar. lia. Qed.

Lemma scalar_95 : scalar 95. Proof. left. lia. Qed.

Lemma not_forbidden_95 : ~ forbidden 95.
Proof. unfold forbidden. cbn. lia. Qed.

Lemma sanitize_spec cs : Forall scalar cs ->
  exists out, sanitize (utf8 cs) = utf8 out /\
    Forall2 (fun c d => (forbidden c -> d = 95) /\ (~ forbidden c -> d = c)) cs out /\
    Forall (fun d => ~ forbidden d) out /\
    Forall (fun b => ~ forbidden (b2n b)) (sanitize (utf8 cs)) /\
    sanitize (sanitize (utf8 cs)) = sanitize (utf8 cs).
Proof.
  intros Hs. set (f := fun c => if unsanitary c then 95 else c).
  assert (Ef : sanitize (utf8 cs) = utf8 (map f cs)) by (unfold sanitize; now rewrite lossy_chars_utf8).
  assert (Hf : forall c, ~ forbidden (f c)).
  { intros c. unfold f. destruct (unsanitary c) eqn:E; [apply not_forbidden_95|].
    rewrite <- unsanitary_iff. congruence. }
  assert (Hs' : Forall scalar (map f cs)).
  { apply Forall_map. eapply Forall_impl; [|exact Hs]. intros c Hc. unfold f.
    destruct (unsanitary c); auto using scalar_95. }
  exists (map f cs). split; [exact Ef|]. split; [|split; [|split]].
  - clear. induction cs as [|c cs IH]; constructor; auto. unfold f.
    split; intros H.
    + apply unsanitary_iff in H. now rewrite H.
    + destruct (unsanitary c) eqn:E; auto. now apply unsanitary_iff in E.
  - apply Forall_map, Forall_forall. auto.
  - rewrite Ef. apply Forall_forall. intros b Hb. unfold utf8 in Hb. apply in_concat in Hb as (l & Hl & Hb).
    apply in_map_iff in Hl as (d & <- & Hd).
    rewrite Forall_forall in Hs'. specialize (Hs' d Hd).
    apply utf8_char_bytes in Hb; [|now apply scalar_bound]. destruct Hb as [->|Hb].
    + apply in_map_iff in Hd as (c & <- & _). apply Hf.
    + intros Hx. apply forbidden_small in Hx. lia.
  - rewrite Ef. unfold sanitize. rewrite lossy_chars_utf8 by auto. f_equal. rewrite map_map.
    apply map_ext. intros c. fold (f (f c)). unfold f at 1.
    destruct (unsanitary (f c)) eqn:E; auto. apply unsanitary_iff in E. now apply Hf in E.
Qed.

(** For any text, whether or not it is known to be UTF-8. *)
Lemma sanitize_clean s : Forall (fun b => ~ forbidden (b2n b)) (sanitize s).
Proof.
  assert (E : sanitize s = sanitize (utf8 (lossy_chars s))).
  { unfold sanitize at 2. rewrite lossy_chars_utf8 by apply lossy_chars_scalar. reflexivity. }
  rewrite E. destruct (sanitize_spec (lossy_chars s)) as (o & _ & _ & _ & H & _); auto using lossy_chars_scalar.
Qed.

(** ** Paths *)
Definition no_slash (s : bytes) : Prop := Forall (fun c => c <> "/"%byte) s.

Lemma sanitize_no_slash s : no_slash (sanitize s).
Proof.
  eapply Forall_impl; [|apply sanitize_clean]. cbn beta. intros b H ->. apply H. right. cbn. auto.
Qed.

Lemma hash_no_slash h : no_slash (show_info_hash h).
Proof.
  eapply Forall_impl; [|apply show_hex]. intros b H ->. cbv in H.
  repeat (destruct H as [H|H]; [discriminate|]). destruct H.
Qed.

Lemma split_no_slash s : no_slash s -> split_slash s = [s].
Proof.
  induction 1 as [|c s Hc HF IH]; [reflexivity|]. cbn [split_slash]. apply beqb_neq in Hc. now rewrite Hc, IH.
Qed.

Lemma split_app p s : no_slash s -> split_slash (p ++ "/"%byte :: s) = split_slash p ++ [s].
Proof.
  intros H. induction p as [|c p IH].
  - cbn [app split_slash]. now rewrite beqb_refl, split_no_slash.
  - cbn [app split_slash]. rewrite IH. destruct (Byte.eqb c "/"); [reflexivity|].
    destruct (split_slash p) as [|h t] eqn:E; [|reflexivity].
    exfalso. clear -E. destruct p as [|c p]; cbn in E; [discriminate|].
    destruct (Byte.eqb c "/"); [discriminate|]. destruct (split_slash p); discriminate.
Qed.

Definition plain_component (s : bytes) : Prop := s <> [] /\ s <> bs "." /\ s <> bs "..".

Lemma follow_plain st s : plain_component s -> follow st s = s :: st.
Proof.
  intros (H1 & H2 & H3). unfold follow. apply bytes_eqb_neq in H1, H2, H3. now rewrite H1, H2, H3.
Qed.

Lemma resolve_last p s : no_slash s -> plain_component s ->
  snd (resolve (p ++ "/"%byte :: s)) = snd (resolve p) ++ [s] /\ snd (resolve s) = [s].
Proof.
  intros H1 H2. unfold resolve. cbn [snd]. rewrite split_app by auto. rewrite fold_left_app. cbn [fold_left].
  rewrite follow_plain by auto. cbn [rev]. split; [reflexivity|].
  rewrite split_no_slash by auto. cbn [fold_left]. now rewrite follow_plain.
Qed.

(** The tokens after the last slash of a template. *)
Definition slash_free (ts : list tok) : Prop := ~ In (Ch "/") ts.

Lemma expand_no_slash ts n h : slash_free ts -> no_slash n -> no_slash h -> no_slash (expand ts n h).
Proof.
  intros Hs Hn Hh. induction ts as [|t ts IH]; cbn [expand flat_map]; [constructor|].
  apply Forall_app. split.
  - destruct t; auto. constructor; [|constructor]. intros ->. apply Hs. left. reflexivity.
  - apply IH. intros H. apply Hs. now right.
Qed.

Lemma expand_char_in ts n h c : In (Ch c) ts -> In c (expand ts n h).
Proof. intros H. unfold expand. apply in_flat_map. exists (Ch c). split; [auto|left; reflexivity]. Qed.

Lemma expand_no_name ts n n' h : ~ In TName ts -> expand ts n h = expand ts n' h.
Proof.
  intros H. induction ts as [|t ts IH]; [reflexivity|]. unfold expand in *. cbn [flat_map]. f_equal.
  - destruct t; auto. exfalso. apply H. left. reflexivity.
  - apply IH. intros ?. apply H. now right.
Qed.

Lemma plain_of_char s c : In c s -> c <> "."%byte -> plain_component s.
Proof.
  intros H Hc. repeat split; intros ->; cbn in H; repeat (destruct H as [H|H]; [congruence|]); destruct H.
Qed.

(** A name only used in the last component, together with some other character,
    cannot leave the directory. *)
Lemma name_stays_put s dir last t info name :
  reads s (dir ++ Ch "/" :: last) -> parse_template s = Ret (Ok t) ->
  ~ In TName dir -> slash_free last ->
  (exists c, In (Ch c) last /\ c <> "."%byte) ->
  exists p f, output_arg (format_template t (sanitize name) info) = Path p /\
    p = expand dir [] (show_info_hash info) ++ "/"%byte :: f /\ no_slash f /\ plain_component f /\
    snd (resolve p) = snd (resolve (expand dir [] (show_info_hash info))) ++ [f].
Proof.
  intros HR HP ND SF (c & Hc & Nd).
  destruct (parse_reads _ _ HR) as (t' & HP' & F). rewrite HP in HP'. injection HP' as <-.
  rewrite F, expand_app.
  set (f := expand last (sanitize name) (show_info_hash info)).
  change (expand (Ch "/" :: last) (sanitize name) (show_info_hash info)) with ("/"%byte :: f).
  rewrite (expand_no_name dir _ [] _ ND).
  exists (expand dir [] (show_info_hash info) ++ "/"%byte :: f), f.
  assert (Hf : no_slash f) by (apply expand_no_slash; auto using sanitize_no_slash, hash_no_slash).
  assert (Hp : plain_component f) by (eapply plain_of_char; [eapply expand_char_in; eauto|auto]).
  split.
  { unfold output_arg. destruct (bytes_eqb_spec (expand dir [] (show_info_hash info) ++ "/"%byte :: f) (bs "-")) as [E|_];
      [|reflexivity].
    destruct (expand dir [] (show_info_hash info)) as [|x [|y l]]; discriminate. }
  split; [reflexivity|]. split; [exact Hf|]. split; [exact Hp|]. now apply resolve_last.
Qed.

(** A template without directories. *)
Lemma name_stays_here s last t info name :
  reads s last -> parse_template s = Ret (Ok t) -> slash_free last ->
  (exists c, In (Ch c) last /\ c <> "."%byte /\ c <> "-"%byte) ->
  exists f, output_arg (format_template t (sanitize name) info) = Path f /\
    no_slash f /\ plain_component f /\ resolve f = (false, [f]).
Proof.
  intros HR HP SF (c & Hc & Nd & Nm).
  destruct (parse_reads _ _ HR) as (t' & HP' & F). rewrite HP in HP'. injection HP' as <-.
  rewrite F. set (f := expand last (sanitize name) (show_info_hash info)).
  assert (Hf : no_slash f) by (apply expand_no_slash; auto using sanitize_no_slash, hash_no_slash).
  assert (Hin : In c f) by (eapply expand_char_in; eauto).
  assert (Hp : plain_component f) by (eapply plain_of_char; eauto).
  exists f. split.
  { unfold output_arg. destruct (bytes_eqb_spec f (bs "-")) as [E|_]; [|reflexivity].
    rewrite E in Hin. cbn in Hin. destruct Hin as [Hin|[]]. congruence. }
  split; [exact Hf|]. split; [exact Hp|].
  unfold resolve. f_equal.
  - destruct f as [|x r] eqn:Ef; [reflexivity|]. cbn [absolute]. inversion Hf; subst. now apply beqb_neq.
  - rewrite split_no_slash by auto. cbn [fold_left]. now rewrite follow_plain.
Qed.

(** ** Saving *)
Lemma fs_set_same f p c : fs_set f p c p = Some c.
Proof. unfold fs_set. now rewrite bytes_eqb_refl. Qed.
Lemma fs_set_other f p c q : q <> p -> fs_set f p c q = f q.
Proof. intros H. unfold fs_set. apply bytes_eqb_neq in H. now rewrite H. Qed.

Definition touches (p : bytes) (o : op) : Prop :=
  match o with OCreate q => q = p | OWrite q _ => q = p | _ => False end.

Lemma fs_run_app f a b : fs_run f (a ++ b) = fs_run (fs_run f a) b.
Proof. apply fold_left_app. Qed.

Lemma fs_run_untouched ops : forall f q, Forall (fun o => ~ touches q o) ops -> fs_run f ops q = f q.
Proof.
  induction ops as [|o ops IH]; intros f q HF; [reflexivity|]. inversion HF as [|? ? Ho HF']; subst.
  cbn [fs_run fold_left]. fold (fs_run (fs_step f o) ops). rewrite IH by auto.
  destruct o; cbn [fs_step touches] in *; auto; apply fs_set_other; congruence.
Qed.

Lemma fs_writes chunks : forall f p old, f p = Some old -> fs_run f (map (OWrite p) chunks) p = Some (old ++ concat chunks).
Proof.
  induction chunks as [|c cs IH]; intros f p old H; cbn [map fs_run fold_left concat].
  - now rewrite app_nil_r.
  - fold (fs_run (fs_step f (OWrite p c)) (map (OWrite p) cs)).
    rewrite (IH _ _ (old ++ c)); [now rewrite app_assoc|]. cbn [fs_step]. rewrite H. apply fs_set_same.
Qed.

Lemma crash_states p chunks k f :
  let f' := fs_run f (firstn k (save_ops (Path p) chunks)) in
  (f' p = f p \/ exists j, f' p = Some (concat (firstn j chunks))) /\
  (forall q, q <> p -> f' q = f q) /\
  ((length (save_ops (Path p) chunks) <= k)%nat -> f' p = Some (concat chunks)).
Proof.
  cbn zeta. cbn [save_ops]. split; [|split].
  - destruct k as [|[|k]]; [left; reflexivity|left; reflexivity|]. right. exists k.
    cbn [firstn]. cbn [fs_run fold_left]. rewrite firstn_map.
    fold (fs_run (fs_step (fs_step f (OMkdirs p)) (OCreate p)) (map (OWrite p) (firstn k chunks))).
    rewrite (fs_writes _ _ _ []); [reflexivity|]. cbn [fs_step]. apply fs_set_same.
  - intros q Hq. apply fs_run_untouched. apply Forall_forall. intros o Ho.
    assert (In o (OMkdirs p :: OCreate p :: map (OWrite p) chunks)) as Hi
      by (rewrite <- (firstn_skipn k (OMkdirs p :: _)); apply in_or_app; auto).
    destruct Hi as [<-|[<-|Hi]]; cbn; auto. apply in_map_iff in Hi as (c & <- & _). cbn. congruence.
  - intros L. rewrite firstn_all2 by exact L. cbn [fs_run fold_left].
    fold (fs_run (fs_step (fs_step f (OMkdirs p)) (OCreate p)) (map (OWrite p) chunks)).
    rewrite (fs_writes _ _ _ []); [reflexivity|]. cbn [fs_step]. apply fs_set_same.
Qed.

Lemma fs_ext f g ops q : (forall x, f x = g x) -> fs_run f ops q = fs_run g ops q.
Proof.
  revert f g; induction ops as [|o ops IH]; intros f g H; [apply H|]. cbn [fs_run fold_left].
  apply IH. intros x. destruct o; cbn [fs_step]; auto; unfold fs_set; rewrite ?H; auto.
Qed.

(** Interleavings of several sequences of operations. *)
Inductive interleaved : list (list op) -> list op -> Prop :=
| il_done ls : Forall (fun l => l = []) ls -> interleaved ls []
| il_step pre o l post ops :
    interleaved (pre ++ l :: post) ops -> interleaved (pre ++ (o :: l) :: post) (o :: ops).

(** Restricted to the operations on one path, an interleaving of jobs with
    distinct paths is that path's job. *)
Definition touchb (p : bytes) (o : op) : bool :=
  match o with OCreate q => bytes_eqb q p | OWrite q _ => bytes_eqb q p | _ => false end.
Lemma touchb_iff p o : touchb p o = true <-> touches p o.
Proof. destruct o; cbn; try (split; [discriminate|tauto]); apply bytes_eqb_eq. Qed.

Lemma fs_run_filter ops : forall f p, fs_run f ops p = fs_run f (filter (touchb p) ops) p.
Proof.
  induction ops as [|o ops IH]; intros f p; [reflexivity|]. cbn [filter fs_run fold_left].
  fold (fs_run (fs_step f o) ops). rewrite IH.
  destruct (touchb p o) eqn:E; [reflexivity|].
  assert (H : fs_step f o p = f p).
  { destruct o; cbn [fs_step touchb] in *; auto; apply fs_set_other; intros <-; now rewrite bytes_eqb_refl in E. }
  clear IH. revert H. generalize (fs_step f o). intros g H.
  assert (G : Forall (fun o => touchb p o = true) (filter (touchb p) ops)).
  { apply Forall_forall. intros x Hx. now apply filter_In in Hx. }
  clear E. revert g f H. induction (filter (touchb p) ops) as [|x l IH]; intros g f H; [exact H|].
  inversion G as [|? ? Gx Gl]; subst. cbn [fs_run fold_left]. apply (IH Gl).
  apply touchb_iff in Gx. destruct x; cbn [fs_step touches] in *; try tauto; subst.
  - now rewrite !fs_set_same.
  - rewrite !fs_set_same. now rewrite H.
Qed.

Lemma interleaved_filter ls ops p : interleaved ls ops ->
  forall i, (forall j l, j <> i -> nth_error ls j = Some l -> filter (touchb p) l = []) ->
  filter (touchb p) ops = match nth_error ls i with Some l => filter (touchb p) l | None => [] end.
Proof.
  induction 1 as [ls HF|pre o l post ops H IH]; intros i Hi.
  - destruct (nth_error ls i) as [l|] eqn:E; [|reflexivity].
    rewrite Forall_forall in HF. rewrite (HF l); [reflexivity|]. eapply nth_error_In; eauto.
  - assert (N : forall j, nth_error (pre ++ (o :: l) :: post) j =
                if Nat.eqb j (length pre) then Some (o :: l) else nth_error (pre ++ l :: post) j).
    { intros j. destruct (Nat.eqb_spec j (length pre)) as [->|NE].
      - rewrite nth_error_app2, Nat.sub_diag by lia. reflexivity.
      - destruct (Nat.lt_ge_cases j (length pre)).
        + now rewrite !nth_error_app1 by lia.
        + rewrite !nth_error_app2 by lia. destruct (j - length pre)%nat eqn:E; [lia|reflexivity]. }
    assert (N0 : nth_error (pre ++ l :: post) (length pre) = Some l).
    { rewrite nth_error_app2, Nat.sub_diag by lia. reflexivity. }
    assert (IH' := IH i). cbn [filter].
    assert (Hj : forall j l', j <> i -> nth_error (pre ++ l :: post) j = Some l' -> filter (touchb p) l' = []).
    { intros j l' Hj E. destruct (Nat.eq_dec j (length pre)) as [->|NE].
      - rewrite N0 in E. injection E as <-. specialize (Hi (length pre) (o :: l) Hj).
        rewrite N, Nat.eqb_refl in Hi. specialize (Hi eq_refl). cbn [filter] in Hi.
        destruct (touchb p o); [discriminate|auto].
      - apply (Hi j); auto. rewrite N. apply Nat.eqb_neq in NE. now rewrite NE. }
    rewrite (IH' Hj), N. destruct (Nat.eqb_spec i (length pre)) as [->|NE].
    + rewrite N0. cbn [filter]. destruct (touchb p o); reflexivity.
    + specialize (Hi (length pre) (o :: l) ltac:(auto)). rewrite N, Nat.eqb_refl in Hi.
      specialize (Hi eq_refl). cbn [filter] in Hi. destruct (touchb p o); [discriminate|]. reflexivity.
Qed.

(** A batch of saves, each a destination and its chunks. *)
Lemma batch_all_saved (jobs : list (bytes * list bytes)) ops f :
  NoDup (map fst jobs) ->
  interleaved (map (fun j => save_ops (Path (fst j)) (snd j)) jobs) ops ->
  forall p chunks, In (p, chunks) jobs -> fs_run f ops p = Some (concat chunks).
Proof.
  intros ND HI p chunks Hin. apply In_nth_error in Hin as (i & Hi).
  rewrite fs_run_filter, (interleaved_filter _ _ p HI i).
  - rewrite (map_nth_error _ i _ Hi). rewrite <- fs_run_filter. cbn [fst snd].
    pose proof (crash_states p chunks (length (save_ops (Path p) chunks)) f) as (_ & _ & H).
    rewrite firstn_all in H. apply H. lia.
  - intros j l NE E. rewrite nth_error_map in E.
    destruct (nth_error jobs j) as [[p' c']|] eqn:Ej; [|discriminate]. injection E as <-. cbn [fst snd].
    assert (p' <> p).
    { intros ->. apply NE. eapply NoDup_nth_error with (l := map fst jobs); auto.
      - apply nth_error_Some. rewrite nth_error_map, Ej. discriminate.
      - rewrite !nth_error_map, Ej, Hi. reflexivity. }
    cbn [save_ops filter touchb]. apply bytes_eqb_neq in H. rewrite H.
    clear -H. induction c' as [|c cs IH]; cbn [map filter touchb]; [reflexivity|]. rewrite H. exact IH.
Qed.

(** With {hash} in the template, distinct torrents have distinct destinations. *)
Lemma save_dest_hash s ts t i1 i2 d1 d2 :
  reads s ts -> parse_template s = Ret (Ok t) -> In THash ts ->
  length (ti_hash i1) = 20%nat -> length (ti_hash i2) = 20%nat -> ti_hash i1 <> ti_hash i2 ->
  save_dest i1 t = Ret d1 -> save_dest i2 t = Ret d2 ->
  exists p1 p2, d1 = Path p1 /\ d2 = Path p2 /\ p1 <> p2.
Proof.
  intros HR HP HI L1 L2 NE. unfold save_dest.
  destruct (ti_name i1) as [n1|], (ti_name i2) as [n2|]; try discriminate.
  destruct (parse_reads _ _ HR) as (t' & HP' & F). rewrite HP in HP'. injection HP' as <-.
  rewrite !F. intros [= <-] [= <-].
  assert (G : forall n h, length h = 20%nat -> output_arg (expand ts n (show_info_hash h)) = Path (expand ts n (show_info_hash h))).
  { intros n h L. unfold output_arg. destruct (bytes_eqb_spec (expand ts n (show_info_hash h)) (bs "-")) as [E|]; auto.
    exfalso. assert (Lx : (40 <= length (expand ts n (show_info_hash h)))%nat); [|rewrite E in Lx; cbn in Lx; lia].
    clear E F. induction ts as [|x r IH]; [destruct HI|]. unfold expand in *. cbn [flat_map]. rewrite app_length.
    destruct HI as [->|HI].
    - rewrite show_length, L. lia.
    - assert (reads_r : True) by auto. clear HR.
      assert (40 <= length (flat_map (fun t0 : tok => match t0 with Ch c => [c] | TName => n | THash => show_info_hash h end) r))%nat; [|lia].
      clear -HI L. induction r as [|y r IH]; [destruct HI|]. cbn [flat_map]. rewrite app_length.
      destruct HI as [->|HI]; [rewrite show_length, L; lia|]. specialize (IH HI). lia. }
  rewrite !G by auto. eexists _, _. repeat split.
  apply expand_no_collision; auto.
  - now rewrite !show_length, L1, L2.
  - intros E. apply NE.
    pose proof (hex_decode_show (ti_hash i1)) as E1. pose proof (hex_decode_show (ti_hash i2)) as E2.
    rewrite E in E1. congruence.
Qed.

(** {hash} in the last component: distinct resolved files. *)
Lemma hash_last_distinct s dir last t n1 n2 h1 h2 :
  reads s (dir ++ Ch "/" :: last) \/ (dir = [] /\ reads s last) -> parse_template s = Ret (Ok t) ->
  slash_free last -> In THash last ->
  length h1 = 20%nat -> length h2 = 20%nat -> h1 <> h2 ->
  resolve (format_template t (sanitize n1) h1) <> resolve (format_template t (sanitize n2) h2).
Proof.
  intros HR HP SF HI L1 L2 NE E. apply (f_equal snd) in E.
  set (f1 := expand last (sanitize n1) (show_info_hash h1)) in *.
  set (f2 := expand last (sanitize n2) (show_info_hash h2)) in *.
  assert (NF : f1 <> f2).
  { apply expand_no_collision; auto; [now rewrite !show_length, L1, L2|].
    intros Eh. apply NE. pose proof (hex_decode_show h1) as E1. pose proof (hex_decode_show h2) as E2.
    rewrite Eh in E1. congruence. }
  assert (S1 : no_slash f1) by (apply expand_no_slash; auto using sanitize_no_slash, hash_no_slash).
  assert (S2 : no_slash f2) by (apply expand_no_slash; auto using sanitize_no_slash, hash_no_slash).
  assert (PC : forall n h, length h = 20%nat -> plain_component (expand last n (show_info_hash h))).
  { intros n h L. destruct (show_info_hash h) as [|b r] eqn:Eh.
    - pose proof (show_length h). rewrite Eh, L in *. discriminate.
    - apply (plain_of_char _ b).
      + unfold expand. apply in_flat_map. exists THash. split; [auto|left; reflexivity].
      + intros ->. pose proof (show_hex h) as HF. rewrite Eh in HF. inversion HF as [|? ? Hb _]. cbv in Hb.
        repeat (destruct Hb as [Hb|Hb]; [discriminate|]). destruct Hb. }
  pose proof (PC (sanitize n1) h1 L1) as P1. pose proof (PC (sanitize n2) h2 L2) as P2. fold f1 in P1. fold f2 in P2.
  destruct HR as [HR|[-> HR]]; destruct (parse_reads _ _ HR) as (t' & HP' & F); rewrite HP in HP'; injection HP' as <-;
    rewrite !F in E; rewrite ?expand_app in E.
  - change (expand (Ch "/" :: last) (sanitize n1) (show_info_hash h1)) with ("/"%byte :: f1) in E.
    change (expand (Ch "/" :: last) (sanitize n2) (show_info_hash h2)) with ("/"%byte :: f2) in E.
    rewrite !(fun p s a b => proj1 (resolve_last p s a b)) in E by auto.
    apply app_inj_tail in E as [_ E]. auto.
  - fold f1 f2 in E.
    pose proof (proj2 (resolve_last [] f1 S1 P1)) as R1. pose proof (proj2 (resolve_last [] f2 S2 P2)) as R2.
    rewrite R1, R2 in E. congruence.
Qed.

(** ** Witnesses *)
Definition mk_info (d : bytes) : torrent_info := mkTI (sha1 d) d.
Definition dotdot_info := mk_info (bs "d4:name2:..e").
Definition dash_info := mk_info (bs "d4:name1:-e").
Definition same1 := mk_info (bs "d4:name1:ae").
Definition same2 := mk_info (bs "d4:name1:a6:pieces0:e").
