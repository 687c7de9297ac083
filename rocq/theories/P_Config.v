(** Lemmas for C71, C72, C83. *)
From Verif Require Import Base BaseFacts S_Utf8 M_Utf8 P_Utf8 M_Net M_Tracker M_Session M_Magnet S_Magnet P_Magnet M_Config S_Config P_ExtWire.

Ltac conjs := repeat match goal with |- _ /\ _ => split end.

Lemma fold_ge l : forall acc, acc <= fold_left (fun a b => a * 10 + (b2n b - 48)) l acc.
Proof. induction l as [|b l IH]; intros acc; cbn [fold_left]; [lia|]. specialize (IH (acc * 10 + (b2n b - 48))). lia. Qed.
Lemma u16_digits_iff s : forall acc n, acc < 65536 -> (u16_digits s acc = Some n <->
  Forall (fun b => is_digit b = true) s /\ fold_left (fun a b => a * 10 + (b2n b - 48)) s acc = n /\ n < 65536).
Proof.
  induction s as [|c r IH]; intros acc n H; cbn [u16_digits fold_left].
  - split; [intros E; injection E as ->; auto|intros (_ & -> & _); reflexivity].
  - destruct (is_digit c) eqn:D.
    + destruct (N.ltb_spec (acc * 10 + (b2n c - 48)) 65536).
      * rewrite IH by auto. split; [intros (A & B & C); auto|intros (A & B & C); inversion A; auto].
      * split; [discriminate|]. intros (_ & E & L). pose proof (fold_ge r (acc * 10 + (b2n c - 48))). lia.
    + split; [discriminate|]. intros (F & _). inversion F; congruence.
Qed.
Lemma plus_not_digit : is_digit "+" = false. Proof. reflexivity. Qed.
Lemma parse_u16_iff s n : parse_u16 s = Some n <-> port_number s n.
Proof.
  unfold parse_u16, port_number, digits_val. destruct s as [|c r].
  - split; [discriminate|]. intros (ds & [<-|E] & NE & _); [congruence|discriminate].
  - destruct (beqb_spec c "+") as [->|NP].
    + destruct r as [|c r].
      * split; [discriminate|]. intros (ds & [<-|E] & NE & F & _); [inversion F; discriminate|injection E as <-; congruence].
      * rewrite u16_digits_iff by reflexivity. split.
        -- intros (A & B & C). exists (c :: r). conjs; auto. discriminate.
        -- intros (ds & [<-|E] & NE & F & V & L); [inversion F; discriminate|]. injection E as <-. auto.
    + rewrite u16_digits_iff by reflexivity. split.
      * intros (A & B & C). exists (c :: r). conjs; auto. discriminate.
      * intros (ds & [<-|E] & NE & F & V & L); auto. congruence.
Qed.

Lemma split_once_iff sep s a b : split_once sep s = Some (a, b) <-> s = a ++ sep :: b /\ ~ In sep a.
Proof.
  revert a b; induction s as [|c r IH]; intros a b; cbn [split_once].
  - split; [discriminate|]. intros (E & _). destruct a; discriminate.
  - destruct (beqb_spec c sep) as [->|N].
    + split.
      * intros E. assert (a = [] /\ b = r) as (-> & ->) by (split; congruence). auto.
      * intros (E & NI). destruct a as [|x a]; cbn [app] in E; [injection E as <-; reflexivity|].
        injection E as -> _. exfalso. apply NI. left; reflexivity.
    + destruct (split_once sep r) as [[a' b']|] eqn:S1.
      * destruct (proj1 (IH a' b') eq_refl) as (-> & NI). split.
        -- intros E. assert (a = c :: a' /\ b = b') as (-> & ->) by (split; congruence). split; auto. intros [X|X]; [congruence|auto].
        -- intros (E & NI'). destruct a as [|x a]; cbn [app] in E; [congruence|]. injection E as <- E.
           assert (NA : ~ In sep a) by (intros X; apply NI'; right; exact X). pose proof (proj2 (IH a b) (conj E NA)) as Q. first [discriminate Q | injection Q as -> ->; reflexivity].
      * split; [discriminate|]. intros (E & NI). destruct a as [|x a]; cbn [app] in E; [congruence|]. injection E as <- E.
        assert (NA : ~ In sep a) by (intros X; apply NI; right; exact X). pose proof (proj2 (IH a b) (conj E NA)) as Q. first [discriminate Q | injection Q as -> ->; reflexivity].
Qed.
Lemma rsplit_once_iff sep s a b : rsplit_once sep s = Some (a, b) <-> s = a ++ sep :: b /\ ~ In sep b.
Proof.
  unfold rsplit_once. split.
  - destruct (split_once sep (rev s)) as [[x y]|] eqn:E; [|discriminate]. intros H. assert (a = rev y /\ b = rev x) as (-> & ->) by (split; congruence).
    apply split_once_iff in E as (E & NI). split; [|rewrite <- in_rev; auto].
    rewrite <- (rev_involutive s), E, rev_app_distr. cbn [rev]. rewrite <- app_assoc. reflexivity.
  - intros (-> & NI). rewrite (proj2 (split_once_iff sep (rev (a ++ sep :: b)) (rev b) (rev a))).
    + now rewrite !rev_involutive.
    + split; [|rewrite <- in_rev; auto]. rewrite rev_app_distr. cbn [rev]. rewrite <- app_assoc. reflexivity.
Qed.
Lemma forallb_digits s : forallb is_digit s = true <-> Forall (fun b => is_digit b = true) s.
Proof. rewrite forallb_forall, Forall_forall. tauto. Qed.

Lemma text_split a sep b : is_text (a ++ sep :: b) -> b2n sep < 128 -> is_text a /\ is_text b.
Proof.
  intros (cs & F & E) H. revert a E. induction F as [|c cs SC F IH]; intros a E.
  - destruct a; discriminate.
  - change (utf8 (c :: cs)) with (utf8_char c ++ utf8 cs) in E.
    assert (T : utf8_char c = [n2b c] /\ c < 128 \/ 128 <= c /\ Forall (fun x => 128 <= b2n x) (utf8_char c)).
    { clear - SC. unfold utf8_char, scalar in *. destruct (N.ltb_spec c 128); [left; auto|right; split; auto].
      assert (forall m k, 128 <= k -> k + m < 256 -> 128 <= b2n (n2b (k + m))) as G by (intros; rewrite b2n_n2b_small; lia).
      pose proof (N.mod_lt c 64). pose proof (N.mod_lt (c / 64) 64). pose proof (N.mod_lt (c / 4096) 64).
      destruct (N.ltb_spec c 2048); [|destruct (N.ltb_spec c 65536)].
      - assert (c / 64 < 32) by (apply N.div_lt_upper_bound; lia). repeat constructor; apply G; lia.
      - assert (c / 4096 < 16) by (apply N.div_lt_upper_bound; lia). repeat constructor; apply G; lia.
      - assert (c / 262144 < 5) by (apply N.div_lt_upper_bound; lia). repeat constructor; apply G; lia. }
    destruct T as [(TC & L)|(L & FB)].
    + rewrite TC in E. cbn [app] in E. destruct a as [|x a]; cbn [app] in E.
      * injection E as _ E. split; [exists []; auto|exists cs; auto].
      * injection E as -> E. destruct (IH _ E) as ((cs1 & F1 & ->) & T2). split; auto.
        exists (c :: cs1). split; [constructor; auto|]. change (utf8 (c :: cs1)) with (utf8_char c ++ utf8 cs1).
        unfold utf8_char. apply N.ltb_lt in L. rewrite L. reflexivity.
    + assert (exists a', a = utf8_char c ++ a' /\ a' ++ sep :: b = utf8 cs) as (a' & -> & E').
      { revert a E. clear - FB H. induction FB as [|x l HX FB IH]; intros a E; cbn [app] in *; [exists a; auto|].
        destruct a as [|y a]; cbn [app] in E; [injection E as -> _; lia|]. injection E as -> E. destruct (IH _ E) as (a' & -> & E'). exists a'. auto. }
      destruct (IH _ E') as ((cs1 & F1 & ->) & T2). split; auto. exists (c :: cs1). split; [constructor; auto|]. reflexivity.
Qed.

(** Strings are UTF-8 (Rust's str). *)
Lemma local_port_str_iff s lp : is_text s -> (local_port_str s = Some lp <-> local_port_text (TStr s) lp).
Proof.
  intros TX. unfold local_port_str. destruct (forallb is_digit s) eqn:D.
  - apply forallb_digits in D. rewrite obind_some. split.
    + intros (p & H & E). assert (lp = Constant p) as -> by congruence. apply parse_u16_iff in H. pose proof H as (? & _ & _ & _ & _ & L).
      split; auto. right. eauto.
    + destruct lp as [n|lo hi].
      * intros (L & [E|(s' & E & _ & P)]); [discriminate|]. assert (s' = s) as -> by congruence. exists n. split; auto. now apply parse_u16_iff.
      * intros (_ & _ & a & b & a' & b' & E & _). assert (s = a ++ "-"%byte :: b) as -> by congruence. exfalso.
        apply Forall_app in D as [_ D]. inversion D; discriminate.
  - assert (ND : ~ Forall (fun b => is_digit b = true) s) by (intros X; apply forallb_digits in X; congruence). split.
    + intros H. apply obind_some in H as ([pre post] & H1 & H). apply obind_some in H as (low & H2 & H). apply obind_some in H as (high & H3 & H).
      destruct (N.leb_spec low high); [|discriminate]. assert (lp = Range low high) as -> by congruence.
      apply split_once_iff in H1 as (-> & NI). apply parse_u16_iff in H2, H3. cbn [local_port_text]. split; auto.
      assert (high < 65536) by (destruct H3 as (? & _ & _ & _ & _ & ?); auto). split; auto.
      destruct (text_split _ _ _ TX) as (T1 & T2); [reflexivity|].
      exists pre, post, (trim pre), (trim post). conjs; auto using trimmed_trim.
    + destruct lp as [n|lo hi].
      * intros (_ & [E|(s' & E & F & _)]); [discriminate|]. assert (s' = s) as -> by congruence. contradiction.
      * intros (L & L2 & a & b & a' & b' & E & NI & T1 & T2 & P1 & P2). assert (s = a ++ "-"%byte :: b) as -> by congruence.
        rewrite (proj2 (split_once_iff "-" _ a b)) by auto. cbn [obind]. rewrite (trim_trimmed _ _ T1), (trim_trimmed _ _ T2).
        apply parse_u16_iff in P1, P2. rewrite P1, P2. cbn [obind]. apply N.leb_le in L. rewrite L. reflexivity.
Qed.

(** *** Values *)
Definition decodes {A} (dec : toml -> option A) (R : toml -> A -> Prop) : Prop := forall v x, dec v = Some x <-> R v x.
Lemma z_of_n n z : Z.of_N n = z <-> (0 <= z)%Z /\ n = Z.to_N z.
Proof. lia. Qed.
Lemma as_nonzero_iff bits : decodes (as_nonzero bits) (positive bits).
Proof.
  intros v x. unfold as_nonzero, positive.
  assert (P : (2 ^ Z.of_N bits = Z.of_N (2 ^ bits))%Z) by (rewrite N2Z.inj_pow; reflexivity).
  rewrite P. generalize (2 ^ bits) as m. clear. intros m.
  destruct v; try (split; [discriminate|intros (E & _); discriminate]).
  destruct (Z.ltb_spec 0 z), (Z.ltb_spec z (Z.of_N m)); cbn [andb]; split.
  all: try discriminate.
  3,4,5: intros (E & ? & ?); injection E as ->; lia.
  - intros E. injection E as <-. conjs; [|lia|lia]. f_equal. lia.
  - intros (E & ? & ?). injection E as ->. f_equal. lia.
Qed.
Lemma as_seconds_iff : decodes as_seconds seconds.
Proof.
  intros v x. unfold as_seconds, seconds. change (2 ^ 64)%Z with (Z.of_N (2 ^ 64)). generalize (2 ^ 64) as m. intros m.
  destruct v; try (split; [discriminate|intros (E & _); discriminate]).
  destruct (Z.leb_spec 0 z), (Z.ltb_spec z (Z.of_N m)); cbn [andb]; split.
  all: try discriminate.
  3,4,5: intros (E & ?); injection E as ->; lia.
  - intros E. injection E as <-. conjs; [|lia]. f_equal. lia.
  - intros (E & ?). injection E as ->. f_equal. lia.
Qed.
Lemma as_pref_iff : decodes as_pref preference.
Proof.
  intros v x. unfold as_pref, preference.
  destruct v; try (split; [discriminate|destruct x; discriminate]).
  split.
  - repeat (destruct bytes_eqb eqn:E at 1; [apply bytes_eqb_eq in E as ->; intros Q; injection Q as <-; reflexivity|clear E]). discriminate.
  - destruct x; intros E; injection E as ->; reflexivity.
Qed.
Lemma as_local_port_iff v lp : (forall s, v = TStr s -> is_text s) -> (as_local_port v = Some lp <-> local_port_text v lp).
Proof.
  intros TX. destruct v as [z|s|l|d|]; cbn [as_local_port].
  - destruct (Z.leb_spec 0 z), (Z.ltb_spec z 65536); cbn [andb]; split; try discriminate.
    + intros E. injection E as <-. split; [lia|]. left. f_equal. lia.
    + destruct lp as [n|lo hi].
      * intros (L & [E|(s & E & _)]); [|discriminate]. injection E as ->. f_equal. f_equal. lia.
      * intros (_ & _ & a & b & a' & b' & E & _). discriminate.
    + destruct lp as [n|lo hi].
      * intros (L & [E|(s & E & _)]); [|discriminate]. injection E as ->. lia.
      * intros (_ & _ & a & b & a' & b' & E & _). discriminate.
    + destruct lp as [n|lo hi].
      * intros (L & [E|(s & E & _)]); [|discriminate]. injection E as ->. lia.
      * intros (_ & _ & a & b & a' & b' & E & _). discriminate.
    + destruct lp as [n|lo hi].
      * intros (L & [E|(s & E & _)]); [|discriminate]. injection E as ->. lia.
      * intros (_ & _ & a & b & a' & b' & E & _). discriminate.
  - apply local_port_str_iff. auto.
  - split; [discriminate|]. destruct lp as [n|lo hi]; [intros (_ & [E|(s & E & _)])|intros (_ & _ & a & b & a' & b' & E & _)]; discriminate.
  - split; [discriminate|]. destruct lp as [n|lo hi]; [intros (_ & [E|(s & E & _)])|intros (_ & _ & a & b & a' & b' & E & _)]; discriminate.
  - split; [discriminate|]. destruct lp as [n|lo hi]; [intros (_ & [E|(s & E & _)])|intros (_ & _ & a & b & a' & b' & E & _)]; discriminate.
Qed.
Lemma generate_ok v lp draw : (forall s, v = TStr s -> is_text s) -> as_local_port v = Some lp ->
  exists p, generate lp draw = Ret p /\ in_range lp p /\ p < 65536.
Proof.
  intros TX H. apply as_local_port_iff in H; auto. destruct lp as [n|lo hi]; cbn [generate in_range local_port_text] in *.
  - exists n. conjs; tauto.
  - destruct H as (L & L2 & _). pose proof (proj2 (N.leb_le _ _) L) as L3. rewrite L3. eexists. split; [reflexivity|].
    pose proof (N.mod_lt draw (hi - lo + 1)). lia.
Qed.
(** Every port of the range can come out. *)
Lemma generate_onto lp p : in_range lp p -> exists draw, generate lp draw = Ret p.
Proof.
  destruct lp as [n|lo hi]; cbn [generate in_range]; intros H; [exists 0; congruence|].
  exists (p - lo). destruct (N.leb_spec lo hi); [|lia]. f_equal. rewrite N.mod_small; lia.
Qed.

Section Nodes.
Variable parse_host : bytes -> option url_host.
Lemma inet_from_str_iff s a : inet_from_str parse_host s = Some a <-> node_text parse_host s a.
Proof.
  unfold inet_from_str, node_text. split.
  - intros H. apply obind_some in H as ([h p] & H1 & H). apply obind_some in H as (pn & H2 & H). apply obind_some in H as (hn & H3 & H).
    injection H as <-. apply rsplit_once_iff in H1 as (-> & NI). apply parse_u16_iff in H2. exists h, p. conjs; auto.
  - intros (h & p & -> & NI & H & P). rewrite (proj2 (rsplit_once_iff ":" _ h p)) by auto. cbn [obind].
    apply parse_u16_iff in P. rewrite P. cbn [obind]. rewrite H. cbn [obind]. destruct a; reflexivity.
Qed.
Lemma as_inets_iff vs l : as_inets parse_host vs = Some l <-> Forall2 (fun v a => exists s, v = TStr s /\ node_text parse_host s a) vs l.
Proof.
  revert l; induction vs as [|v vs IH]; intros l; cbn [as_inets].
  - split; [intros E; injection E as <-; constructor|intros F; inversion F; reflexivity].
  - split.
    + intros H. apply obind_some in H as (a & H1 & H). apply obind_some in H as (l' & H2 & H). injection H as <-.
      constructor; [|apply IH; auto]. destruct v; try discriminate H1. exists s. split; auto. apply inet_from_str_iff, H1.
    + intros F. inversion F as [|x a y l' (s & -> & NT) F' EQ1 EQ2]; subst. cbn [as_inet]. apply inet_from_str_iff in NT. rewrite NT. cbn [obind].
      apply IH in F'. rewrite F'. reflexivity.
Qed.
Lemma as_inets1_iff : decodes (as_inets1 parse_host) (nodes parse_host).
Proof.
  intros v l. unfold nodes. split.
  - destruct v as [| |[|x r]| |]; try discriminate. unfold as_inets1. intros H. apply as_inets_iff in H. split; [|eauto].
    inversion H; discriminate.
  - intros (NE & vs & -> & F). destruct vs as [|x r]; [inversion F; congruence|]. unfold as_inets1. apply as_inets_iff, F.
Qed.
End Nodes.

(** *** Tables *)
Lemma tget_none k d : tget k d = None <-> ~ In k (map fst d).
Proof.
  induction d as [|[k' v] d IH]; cbn [tget map fst In]; [tauto|]. destruct (bytes_eqb_spec k' k) as [->|N].
  - split; [discriminate|tauto].
  - rewrite IH. tauto.
Qed.
Lemma tget_some k d v : NoDup (map fst d) -> (tget k d = Some v <-> In (k, v) d).
Proof.
  induction d as [|[k' v'] d IH]; cbn [tget map fst In]; intros ND; [split; [discriminate|tauto]|].
  inversion ND as [|x l NI ND']; subst. destruct (bytes_eqb_spec k' k) as [->|N].
  - split; [intros E; left; congruence|]. intros [E|X]; [congruence|]. exfalso. apply NI. now apply (in_map fst) in X.
  - rewrite IH by auto. split; [auto|]. intros [E|X]; [congruence|auto].
Qed.
Lemma setting_some {A} d k dec (x y : A) : setting d k dec x = Some y <->
  (exists v, tget k d = Some v /\ dec v = Some y) \/ (tget k d = None /\ y = x).
Proof.
  unfold setting. destruct (tget k d) as [v|].
  - split; [left; eauto|]. intros [(w & E & D)|(E & _)]; [injection E as <-; auto|discriminate].
  - split; [intros E; injection E as ->; right; auto|]. intros [(w & E & D)|(_ & ->)]; [discriminate|auto].
Qed.
Lemma section_some doc k d : NoDup (map fst doc) -> (section doc k = Some d <->
  is_table doc k /\ (In (k, TTable d) doc \/ (~ In k (map fst doc) /\ d = []))).
Proof.
  intros ND. unfold section, is_table. destruct (tget k doc) as [v|] eqn:T.
  - apply tget_some in T; auto.
    assert (U : forall w, In (k, w) doc -> w = v).
    { intros w H. apply tget_some in H, T; auto. congruence. }
    assert (P : In k (map fst doc)) by (apply (in_map fst) in T; exact T).
    destruct v; try (split; [discriminate|]; intros (F & _); destruct (F _ T); discriminate).
    split.
    + intros E. injection E as ->. split; auto. intros w H. rewrite (U _ H). eauto.
    + intros (_ & [H|(N & _)]); [|tauto]. apply U in H. injection H as ->. reflexivity.
  - apply tget_none in T. split.
    + intros E. injection E as <-. split; auto. intros w H. apply (in_map fst) in H. contradiction.
    + intros (_ & [H|(_ & ->)]); auto. apply (in_map fst) in H. contradiction.
Qed.
Lemma says_iff {A} doc sec d key dec (R : toml -> A -> Prop) x y : toml_doc doc -> section doc sec = Some d ->
  (forall v z, (forall s, v = TStr s -> is_text s) -> (dec v = Some z <-> R v z)) ->
  (setting d key dec x = Some y <-> says doc sec key R x y).
Proof.
  intros (ND & W) S1 D. rewrite setting_some. apply section_some in S1 as (IT & S1); auto. unfold says.
  assert (U : forall d', In (sec, TTable d') doc -> d' = d).
  { intros d' H. destruct S1 as [S1|(N & _)].
    - apply (tget_some _ _ _ ND) in H. apply (tget_some _ _ _ ND) in S1. rewrite S1 in H. injection H as <-. reflexivity.
    - apply (in_map fst) in H. contradiction. }
  split.
  - intros [(v & G & V)|(G & ->)].
    + destruct S1 as [S1|(_ & ->)]; [|discriminate]. destruct (W _ _ S1) as (ND' & TX). apply tget_some in G; auto.
      left. exists d, v. conjs; auto. apply D; auto. intros s ->. eauto.
    + right. split; auto. apply tget_none in G. destruct S1 as [S1|(N & _)]; eauto.
  - intros [(d' & v & H1 & H2 & H3)|([N|(d' & H1 & H2)] & ->)].
    + pose proof (U _ H1) as ->. destruct (W _ _ H1) as (ND' & TX). left. exists v. split; [apply tget_some; auto|]. apply D; auto. intros s ->. eauto.
    + right. split; auto. destruct S1 as [S1|(_ & ->)]; [apply (in_map fst) in S1; contradiction|reflexivity].
    + pose proof (U _ H1) as ->. right. split; auto. now apply tget_none.
Qed.
Lemma says_section doc sec : toml_doc doc -> is_table doc sec -> exists d, section doc sec = Some d.
Proof.
  intros (ND & _) IT. unfold section. destruct (tget sec doc) as [v|] eqn:T; [|eauto]. apply tget_some in T; auto. destruct (IT _ T) as (d & ->). eauto.
Qed.
Lemma obind_eq {A B} (o : option A) x (f : A -> option B) : o = Some x -> obind o f = f x.
Proof. intros ->. reflexivity. Qed.

Section Whole.
Variable parse_host : bytes -> option url_host.
Lemma config_of_iff boot doc c : toml_doc doc -> (config_of parse_host boot doc = Some c <-> settings parse_host boot doc c).
Proof.
  intros W. assert (N := proj1 W). unfold config_of, settings. split.
  - intros H.
    apply obind_some in H as (g & SG & H). apply obind_some in H as (x1 & S1 & H). apply obind_some in H as (x2 & S2 & H).
    apply obind_some in H as (t & ST & H). apply obind_some in H as (x3 & S3 & H). apply obind_some in H as (x4 & S4 & H).
    apply obind_some in H as (x5 & S5 & H). apply obind_some in H as (x6 & S6 & H). apply obind_some in H as (x7 & S7 & H).
    apply obind_some in H as (p & SP & H). apply obind_some in H as (x8 & S8 & H). apply obind_some in H as (x9 & S9 & H).
    apply obind_some in H as (x10 & S10 & H).
    apply obind_some in H as (d & SD & H). apply obind_some in H as (x11 & S11 & H). apply obind_some in H as (x12 & S12 & H).
    injection H as <-. cbn [c_batch_jobs c_encrypt c_local_port c_numwant c_tracker_jobs c_announce_timeout c_shutdown_timeout c_peer_jobs c_handshake_timeout c_dh_timeout c_bootstrap c_query_timeout].
    pose proof (proj1 (proj1 (section_some _ _ _ N) SG)). pose proof (proj1 (proj1 (section_some _ _ _ N) ST)).
    pose proof (proj1 (proj1 (section_some _ _ _ N) SP)). pose proof (proj1 (proj1 (section_some _ _ _ N) SD)).
    conjs; auto; (eapply says_iff; [eassumption|eassumption| |eassumption]); intros; auto using as_local_port_iff; first [apply as_nonzero_iff|apply as_pref_iff|apply as_seconds_iff|apply as_inets1_iff].
  - intros ((T1 & T2 & T3 & T4) & S1 & S2 & S3 & S4 & S5 & S6 & S7 & S8 & S9 & S10 & S11 & S12).
    destruct (says_section doc _ W T1) as (g & SG). destruct (says_section doc _ W T2) as (t & ST).
    destruct (says_section doc _ W T3) as (p & SP). destruct (says_section doc _ W T4) as (d & SD).
    rewrite (obind_eq _ _ _ SG). cbv beta.
    eapply says_iff in S1; [|eassumption|exact SG|intros; apply as_nonzero_iff]. rewrite (obind_eq _ _ _ S1). cbv beta.
    eapply says_iff in S2; [|eassumption|exact SG|intros; apply as_pref_iff]. rewrite (obind_eq _ _ _ S2). cbv beta.
    rewrite (obind_eq _ _ _ ST). cbv beta.
    eapply says_iff in S3; [|eassumption|exact ST|intros; apply as_local_port_iff; auto]. rewrite (obind_eq _ _ _ S3). cbv beta.
    eapply says_iff in S4; [|eassumption|exact ST|intros; apply as_nonzero_iff]. rewrite (obind_eq _ _ _ S4). cbv beta.
    eapply says_iff in S5; [|eassumption|exact ST|intros; apply as_nonzero_iff]. rewrite (obind_eq _ _ _ S5). cbv beta.
    eapply says_iff in S6; [|eassumption|exact ST|intros; apply as_seconds_iff]. rewrite (obind_eq _ _ _ S6). cbv beta.
    eapply says_iff in S7; [|eassumption|exact ST|intros; apply as_seconds_iff]. rewrite (obind_eq _ _ _ S7). cbv beta.
    rewrite (obind_eq _ _ _ SP). cbv beta.
    eapply says_iff in S8; [|eassumption|exact SP|intros; apply as_nonzero_iff]. rewrite (obind_eq _ _ _ S8). cbv beta.
    eapply says_iff in S9; [|eassumption|exact SP|intros; apply as_seconds_iff]. rewrite (obind_eq _ _ _ S9). cbv beta.
    eapply says_iff in S10; [|eassumption|exact SP|intros; apply as_seconds_iff]. rewrite (obind_eq _ _ _ S10). cbv beta.
    rewrite (obind_eq _ _ _ SD). cbv beta.
    eapply says_iff in S11; [|eassumption|exact SD|intros; apply as_inets1_iff]. rewrite (obind_eq _ _ _ S11). cbv beta.
    eapply says_iff in S12; [|eassumption|exact SD|intros; apply as_seconds_iff]. rewrite (obind_eq _ _ _ S12). cbv beta.
    destruct c; reflexivity.
Qed.
Lemma default_config_iff boot c : all_default parse_host boot c <-> c = default_config boot.
Proof.
  assert (W : toml_doc []) by (split; [constructor|intros k d []]).
  unfold all_default. rewrite <- config_of_iff by exact W.
  change (config_of parse_host boot []) with (Some (default_config boot)). split; congruence.
Qed.
End Whole.

(** *** Selection *)
Section Select.
Variable parse_host : bytes -> option url_host.
Variable parse_toml : bytes -> option table.
Hypothesis toml_ok : forall content doc, parse_toml content = Some doc -> toml_doc doc.
Variable fs : files.
Lemma load_iff boot p c : load parse_host parse_toml fs p boot = Ok c <-> file_gives parse_host parse_toml fs boot p c.
Proof.
  unfold load, file_gives. destruct (fs p) as [content|nf].
  - destruct (parse_toml content) as [doc|] eqn:P.
    + pose proof (toml_ok _ _ P) as W. split.
      * unfold ok_or. destruct (config_of parse_host boot doc) eqn:C; [|discriminate]. intros E. injection E as <-.
        exists content, doc. conjs; auto. now apply config_of_iff.
      * intros (x & d & E1 & E2 & S1). injection E1 as <-. assert (d = doc) as -> by congruence. apply config_of_iff in S1; auto. rewrite S1. reflexivity.
    + split; [discriminate|]. intros (x & d & E1 & E2 & S1). injection E1 as <-. congruence.
  - split; [discriminate|]. intros (x & d & E1 & _). discriminate.
Qed.
Lemma select_none path dp boot : exists c, select_config parse_host parse_toml fs true path dp boot = ([], Some c) /\ all_default parse_host boot c.
Proof. exists (default_config boot). split; [reflexivity|]. now apply default_config_iff. Qed.
Lemma select_no_home boot : select_config parse_host parse_toml fs false None None boot = ([], None).
Proof. reflexivity. Qed.
Lemma select_explicit p dp boot : exists o, select_config parse_host parse_toml fs false (Some p) dp boot = ([p], o) /\
  forall c, o = Some c <-> file_gives parse_host parse_toml fs boot p c.
Proof.
  eexists. split; [reflexivity|]. intros c. rewrite <- load_iff. destruct load as [c'|[[|]|]]; split; congruence.
Qed.
Lemma select_default p boot : exists o, select_config parse_host parse_toml fs false None (Some p) boot = ([p], o) /\
  forall c, o = Some c <-> file_gives parse_host parse_toml fs boot p c \/ (fs p = Err true /\ all_default parse_host boot c).
Proof.
  eexists. split; [reflexivity|]. intros c. rewrite default_config_iff, <- load_iff. unfold load.
  destruct (fs p) as [content|[|]].
  - destruct parse_toml; cbn [ok_or]; [destruct config_of; cbn [ok_or]|]; split; try congruence; try (intros [E|(E & _)]; congruence).
    intros E; left; congruence.
  - split; [intros E; right; split; congruence|]. intros [E|(_ & ->)]; [congruence|reflexivity].
  - split; try discriminate. intros [E|(E & _)]; congruence.
Qed.
End Select.

Lemma ascii_text s : Forall (fun b => b2n b < 128) s -> is_text s.
Proof.
  intros F. exists (map b2n s). split.
  - apply Forall_forall. intros c H. apply in_map_iff in H as (b & <- & H). rewrite Forall_forall in F. specialize (F _ H). unfold scalar. lia.
  - induction F as [|b s L F IH]; [reflexivity|]. cbn [map]. change (utf8 (b2n b :: map b2n s)) with (utf8_char (b2n b) ++ utf8 (map b2n s)). rewrite <- IH.
    unfold utf8_char. apply N.ltb_lt in L. rewrite L. rewrite n2b_b2n. reflexivity.
Qed.
Lemma toml_doc_b (doc : table) :
  NoDup (map fst doc) -> Forall (fun kv => match snd kv with TTable d => NoDup (map fst d) /\
    Forall (fun kv => match snd kv with TStr s => forallb (fun b => b2n b <? 128) s = true | _ => True end) d | _ => True end) doc -> toml_doc doc.
Proof.
  intros ND F. split; auto. intros k d H. rewrite Forall_forall in F. destruct (F _ H) as (N & G). split; auto.
  intros k' s H'. rewrite Forall_forall in G. specialize (G _ H'). cbn [snd] in G. apply ascii_text.
  rewrite forallb_forall in G. apply Forall_forall. intros b B. apply N.ltb_lt, G, B.
Qed.

Lemma default_bootstrap_eq (parse_host : bytes -> option url_host) h1 h2 h3 :
  parse_host (bs "dht.transmissionbt.com") = Some h1 -> parse_host (bs "relay.pkarr.org") = Some h2 ->
  parse_host (bs "router.bittorrent.com") = Some h3 ->
  default_bootstrap parse_host = Ret [mkInet h1 6881; mkInet h2 6881; mkInet h3 6881].
Proof.
  intros E1 E2 E3. unfold default_bootstrap.
  assert (E : as_inets parse_host (map TStr bootstrap_names) = Some [mkInet h1 6881; mkInet h2 6881; mkInet h3 6881]).
  2:{ now rewrite E. }
  vm_compute in E1, E2, E3 |- *. rewrite E1. vm_compute. rewrite E2. vm_compute. now rewrite E3.
Qed.
