(** Lemmas for C20, C21. *)
From Verif Require Import Base BaseFacts S_Utf8 M_Utf8 P_Utf8 S_Types M_Types P_Types M_Net M_IpText M_Tracker M_Udp P_UdpSession M_Form S_Form P_Form M_Http P_Http M_Magnet S_Magnet.

Lemma strip_prefix_spec p : forall s r, strip_prefix p s = Some r <-> s = p ++ r.
Proof.
  induction p as [|x p IH]; intros s r; cbn [strip_prefix app].
  - split; congruence.
  - destruct s as [|y s]; [split; discriminate|].
    destruct (beqb_spec x y) as [<-|N]; [rewrite IH; split; congruence|split; congruence].
Qed.

Lemma denotes_iff x h : denotes_hash x h <-> parse_info_hash x = Ok h.
Proof.
  split.
  - intros (L & H). assert (A : exists h', parse_info_hash x = Ok h').
    { apply parse_accepts. destruct H as [[L1 H]|[L1 H]]; [left|right]; split; auto.
      - revert H. generalize (be_val h). clear. intros n H. unfold is_numeral. revert n H. induction x as [|c x IH]; intros; constructor; cbn [number] in H;
          destruct (hex_value c); cbn [obind] in H; try discriminate; destruct (number 16 hex_value x); cbn [obind] in H; try discriminate; eauto.
      - revert H. generalize (be_val h). clear. intros n H. unfold is_numeral. revert n H. induction x as [|c x IH]; intros; constructor; cbn [number] in H;
          destruct (base32_value c); cbn [obind] in H; try discriminate; destruct (number 32 base32_value x); cbn [obind] in H; try discriminate; eauto. }
    destruct A as [h' E]. rewrite E. destruct (parse_numeric _ _ E) as (L' & H').
    f_equal. apply be_val_inj; [congruence|].
    destruct H as [[? H]|[? H]], H' as [[? H']|[? H']]; congruence || (rewrite H in H'; congruence).
  - intros H. destruct (parse_numeric _ _ H). split; auto.
Qed.

Lemma parse_xt_iff v h : parse_xt v = Ok h <-> exists x, v = bs "urn:btih:" ++ x /\ denotes_hash x h.
Proof.
  unfold parse_xt. split.
  - destruct (strip_prefix (bs "urn:") v) as [s|] eqn:E1; [|discriminate].
    destruct (strip_prefix (bs "btih:") s) as [x|] eqn:E2; [|discriminate].
    apply strip_prefix_spec in E1, E2. subst. intros H. exists x. split; [reflexivity|].
    apply denotes_iff. destruct (parse_info_hash x); cbn [res_map_err] in H; congruence.
  - intros (x & -> & H). apply denotes_iff in H.
    change (bs "urn:btih:" ++ x) with (bs "urn:" ++ (bs "btih:" ++ x)).
    rewrite (proj2 (strip_prefix_spec (bs "urn:") (bs "urn:" ++ (bs "btih:" ++ x)) _) eq_refl).
    rewrite (proj2 (strip_prefix_spec (bs "btih:") (bs "btih:" ++ x) _) eq_refl). rewrite H. reflexivity.
Qed.

Lemma supported_iff u t : tracker_of u = Ok t <-> supported u t.
Proof.
  pose proof (tracker_dispatch u) as D. split.
  - intros E. rewrite E in D. destruct t as [v|x].
    + destruct D as (-> & A & B). left. auto.
    + destruct D as (A & B). right. split; auto. pose proof (udp_url_spec u) as U. rewrite B in U.
      destruct U as (_ & P & Q & R). destruct x as [h p dt]. cbn [uu_host uu_port uu_data] in *.
      exists h, p. subst dt. destruct (u_host u) as [[d|i]|]; [| |contradiction]; subst; (split; [|split]); eauto.
  - intros [(A & B & ->)|(A & h & p & B & C & ->)].
    + unfold tracker_of, http_url_of. destruct (u_host u) eqn:H; [|congruence].
      destruct A as [-> | ->]; reflexivity.
    + unfold tracker_of, udp_url_of. rewrite A. cbn [bytes_eqb orb negb bs]. rewrite C.
      replace (bytes_eqb (bs "udp") (bs "http")) with false by reflexivity.
      replace (bytes_eqb (bs "udp") (bs "https")) with false by reflexivity.
      replace (bytes_eqb (bs "udp") (bs "udp")) with true by reflexivity.
      destruct B as [-> | (i & -> & ->)]; reflexivity.
Qed.

Lemma xt_dn : bytes_eqb (bs "xt") (bs "dn") = false. Proof. reflexivity. Qed.
Lemma xt_tr : bytes_eqb (bs "xt") (bs "tr") = false. Proof. reflexivity. Qed.
Lemma dn_xt : bytes_eqb (bs "dn") (bs "xt") = false. Proof. reflexivity. Qed.
Lemma dn_tr : bytes_eqb (bs "dn") (bs "tr") = false. Proof. reflexivity. Qed.
Lemma tr_xt : bytes_eqb (bs "tr") (bs "xt") = false. Proof. reflexivity. Qed.
Lemma tr_dn : bytes_eqb (bs "tr") (bs "dn") = false. Proof. reflexivity. Qed.

Lemma values_cons k k' v r : values k ((k', v) :: r) = (if bytes_eqb k' k then [v] else []) ++ values k r.
Proof. unfold values. cbn [filter fst]. destruct (bytes_eqb k' k); reflexivity. Qed.
Definition or_else (a b : option bytes) := match a with Some _ => a | None => b end.
Lemma last_value_cons k k' v r : last_value k ((k', v) :: r) =
  or_else (last_value k r) (if bytes_eqb k' k then Some v else None).
Proof.
  unfold last_value. rewrite values_cons. destruct (bytes_eqb k' k); cbn [app].
  - cbn [rev]. destruct (rev (values k r)); reflexivity.
  - destruct (rev (values k r)); reflexivity.
Qed.

(** ** Files *)
Lemma is_white_iff c : is_white c = true <-> white c.
Proof. unfold is_white, white. rewrite !orb_true_iff, !andb_true_iff, !N.leb_le, !N.eqb_eq. tauto. Qed.
Lemma drop_white_all a l : Forall white a -> drop_white (a ++ l) = drop_white l.
Proof. induction 1 as [|c a H _ IH]; cbn [app drop_white]; auto. apply is_white_iff in H. rewrite H. auto. Qed.
Lemma drop_white_split l : exists a, l = a ++ drop_white l /\ Forall white a /\ (forall c r, drop_white l = c :: r -> ~ white c).
Proof.
  induction l as [|c l (a & E & A & H)]; cbn [drop_white].
  - exists []. split; [|split]; auto. discriminate.
  - destruct (is_white c) eqn:W.
    + exists (c :: a). cbn [app]. rewrite <- E. split; [auto|split; auto]. constructor; auto. apply is_white_iff. auto.
    + exists []. split; [auto|split; auto]. intros c' r' X Y. apply is_white_iff in Y. congruence.
Qed.
Lemma drop_white_stop c r : ~ white c -> drop_white (c :: r) = c :: r.
Proof. cbn [drop_white]. destruct (is_white c) eqn:W; auto. apply is_white_iff in W. tauto. Qed.
Lemma Forall_rev' {A} (P : A -> Prop) l : Forall P (rev l) <-> Forall P l.
Proof. split; intros H; [rewrite <- (rev_involutive l)|]; apply Forall_rev; auto. Qed.

Lemma trimmed_trim s : is_text s -> trimmed s (trim s).
Proof.
  intros (cs & SC & ->). unfold trim. rewrite lossy_chars_utf8 by auto.
  destruct (drop_white_split cs) as (a & E & A & H).
  remember (drop_white cs) as l. clear Heql. subst cs.
  destruct (drop_white_split (rev l)) as (b & E' & B & H').
  remember (drop_white (rev l)) as m. clear Heqm.
  assert (E2 : l = rev m ++ rev b). { rewrite <- rev_app_distr, <- E', rev_involutive. auto. }
  exists a, (rev m), (rev b). rewrite E2 in SC, H |- *. split; [auto|]. split; [auto|]. split; [auto|]. split; [auto|].
  split; [apply Forall_rev'; auto|]. split.
  - intros c r X. rewrite X in H. cbn [app] in H. eapply H. reflexivity.
  - intros c r X. apply (f_equal (@rev N)) in X. rewrite rev_involutive, rev_app_distr in X. cbn [rev app] in X. eapply H'. exact X.
Qed.
Lemma trim_trimmed s t : trimmed s t -> trim s = t.
Proof.
  intros (a & m & b & SC & -> & -> & A & B & H1 & H2). unfold trim. rewrite lossy_chars_utf8 by auto. f_equal.
  rewrite drop_white_all by auto. destruct m as [|c m].
  - cbn [app]. replace b with (b ++ []) by apply app_nil_r. rewrite drop_white_all by auto. reflexivity.
  - cbn [app]. rewrite drop_white_stop by (eapply H1; reflexivity). change (c :: m ++ b) with ((c :: m) ++ b).
    rewrite rev_app_distr, drop_white_all by (apply Forall_rev'; auto).
    destruct (@exists_last _ (c :: m)) as (m' & d & E); [discriminate|]. rewrite E, rev_app_distr. cbn [rev app].
    rewrite drop_white_stop by (eapply H2; exact E). cbn [rev]. rewrite rev_involutive. reflexivity.
Qed.

Lemma utf8_app a b : utf8 (a ++ b) = utf8 a ++ utf8 b.
Proof. unfold utf8. rewrite map_app, concat_app. reflexivity. Qed.
Lemma utf8_char_last c l b : scalar c -> utf8_char c = l ++ [b] -> b2n b < 128 -> utf8_char c = [b] /\ c = b2n b.
Proof.
  unfold utf8_char, scalar. intros SC E L.
  destruct (N.ltb_spec c 128).
  - destruct l as [|x [|y l]]; cbn [app] in E; try discriminate. assert (b = n2b c) as -> by congruence.
    split; auto. rewrite b2n_n2b_small; lia.
  - exfalso. destruct (N.ltb_spec c 2048); [|destruct (N.ltb_spec c 65536)];
      match type of E with ?x = _ => assert (last x x00 = b) as X by (rewrite E; apply last_last) end; cbn [last] in X; subst b;
      rewrite b2n_n2b_small in L; lia.
Qed.
Lemma is_text_strip s : is_text (s ++ [x0d]) -> is_text s /\ forall t, trimmed s t -> trimmed (s ++ [x0d]) t.
Proof.
  intros (cs & SC & E). destruct cs as [|c0 cs0]; [destruct s; discriminate|].
  destruct (@exists_last _ (c0 :: cs0)) as (cs & c & E2); [discriminate|]. rewrite E2 in *. clear c0 cs0 E2.
  apply Forall_app in SC. destruct SC as (SC & C). inversion C as [|? ? C' _]. subst.
  rewrite utf8_app in E. unfold utf8 at 2 in E. cbn [map concat] in E. rewrite app_nil_r in E.
  assert (NE : utf8_char c <> []). { intros X. pose proof (utf8_char_len c). rewrite X in *. cbn [length] in *. lia. }
  destruct (@exists_last _ (utf8_char c)) as (w & b & W); auto.
  rewrite W, app_assoc in E. apply app_inj_tail in E. destruct E as (E & <-).
  destruct (utf8_char_last c w x0d) as (W2 & CC); auto; [reflexivity|].
  assert (w = []). { rewrite W in W2. apply (app_inv_tail [x0d] w []). exact W2. } subst w. rewrite app_nil_r in E. subst s.
  split; [exists cs; auto|]. intros t (a & m & b & SC' & EE & -> & A & B & H1 & H2).
  exists a, m, (b ++ [13]). split; [|split; [|split; [auto|split; [auto|split; auto]]]].
  - replace (a ++ m ++ b ++ [13]) with ((a ++ m ++ b) ++ [13]) by (rewrite <- !app_assoc; reflexivity). apply Forall_app. split; auto. constructor; [|constructor]. left. reflexivity.
  - rewrite EE, !utf8_app, <- !app_assoc. reflexivity.
  - apply Forall_app. split; auto. constructor; [|constructor]. left. lia.
Qed.
Lemma trim_strip_cr s : is_text s -> trim (strip_cr s) = trim s.
Proof.
  intros T. unfold strip_cr. destruct (rev s) as [|c r] eqn:E; auto. destruct (beqb_spec c x0d) as [->|]; auto.
  apply (f_equal (@rev byte)) in E. rewrite rev_involutive in E. cbn [rev] in E. subst s.
  destruct (is_text_strip _ T) as (T' & H). symmetry. apply trim_trimmed, H, trimmed_trim, T'.
Qed.

Lemma lines_rev cur l s : ~ In x0a cur -> ~ In x0a s -> raw_lines (s ++ x0a :: l) cur = (rev cur ++ s) :: raw_lines l [].
Proof.
  intros C. revert cur C. induction s as [|x s IH]; intros cur C S'; cbn [app raw_lines].
  - rewrite beqb_refl, app_nil_r. reflexivity.
  - destruct (beqb_spec x x0a) as [->|N]; [cbn [In] in S'; tauto|]. cbn [In] in *. rewrite IH; [|intros [X|X]; [congruence|tauto]|tauto].
    cbn [rev]. rewrite <- app_assoc. reflexivity.
Qed.
Lemma lines_end s : forall cur, ~ In x0a s -> raw_lines s cur = match rev cur ++ s with [] => [] | l => [l] end.
Proof.
  induction s as [|x s IH]; intros cur H; cbn [raw_lines].
  - rewrite app_nil_r. destruct cur as [|c r]; auto. destruct (rev (c :: r)) eqn:E; auto. cbn [rev] in E. apply app_eq_nil in E. destruct E; discriminate.
  - cbn [In] in H. destruct (beqb_spec x x0a) as [->|N]; [tauto|]. rewrite IH by tauto. cbn [rev]. rewrite <- app_assoc. reflexivity.
Qed.
Lemma lines_iff s l : lines s l <-> raw_lines s [] = l.
Proof.
  split.
  - induction 1 as [|s NE N|s r l N L IH]; auto.
    + rewrite lines_end by auto. cbn [rev app]. destruct s; congruence.
    + rewrite lines_rev by (auto; tauto). cbn [rev app]. congruence.
  - intros <-. remember (length s) as n. assert (L : (length s <= n)%nat) by lia. clear Heqn. revert s L.
    induction n as [|n IH]; intros s L.
    + destruct s; [constructor|cbn [length] in L; lia].
    + destruct (in_dec Byte.byte_eq_dec x0a s) as [I'|N].
      * assert (X : exists a r, s = a ++ x0a :: r /\ ~ In x0a a).
        { clear - I'. induction s as [|c s IHs]; [destruct I'|]. destruct (Byte.byte_eq_dec c x0a) as [->|N].
          - exists [], s. auto.
          - destruct I' as [X|I']; [congruence|]. destruct (IHs I') as (a & r & -> & H). exists (c :: a), r. split; auto. cbn [In]. intros [X|X]; congruence || tauto. }
        destruct X as (a & r & -> & H). rewrite lines_rev by (auto; tauto). cbn [rev app]. constructor; auto. apply IH.
        rewrite app_length in L. cbn [length] in L. lia.
      * rewrite lines_end by auto. cbn [rev app]. destruct s; constructor; auto. discriminate.
Qed.


Section P.
Variable parse_url : bytes -> option url.
Notation is_tracker := (is_tracker parse_url).
Notation line_ok := (line_ok parse_url).
Notation line_bad := (line_bad parse_url).
Notation file_result := (file_result parse_url).
Lemma is_tracker_iff s t : tracker_from_str parse_url s = Ok t <-> is_tracker s t.
Proof.
  unfold tracker_from_str, is_tracker. destruct (parse_url s) as [u|].
  - split.
    + intros H. exists u. split; auto. apply supported_iff. destruct (tracker_of u); cbn [res_map_err] in H; congruence.
    + intros (u' & E & H). apply supported_iff in H. assert (u' = u) by congruence. subst. rewrite H. reflexivity.
  - split; [discriminate|]. intros (? & E & _). discriminate.
Qed.

Definition xt_says (kvs : list (bytes * bytes)) (ih ih' : option bytes) : Prop :=
  (values (bs "xt") kvs = [] /\ ih' = ih) \/
  (ih = None /\ exists v h, values (bs "xt") kvs = [v] /\ parse_xt v = Ok h /\ ih' = Some h).
Lemma magnet_go_spec kvs : forall ih dn trs ih' dn' trs',
  magnet_go parse_url kvs ih dn trs = Ok (ih', dn', trs') <->
  xt_says kvs ih ih' /\ dn' = or_else (last_value (bs "dn") kvs) dn /\
  exists ts, trs' = trs ++ ts /\ Forall2 is_tracker (values (bs "tr") kvs) ts.
Proof.
  induction kvs as [|[k v] r IH]; intros; cbn [magnet_go].
  - split.
    + intros H. assert (ih' = ih /\ dn' = dn /\ trs' = trs) as (-> & -> & ->) by (split; [|split]; congruence).
      split; [left; auto|split; [reflexivity|]]. exists []. rewrite app_nil_r. split; [auto|constructor].
    + intros ([(_ & ->)|(_ & v & h & X & _)] & -> & ts & -> & F); [|discriminate X].
      inversion F. rewrite app_nil_r. reflexivity.
  - unfold xt_says. rewrite !values_cons, last_value_cons.
    destruct (bytes_eqb_spec k (bs "xt")) as [->|N1]; [|destruct (bytes_eqb_spec k (bs "dn")) as [->|N2]; [|destruct (bytes_eqb_spec k (bs "tr")) as [->|N3]]].
    + rewrite xt_dn, xt_tr. cbn [app]. destruct ih as [h0|].
      * split; [discriminate|]. intros ([(X & _)|(X & _)] & _); discriminate.
      * destruct (parse_xt v) as [h|e] eqn:E; cbn [res_map_err res_bind].
        -- rewrite IH. unfold xt_says. split.
           ++ intros ([(X & ->)|(X & _)] & -> & T); [|discriminate]. split; [|split; auto].
              ** right. split; auto. exists v, h. rewrite X. auto.
              ** destruct (last_value (bs "dn") r); reflexivity.
           ++ intros ([(X & _)|(_ & v' & h' & X & Y & ->)] & -> & T); [discriminate|].
              assert (values (bs "xt") r = [] /\ v' = v) as (Z & ->) by (destruct (values (bs "xt") r); split; congruence).
              split; [left; split; [auto|congruence]|split; auto]. destruct (last_value (bs "dn") r); reflexivity.
        -- split; [discriminate|]. intros ([(X & _)|(_ & v' & h' & X & Y & ->)] & _); [discriminate|].
           assert (v' = v) by congruence. subst. congruence.
    + rewrite dn_tr. cbn [app]. rewrite IH. unfold xt_says. split; intros (A & -> & B); (split; [exact A|split; [|exact B]]);
        destruct (last_value (bs "dn") r); reflexivity.
    + cbn [app]. destruct (tracker_from_str parse_url v) as [t|e] eqn:E; cbn [res_map_err res_bind].
      * rewrite IH. unfold xt_says. split; intros (A & -> & ts & B & F).
        -- split; [exact A|split; [destruct (last_value (bs "dn") r); reflexivity|]]. exists (t :: ts).
           split; [rewrite B, <- app_assoc; reflexivity|]. constructor; auto. apply is_tracker_iff. auto.
        -- split; [exact A|split; [destruct (last_value (bs "dn") r); reflexivity|]].
           inversion F as [|? t' ? ts' T F']. subst. apply is_tracker_iff in T. assert (t' = t) by congruence. subst.
           exists ts'. rewrite <- app_assoc. split; auto.
      * split; [discriminate|]. intros (_ & _ & ts & _ & F). inversion F as [|? t' ? ts' T F']. apply is_tracker_iff in T. congruence.
    + apply bytes_eqb_neq in N3. cbn [app]. rewrite IH. unfold xt_says.
      split; intros (A & -> & B); (split; [exact A|split; [|exact B]]); destruct (last_value (bs "dn") r); reflexivity.
Qed.

Lemma query_pairs_eq u raw : form (query_text (u_query u)) raw -> query_pairs u = map (lossy_pair from_utf8_lossy) raw.
Proof. intros F. apply form_iff in F. unfold query_pairs. subst raw. unfold query_text. reflexivity. Qed.

Lemma magnet_fields s u raw : parse_url s = Some u -> form (query_text (u_query u)) raw ->
  forall m, magnet_from_str parse_url s = Ok m <->
    u_scheme u = bs "magnet" /\ magnet_says is_tracker (map (lossy_pair from_utf8_lossy) raw) m.
Proof.
  intros U F m. unfold magnet_from_str. rewrite U. destruct (bytes_eqb_spec (u_scheme u) (bs "magnet")) as [E|N]; cbn [negb]; [|split; [discriminate|tauto]].
  rewrite (query_pairs_eq _ _ F). remember (map (lossy_pair from_utf8_lossy) raw) as kvs. clear Heqkvs.
  unfold magnet_says. destruct (magnet_go parse_url kvs None None []) as [[[ih dn] trs]|e] eqn:G; cbn [res_bind].
  - apply magnet_go_spec in G. destruct G as (X & -> & ts & -> & T). cbn [app]. split.
    + destruct ih as [h|]; [|discriminate]. intros M. assert (m = mkMagnet h (or_else (last_value (bs "dn") kvs) None) ts) by congruence.
      subst m. cbn [mg_hash mg_dn mg_trackers]. split; auto. split; [|split; auto].
      * destruct X as [(_ & X)|(_ & v & h' & X & Y & Z)]; [discriminate|]. apply parse_xt_iff in Y. destruct Y as (x & -> & D). exists x. split; auto. congruence.
      * destruct (last_value (bs "dn") kvs); reflexivity.
    + intros (_ & (x & X1 & D) & DN & TR). destruct X as [(X & ->)|(_ & v & h' & X & Y & Z)]; [congruence|].
      apply parse_xt_iff in Y. destruct Y as (x' & -> & D'). rewrite X1 in X. assert (x' = x). { apply (app_inv_head (bs "urn:btih:")). congruence. } subst x' ih.
      apply denotes_iff in D, D'. f_equal. destruct m as [mh md mt]. cbn [mg_hash mg_dn mg_trackers] in *.
      f_equal; [congruence|subst md; destruct (last_value (bs "dn") kvs); reflexivity|].
      clear - T TR. revert mt TR. induction T as [|a b l l' P T IH]; intros mt TR; inversion TR; subst; auto. f_equal; auto.
      apply is_tracker_iff in P. match goal with H : is_tracker a _ |- _ => apply is_tracker_iff in H end. congruence.
  - split; [discriminate|]. intros (_ & (x & X1 & D) & DN & TR). exfalso.
    assert (magnet_go parse_url kvs None None [] = Ok (Some (mg_hash m), or_else (last_value (bs "dn") kvs) None, mg_trackers m)).
    { apply magnet_go_spec. split; [|split; [reflexivity|exists (mg_trackers m); auto]]. right. split; auto. exists (bs "urn:btih:" ++ x), (mg_hash m). split; [exact X1|]. split; auto. apply parse_xt_iff. eauto. }
    congruence.
Qed.

Lemma trimmed_text l t : trimmed l t -> is_text l.
Proof. intros (a & m & b & SC & -> & _). exists (a ++ m ++ b). auto. Qed.
Lemma ignored_dec t : match t with [] => True | c :: _ => c = "#"%byte end <-> ignored t.
Proof.
  unfold ignored. destruct t as [|c r]; [split; auto|]. split.
  - intros ->. right. eauto.
  - intros [X|(r' & X)]; [discriminate|congruence].
Qed.

Inductive step := SSkip | SMagnet (m : magnet) | SBad (e : magnet_error) | SRead.
Definition classify (l : bytes) : step :=
  if negb (utf8_valid l) then SRead
  else match trim (strip_cr l) with
       | [] => SSkip
       | c :: r => if Byte.eqb c "#" then SSkip
                   else match magnet_from_str parse_url (c :: r) with Ok m => SMagnet m | Err e => SBad e end
       end.
Lemma magnets_go_cons i l r acc : magnets_go parse_url i (l :: r) acc =
  match classify l with
  | SSkip => magnets_go parse_url (S i) r acc
  | SMagnet m => magnets_go parse_url (S i) r (acc ++ [m])
  | SBad e => Err (MFParse (i + 1) e)
  | SRead => Err MFRead
  end.
Proof.
  cbn [magnets_go]. unfold classify. destruct (utf8_valid l); cbn [negb]; auto.
  destruct (trim (strip_cr l)) as [|c s]; auto. destruct (Byte.eqb c "#"); auto.
  destruct (magnet_from_str parse_url (c :: s)); auto.
Qed.
Lemma classify_spec l : match classify l with
  | SSkip => line_ok l []
  | SMagnet m => line_ok l [m]
  | SBad e => line_bad l e
  | SRead => ~ is_text l
  end.
Proof.
  unfold classify. destruct (utf8_valid l) eqn:V; cbn [negb].
  - assert (T : is_text l) by (apply utf8_valid_iff; auto). rewrite trim_strip_cr by auto.
    pose proof (trimmed_trim l T) as TT. destruct (trim l) as [|c r] eqn:E.
    + exists []. split; auto. left. split; auto. left. auto.
    + destruct (beqb_spec c "#"%byte) as [->|N].
      * eexists. split; [eauto|]. left. split; auto. right. eauto.
      * assert (NI : ~ ignored (c :: r)). { intros X. apply ignored_dec in X. auto. }
        destruct (magnet_from_str parse_url (c :: r)) eqn:M.
        -- eexists. split; [eauto|]. right. eauto.
        -- exists (c :: r). auto.
  - intros T. apply utf8_valid_iff in T. congruence.
Qed.
Lemma line_ok_fun l o o' : line_ok l o -> line_ok l o' -> o = o'.
Proof.
  intros (t & T & A) (t' & T' & A'). apply trim_trimmed in T, T'. assert (t' = t) as -> by congruence.
  destruct A as [(A & ->)|(A & m & M & ->)], A' as [(A' & ->)|(A' & m' & M' & ->)]; [reflexivity|tauto|tauto|congruence].
Qed.
Lemma line_ok_bad l o e : line_ok l o -> line_bad l e -> False.
Proof.
  intros (t & T & A) (t' & T' & B & C). apply trim_trimmed in T, T'. assert (t' = t) as -> by congruence.
  destruct A as [(A & ->)|(A & m & M & ->)]; [tauto|congruence].
Qed.
Lemma line_ok_text l o : line_ok l o -> is_text l.
Proof. intros (t & T & _). eapply trimmed_text; eauto. Qed.
Lemma line_bad_text l e : line_bad l e -> is_text l.
Proof. intros (t & T & _). eapply trimmed_text; eauto. Qed.
Lemma line_bad_fun l e e' : line_bad l e -> line_bad l e' -> e = e'.
Proof. intros (t & T & _ & A) (t' & T' & _ & A'). apply trim_trimmed in T, T'. assert (t' = t) as -> by congruence. congruence. Qed.

Lemma magnets_go_result ls : forall i acc, file_result ls i acc (magnets_go parse_url i ls acc).
Proof.
  induction ls as [|l r IH]; intros i acc.
  - exists []. rewrite app_nil_r. split; auto.
  - rewrite magnets_go_cons. pose proof (classify_spec l) as C. destruct (classify l) as [|m|e|].
    + specialize (IH (S i) acc). unfold file_result in *. destruct (magnets_go parse_url (S i) r acc) as [ms|[|n e]].
      * destruct IH as (os & F & ->). exists ([] :: os). split; auto.
      * destruct IH as (pre & l' & post & os & -> & F & X). exists (l :: pre), l', post, ([] :: os). auto.
      * destruct IH as (pre & l' & post & os & -> & -> & F & X). exists (l :: pre), l', post, ([] :: os). split; [auto|]. split; [cbn [length]; lia|]. auto.
    + specialize (IH (S i) (acc ++ [m])). unfold file_result in *. destruct (magnets_go parse_url (S i) r (acc ++ [m])) as [ms|[|n e]].
      * destruct IH as (os & F & ->). exists ([m] :: os). split; auto. cbn [concat]. rewrite <- app_assoc. reflexivity.
      * destruct IH as (pre & l' & post & os & -> & F & X). exists (l :: pre), l', post, ([m] :: os). auto.
      * destruct IH as (pre & l' & post & os & -> & -> & F & X). exists (l :: pre), l', post, ([m] :: os). split; [auto|]. split; [cbn [length]; lia|]. auto.
    + exists [], l, r, []. split; [auto|]. split; [cbn [length]; lia|]. auto.
    + exists [], l, r, []. auto.
Qed.
Lemma first_bad_unique (P Q : bytes -> Prop) pre1 l1 post1 pre2 l2 post2 :
  (forall l, P l -> Q l -> False) -> pre1 ++ l1 :: post1 = pre2 ++ l2 :: post2 ->
  Forall P pre1 -> Q l1 -> Forall P pre2 -> Q l2 -> pre1 = pre2 /\ l1 = l2.
Proof.
  intros X. revert pre2. induction pre1 as [|a pre1 IH]; intros [|b pre2] E F1 Q1 F2 Q2; cbn [app] in E.
  - split; congruence.
  - assert (l1 = b) by congruence. subst. inversion F2; subst. exfalso. eauto.
  - assert (a = l2) by congruence. subst. inversion F1; subst. exfalso. eauto.
  - assert (a = b) by congruence. subst b. inversion F1; inversion F2; subst.
    destruct (IH pre2) as (-> & ->); auto. congruence.
Qed.
Definition okl (l : bytes) : Prop := exists o, line_ok l o.
Definition badl (l : bytes) : Prop := (exists e, line_bad l e) \/ ~ is_text l.
Lemma ok_bad l : okl l -> badl l -> False.
Proof. intros (o & O) [(e & E)|N]; [eapply line_ok_bad; eauto|apply N; eapply line_ok_text; eauto]. Qed.
Lemma ok_list ls os : Forall2 line_ok ls os -> Forall okl ls.
Proof. induction 1; constructor; auto. eexists; eauto. Qed.
Lemma ok_fun ls os : Forall2 line_ok ls os -> forall os', Forall2 line_ok ls os' -> os = os'.
Proof. induction 1; intros os' F; inversion F; subst; auto. f_equal; auto. eapply line_ok_fun; eauto. Qed.
Lemma no_bad_in_ok ls os pre l post : Forall2 line_ok ls os -> ls = pre ++ l :: post -> badl l -> False.
Proof. intros F -> B. apply ok_list in F. apply Forall_app in F. destruct F as (_ & F). inversion F; subst. eapply ok_bad; eauto. Qed.

Lemma file_result_fun ls i acc r r' : file_result ls i acc r -> file_result ls i acc r' -> r = r'.
Proof.
  destruct r as [ms|[|n e]], r' as [ms'|[|n' e']]; cbn [file_result].
  - intros (os & F & ->) (os' & F' & ->). rewrite (ok_fun _ _ F _ F'). reflexivity.
  - intros (os & F & ->) (pre & l & post & os' & -> & F' & X). exfalso. refine (no_bad_in_ok _ _ _ _ _ F eq_refl (or_intror X)).
  - intros (os & F & ->) (pre & l & post & os' & -> & -> & F' & X). exfalso. refine (no_bad_in_ok _ _ _ _ _ F eq_refl (or_introl (ex_intro _ _ X))).
  - intros (pre & l & post & os' & -> & F' & X) (os & F & ->). exfalso. refine (no_bad_in_ok _ _ _ _ _ F eq_refl (or_intror X)).
  - auto.
  - intros (pre & l & post & os & -> & F & X) (pre' & l' & post' & os' & E & -> & F' & X').
    destruct (first_bad_unique okl badl _ _ _ _ _ _ ok_bad E (ok_list _ _ F) (or_intror X) (ok_list _ _ F') (or_introl (ex_intro _ _ X'))) as (-> & ->). exfalso. apply X. eapply line_bad_text; eauto.
  - intros (pre & l & post & os' & -> & -> & F' & X) (os & F & ->). exfalso. refine (no_bad_in_ok _ _ _ _ _ F eq_refl (or_introl (ex_intro _ _ X))).
  - intros (pre & l & post & os & -> & -> & F & X) (pre' & l' & post' & os' & E & F' & X').
    destruct (first_bad_unique okl badl _ _ _ _ _ _ ok_bad E (ok_list _ _ F) (or_introl (ex_intro _ _ X)) (ok_list _ _ F') (or_intror X')) as (-> & ->). exfalso. apply X'. eapply line_bad_text; eauto.
  - intros (pre & l & post & os & -> & -> & F & X) (pre' & l' & post' & os' & E & -> & F' & X').
    destruct (first_bad_unique okl badl _ _ _ _ _ _ ok_bad E (ok_list _ _ F) (or_introl (ex_intro _ _ X)) (ok_list _ _ F') (or_introl (ex_intro _ _ X'))) as (-> & ->).
    rewrite (line_bad_fun _ _ _ X X'). reflexivity.
Qed.

Lemma file_iff content ls r : lines content ls -> (parse_magnets_file parse_url content = r <-> file_result ls 0 [] r).
Proof.
  intros L. apply lines_iff in L. unfold parse_magnets_file. rewrite L. split.
  - intros <-. apply magnets_go_result.
  - intros F. eapply file_result_fun; [apply magnets_go_result|exact F].
Qed.
End P.
Lemma file_lines content : exists ls, lines content ls /\ forall ls', lines content ls' -> ls' = ls.
Proof. exists (raw_lines content []). split; [apply lines_iff; auto|]. intros ls' H. apply lines_iff in H. auto. Qed.
