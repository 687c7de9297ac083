(** Lemmas about the log on standard error. *)
From Coq Require Import Permutation.
From Verif Require Import Base BaseFacts S_Utf8 M_Log S_Log P_Log M_Report M_Stderr S_Stderr.

(** ** What is shown *)
Lemma within_own t : within (bs "demagnetize") t = true <-> own t.
Proof.
  unfold within, own. rewrite orb_true_iff, !bytes_eqb_eq. split; intros [H|H].
  - auto.
  - right. exists (skipn (length (bs "demagnetize") + 2) t). rewrite <- (firstn_skipn (length (bs "demagnetize") + 2) t) at 1. rewrite H. reflexivity.
  - auto.
  - destruct H as [rest ->]. right. reflexivity.
Qed.
Lemma shown_wanted f e : shown f e = true <-> wanted f e.
Proof.
  unfold shown, wanted. rewrite <- within_own. destruct (within _ _); rewrite N.leb_le; cbn [verbosity]; [tauto|]. split; [intros; right; split; [discriminate|auto]|].
  intros [[D _]|[_ H]]; [discriminate|auto].
Qed.
Lemma kept_filter {A} (P : A -> Prop) b l k : (forall x, b x = true <-> P x) -> kept P l k -> k = filter b l.
Proof.
  intros B K. induction K as [|x l k X K IH|x l k X K IH]; [reflexivity| |]; cbn [filter].
  - apply B in X. rewrite X. f_equal. exact IH.
  - destruct (b x) eqn:E; [apply B in E; contradiction|exact IH].
Qed.
Lemma filter_kept {A} (P : A -> Prop) b l : (forall x, b x = true <-> P x) -> kept P l (filter b l).
Proof.
  intros B. induction l as [|x l IH]; [apply kept_nil|]. cbn [filter]. destruct (b x) eqn:E; [apply kept_in; [apply B, E|exact IH]|].
  apply kept_out; [|exact IH]. intros X. apply B in X. congruence.
Qed.
Lemma kept_In {A} (P : A -> Prop) l k : kept P l k -> forall x, In x k <-> In x l /\ P x.
Proof.
  induction 1 as [|y l k Y K IH|y l k Y K IH]; intros x; cbn [In]; [tauto| |]; rewrite IH; split; intuition (subst; auto). contradiction.
Qed.
Lemma kept_weaker {A} (P Q : A -> Prop) l k k' : (forall x, P x -> Q x) -> kept P l k -> kept Q l k' -> kept P k' k.
Proof.
  intros W K. revert k'. induction K as [|x l k X K IH|x l k X K IH]; intros k' K'; inversion K'; subst.
  - apply kept_nil.
  - apply kept_in; auto.
  - exfalso. auto.
  - apply kept_out; auto.
  - auto.
Qed.

(** ** Lines *)
Definition body (styled : bool) (e : entry) : bytes :=
  (if styled then style (e_level e) else []) ++ clock (e_time e) ++ bs " [" ++ pad5 (level_name (e_level e)) ++ bs "] " ++ e_text e ++ (if styled then reset else []).
Lemma line_body styled e : entry_line styled e = body styled e ++ [x0a].
Proof. unfold entry_line, body. rewrite <- !app_assoc. reflexivity. Qed.
Lemma stderr_bodies styled f l k : kept (wanted f) l k -> stderr styled f l = flat_map (fun l => l ++ [x0a]) (map (body styled) k).
Proof.
  intros K. unfold stderr. rewrite <- (kept_filter _ _ _ _ (shown_wanted f) K). clear K. induction k as [|e k IH]; [reflexivity|]. cbn [flat_map map].
  rewrite line_body, IH. reflexivity.
Qed.
Lemma digit_b2n n : b2n (digit n) = 48 + n mod 10.
Proof. unfold digit. rewrite b2n_n2b. apply N.mod_small. assert (n mod 10 < 10) by (apply N.mod_lt; discriminate). lia. Qed.
Lemma digit_lf n : digit n <> x0a.
Proof. intros E. apply (f_equal b2n) in E. rewrite digit_b2n in E. change (b2n x0a) with 10 in E. assert (n mod 10 < 10) by (apply N.mod_lt; discriminate). lia. Qed.
Lemma clock_lf t : ~ In x0a (clock t).
Proof.
  destruct t as [[h m] s]. unfold clock, two. cbn [app In bs]. intros H. repeat (destruct H as [H|H]; [try (exact (digit_lf _ H)); discriminate H|]). exact H.
Qed.
Lemma one_line_lf t : one_line t -> ~ In x0a t.
Proof. intros O I. unfold one_line in O. rewrite Forall_forall in O. specialize (O _ I). change (b2n x0a) with 10 in O. lia. Qed.
Lemma body_lf styled e : one_line (e_text e) -> ~ In x0a (body styled e).
Proof.
  intros O I. unfold body in I. rewrite !in_app_iff in I.
  destruct I as [I|[I|[I|[I|[I|[I|I]]]]]].
  - destruct styled, (e_level e); cbn in I; repeat (destruct I as [I|I]; [discriminate I|]); exact I.
  - exact (clock_lf _ I).
  - cbn in I. repeat (destruct I as [I|I]; [discriminate I|]). exact I.
  - destruct (e_level e); cbn in I; repeat (destruct I as [I|I]; [discriminate I|]); exact I.
  - cbn in I. repeat (destruct I as [I|I]; [discriminate I|]). exact I.
  - exact (one_line_lf _ O I).
  - destruct styled; cbn in I; repeat (destruct I as [I|I]; [discriminate I|]); exact I.
Qed.
Lemma stderr_lines styled f l k : kept (wanted f) l k -> Forall (fun e => one_line (e_text e)) k -> lines_of (stderr styled f l) (map (body styled) k).
Proof.
  intros K O. split; [apply stderr_bodies, K|]. apply Forall_map. revert O. apply Forall_impl. intros e. apply body_lf.
Qed.

Lemma lf_split (a b x y : bytes) : ~ In x0a a -> ~ In x0a b -> a ++ x0a :: x = b ++ x0a :: y -> a = b /\ x = y.
Proof.
  revert b. induction a as [|c a IH]; intros [|d b] A B E; cbn [app] in E.
  - injection E as E. auto.
  - injection E as E _. exfalso. apply B. left. auto.
  - injection E as E _. exfalso. apply A. left. auto.
  - injection E as C E. apply IH in E; [|intros I; apply A; right; exact I|intros I; apply B; right; exact I]. destruct E as [-> ->]. subst. auto.
Qed.
Lemma lines_unique t ls ls' : lines_of t ls -> lines_of t ls' -> ls = ls'.
Proof.
  intros [E F] [E' F']. subst t. revert ls' E' F'. induction F as [|l ls L F IH]; intros [|l' ls'] E F'; cbn [flat_map] in E.
  - reflexivity.
  - rewrite <- app_assoc in E. destruct l'; discriminate E.
  - rewrite <- app_assoc in E. destruct l; discriminate E.
  - rewrite <- !app_assoc in E. inversion F'; subst. apply lf_split in E; auto. destruct E as [-> E]. f_equal. apply IH; auto.
Qed.

(** ** What a line tells *)
Lemma two_inj a b x y : a < 100 -> b < 100 -> two a ++ x = two b ++ y -> a = b /\ x = y.
Proof.
  intros A B E. unfold two in E. cbn [app] in E. injection E as E1 E2 E3. apply (f_equal b2n) in E1, E2. rewrite !digit_b2n in E1, E2.
  assert (a / 10 < 10) by (apply N.div_lt_upper_bound; lia). assert (b / 10 < 10) by (apply N.div_lt_upper_bound; lia).
  rewrite !(N.mod_small (_ / 10)) in E1 by assumption. split; auto.
  rewrite (N.div_mod a 10), (N.div_mod b 10) by discriminate. lia.
Qed.
Lemma clock_inj t u x y : time_of_day t -> time_of_day u -> clock t ++ x = clock u ++ y -> t = u /\ x = y.
Proof.
  destruct t as [[h m] s], u as [[h' m'] s']. unfold time_of_day, clock. intros (A & B & C) (A' & B' & C') E. rewrite <- !app_assoc in E.
  apply two_inj in E; [|lia|lia]. destruct E as [-> E]. apply (app_inv_head (bs ":")) in E.
  apply (two_inj m m') in E; [|lia|lia]. destruct E as [-> E]. apply (app_inv_head (bs ":")) in E.
  apply (two_inj s s') in E; [|lia|lia]. destruct E as [-> E]. auto.
Qed.
Lemma name_inj v w x y : pad5 (level_name v) ++ x = pad5 (level_name w) ++ y -> v = w /\ x = y.
Proof. destruct v, w; cbn; intros E; try discriminate E; injection E as E; auto. Qed.
Lemma body_inj styled e e' : time_of_day (e_time e) -> time_of_day (e_time e') -> body styled e = body styled e' -> told e = told e'.
Proof.
  intros T T' E. unfold told.
  assert (H : exists x y, clock (e_time e) ++ bs " [" ++ pad5 (level_name (e_level e)) ++ bs "] " ++ e_text e ++ x = clock (e_time e') ++ bs " [" ++ pad5 (level_name (e_level e')) ++ bs "] " ++ e_text e' ++ x /\ y = x).
  { exists (if styled then reset else []), (if styled then reset else []). split; [|reflexivity]. unfold body in E. destruct styled; [|exact E].
    destruct (e_level e), (e_level e'); try (apply app_inv_head in E; exact E); exfalso; cbv [style esc app bs String.list_byte_of_string] in E; discriminate E. }
  destruct H as (x & _ & H & _). apply clock_inj in H; auto. destruct H as [-> H]. apply app_inv_head in H. apply name_inj in H. destruct H as [-> H].
  apply app_inv_head in H. apply app_inv_tail in H. rewrite H. reflexivity.
Qed.
Lemma body_told styled e e' : told e = told e' -> body styled e = body styled e'.
Proof. unfold told, body. destruct e, e'. cbn. intros [= -> -> ->]. reflexivity. Qed.

Lemma stderr_faithful styled f f' l l' k k' : kept (wanted f) l k -> kept (wanted f') l' k' ->
  Forall (fun e => time_of_day (e_time e) /\ one_line (e_text e)) k -> Forall (fun e => time_of_day (e_time e) /\ one_line (e_text e)) k' ->
  (stderr styled f l = stderr styled f' l' <-> map told k = map told k').
Proof.
  intros K K' F F'. split.
  - intros E. assert (H : map (body styled) k = map (body styled) k').
    { apply (lines_unique (stderr styled f l)); [|rewrite E]; apply stderr_lines; auto; [revert F|revert F']; apply Forall_impl; intros e [_ O]; exact O. }
    clear -F F' H. revert k' F' H. induction F as [|e k [T O] F IH]; intros [|e' k'] F' H; try discriminate H; [reflexivity|].
    inversion F' as [|? ? [T' O'] F'']; subst. cbn [map] in *. injection H as H1 H2. f_equal; [exact (body_inj _ _ _ T T' H1)|apply IH; auto].
  - intros E. rewrite (stderr_bodies _ _ _ _ K), (stderr_bodies _ _ _ _ K'). f_equal. clear -E.
    revert k' E. induction k as [|e k IH]; intros [|e' k'] E; try discriminate E; [reflexivity|]. cbn [map] in *. injection E as E1 E2 E3 E4.
    f_equal; [apply body_told; unfold told; congruence|apply IH, E4].
Qed.

(** ** The records *)
Lemma record_own r : own (record_target r).
Proof. destruct r; (left; reflexivity) || (right; eexists; reflexivity). Qed.
Lemma record_wanted plain f tr : wanted f (record_entry plain tr) <-> verbosity (record_level (snd tr)) <= filter_verbosity f.
Proof. unfold wanted. cbn. pose proof (record_own (snd tr)). tauto. Qed.
Lemma kept_map {A B} (g : A -> B) (P : A -> Prop) (Q : B -> Prop) l k : (forall x, Q (g x) <-> P x) -> kept P l k -> kept Q (map g l) (map g k).
Proof. intros W K. induction K; cbn [map]; [apply kept_nil|apply kept_in; [apply W|]; auto|apply kept_out; [rewrite W|]; auto]. Qed.
Lemma stderr_records plain styled f l k : (forall c, control c -> plain c = false) -> Forall (fun tr => Forall clean (local_parts (snd tr))) l ->
  kept (fun tr => verbosity (record_level (snd tr)) <= filter_verbosity f) l k ->
  exists ls, lines_of (stderr styled f (map (record_entry plain) l)) ls /\
    Forall2 (fun tr line => exists before after, line = before ++ record_text plain (snd tr) ++ after) k ls.
Proof.
  intros PL F K. exists (map (body styled) (map (record_entry plain) k)). split.
  - apply stderr_lines.
    + apply (kept_map (record_entry plain) (fun tr => verbosity (record_level (snd tr)) <= filter_verbosity f)); [|exact K]. apply record_wanted.
    + apply Forall_map. apply Forall_forall. intros tr I. apply (kept_In _ _ _ K) in I. destruct I as [I _]. rewrite Forall_forall in F.
      apply clean_one_line. cbn [record_entry e_text]. apply record_clean; auto.
  - clear. induction k as [|tr k IH]; [constructor|]. cbn [map]. constructor; [|exact IH]. unfold body. cbn [record_entry e_text e_time e_level].
    exists ((if styled then style (record_level (snd tr)) else []) ++ clock (fst tr) ++ bs " [" ++ pad5 (level_name (record_level (snd tr))) ++ bs "] "), (if styled then reset else []).
    rewrite <- !app_assoc. reflexivity.
Qed.
Lemma failures_at_warn plain t r : about_failure r <-> wanted (Some Warn) (record_entry plain (t, r)).
Proof. rewrite record_wanted. destruct r; cbn; split; intros H; auto; try lia; discriminate. Qed.
Lemma wanted_more f f' e : filter_verbosity f <= filter_verbosity f' -> wanted f e -> wanted f' e.
Proof. unfold wanted. intros L [[A B]|[A B]]; [left; split; [auto|lia]|right; auto]. Qed.

(** Numbers of lines *)
Lemma count_lines styled f l k : kept (wanted f) l k -> Forall (fun e => one_line (e_text e)) l -> exists ls, lines_of (stderr styled f l) ls /\ length ls = length k.
Proof.
  intros K F. exists (map (body styled) k). split; [|apply map_length]. apply stderr_lines; auto. apply Forall_forall. intros e I. apply (kept_In _ _ _ K) in I.
  rewrite Forall_forall in F. apply F, I.
Qed.
Lemma own_count {N0} (lv : N0 -> level) (tg : N0 -> bytes) f g es : (forall n, own (tg n)) -> Forall2 (fun n e => is_entry (tg n) (lv n) e) g es ->
  exists k, kept (wanted f) es k /\ length k = length (filter (fun n => verbosity (lv n) <=? filter_verbosity f) g).
Proof.
  intros O F. exists (filter (shown f) es). split; [apply filter_kept, shown_wanted|].
  induction F as [|n e g es [T L] F IH]; [reflexivity|]. cbn [filter]. assert (S : shown f e = (verbosity (lv n) <=? filter_verbosity f)).
  { unfold shown. rewrite T, L. assert (W : within (bs "demagnetize") (tg n) = true) by (apply within_own, O). rewrite W. reflexivity. }
  rewrite S. destruct (_ <=? _); cbn [length]; auto.
Qed.
