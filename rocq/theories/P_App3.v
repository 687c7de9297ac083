(** Proofs for the shared DHT node: the node and the calls waiting for it. *)
From Verif Require Import Base M_Net M_DhtMsg M_Dht S_Dht M_App S_App P_Dht2 P_Dht4 P_Dht5 P_Dht6 P_App P_App2.
Local Open Scope nat_scope.

Definition caller (m : amsg) : nat := match m with LookupPeers t _ => t | ShutdownMsg t => t end.
Definition serves (h : list pobs) : list (nat * (nat * nat)) := flat_map (fun o => match o with OServe t n sid => [(n, (sid, t))] | _ => [] end) h.
Definition fed (d : dnode) : list nat := map snd (dn_callers d) ++ map caller (dn_chan d).
Definition state_inv (F : list aobs) (d : dnode) : Prop :=
  match dn_state d with
  | Resolving _ _ => F = [] /\ dn_callers d = []
  | Running a => a_running a = true /\ a_next a = length (dn_callers d) /\ exists id v6 boot, history id v6 boot a F
  | Dead => dn_chan d = [] /\ exists id v6 boot a, history id v6 boot a F /\ a_running a = false
  end.
Definition served (H : list aobs) (d : dnode) (sid : nat) (st : tstate) : Prop :=
  match st with
  | TWait _ => answers H sid = []
  | TDone (Found r) => answers H sid = [r]
  | TDone HandleFailed => dn_state d = Dead
  | TGone => True
  | _ => False
  end.
Record ninv (F H : list aobs) (d : dnode) (calls : list (call * tstate)) : Prop := {
  n_state : state_inv F d;
  n_ids : map fst (dn_callers d) = seq 0 (length (dn_callers d));
  n_nd : NoDup (fed d);
  n_chan : forall m, In m (dn_chan d) -> exists c st, nth_error calls (caller m) = Some (c, st) /\ m = message (caller m) c /\ (st = TWait 0 \/ st = TGone);
  n_call : forall sid t, In (sid, t) (dn_callers d) -> exists hash st, nth_error calls t = Some (CLookup hash, st) /\ In (OLookup sid hash) F /\ served H d sid st;
  n_wait : forall t c n, nth_error calls t = Some (c, TWait n) -> dn_state d <> Dead /\ In t (fed d);
  n_found : forall t c r, nth_error calls t = Some (c, TDone (Found r)) -> In t (map snd (dn_callers d)) }.

Lemma NoDup_app_l {X} (a b : list X) : NoDup (a ++ b) -> NoDup a.
Proof. induction a as [|x a IH]; intros N; [constructor|]. cbn [app] in N. inversion N as [|? ? N1 N2]; subst. constructor; [|auto]. intros Y. apply N1, in_or_app. auto. Qed.
Lemma NoDup_app_disj {X} (a b : list X) x : NoDup (a ++ b) -> In x a -> In x b -> False.
Proof. induction a as [|y a IH]; intros N A B; [destruct A|]. cbn [app] in N. inversion N as [|? ? N1 N2]; subst. destruct A as [->|A]; [|auto]. apply N1, in_or_app. auto. Qed.
Lemma NoDup_app_snoc {X} (a : list X) x : NoDup a -> ~ In x a -> NoDup (a ++ [x]).
Proof. intros N A. apply NoDup_app_intro; [exact N|constructor; [intros []|constructor]|]. intros y Y [<-|[]]. auto. Qed.
Lemma fed_state F H d calls t : ninv F H d calls -> In t (fed d) -> exists c st, nth_error calls t = Some (c, st) /\ match st with TWait _ | TDone _ | TGone => True | _ => False end.
Proof.
  intros V X. unfold fed in X. apply in_app_iff in X. destruct X as [X|X]; apply in_map_iff in X.
  - destruct X as ([sid t'] & E & X). cbn [snd] in E. subst t'. destruct (n_call _ _ _ _ V _ _ X) as (hash & st & N & _ & S). exists (CLookup hash), st. split; [exact N|]. destruct st; try exact Logic.I; destruct S.
  - destruct X as (m & <- & X). destruct (n_chan _ _ _ _ V _ X) as (c & st & N & _ & S). exists c, st. split; [exact N|]. destruct S as [-> | ->]; exact Logic.I.
Qed.
Lemma ninv_put F H d calls t c st st' : ninv F H d calls -> nth_error calls t = Some (c, st) ->
  (st' = TGone \/ (match st with TLock | TCreate | TSend _ => True | _ => False end)) -> (match st' with TWait _ | TDone (Found _) => False | _ => True end) -> ninv F H d (set_nth calls t (c, st')).
Proof.
  intros V N S0 S1. assert (NF : st' = TGone \/ ~ In t (fed d)).
  { destruct S0 as [S0|S0]; [auto|]. right. intros X. destruct (fed_state _ _ _ _ _ V X) as (c1 & st1 & N1 & Q). rewrite N in N1. injection N1 as <- <-. destruct st; try (destruct S0; fail); destruct Q. }
  constructor; try apply V.
  - intros m X. destruct (n_chan _ _ _ _ V _ X) as (c1 & st1 & N1 & E & Q). destruct (Nat.eq_dec t (caller m)) as [->|NE].
    + rewrite N in N1. injection N1 as <- <-. destruct NF as [->|NF]; [|exfalso; apply NF, in_or_app; right; apply in_map; exact X]. exists c, TGone. rewrite set_nth_get, Nat.eqb_refl, N. auto.
    + exists c1, st1. rewrite set_nth_other by exact NE. auto.
  - intros sid t1 X. destruct (n_call _ _ _ _ V _ _ X) as (hash & st1 & N1 & L & Q). destruct (Nat.eq_dec t t1) as [->|NE].
    + rewrite N in N1. injection N1 as -> <-. destruct NF as [->|NF]; [|exfalso; apply NF, in_or_app; left; apply (in_map snd) in X; exact X]. exists hash, TGone. rewrite set_nth_get, Nat.eqb_refl, N. cbn [served]. auto.
    + exists hash, st1. rewrite set_nth_other by exact NE. auto.
  - intros t1 c1 n. rewrite set_nth_get. destruct (Nat.eqb_spec t t1) as [->|NE]; [|apply V]. rewrite N. intros [= <- ->]. destruct S1.
  - intros t1 c1 r. rewrite set_nth_get. destruct (Nat.eqb_spec t t1) as [->|NE]; [|apply V]. rewrite N. intros [= <- ->]. destruct S1.
Qed.
Lemma ninv_ext F H H' d calls : (forall sid, answers H sid = answers H' sid) -> ninv F H d calls -> ninv F H' d calls.
Proof.
  intros E V. constructor; try apply V. intros sid t X. destruct (n_call _ _ _ _ V _ _ X) as (hash & st & N & L & S). exists hash, st. split; [exact N|]. split; [exact L|].
  unfold served in *. rewrite <- E. exact S.
Qed.
(** PSend *)
Lemma ninv_send F H d calls t c : ninv F H d calls -> nth_error calls t = Some (c, TSend 0) -> dn_state d <> Dead ->
  ninv F H (mkNode (dn_state d) (dn_chan d ++ [message t c]) (dn_callers d)) (set_nth calls t (c, TWait 0)).
Proof.
  intros V N ND. assert (NF : ~ In t (fed d)).
  { intros X. destruct (fed_state _ _ _ _ _ V X) as (c1 & st1 & N1 & Q). rewrite N in N1. injection N1 as <- <-. destruct Q. }
  assert (CM : caller (message t c) = t) by (destruct c; reflexivity). constructor; cbn [dn_state dn_chan dn_callers].
  - pose proof (n_state _ _ _ _ V) as S. unfold state_inv in *. cbn [dn_state dn_chan dn_callers]. destruct (dn_state d); try congruence; exact S.
  - apply V.
  - unfold fed. cbn [dn_chan dn_callers]. rewrite map_app. cbn [map]. rewrite CM, app_assoc. change (NoDup (fed d ++ [t])). apply NoDup_app_snoc; [apply V|exact NF].
  - intros m X. apply in_app_iff in X. destruct X as [X|[<-|[]]].
    + destruct (n_chan _ _ _ _ V _ X) as (c1 & st1 & N1 & E & Q). exists c1, st1. rewrite set_nth_other; [auto|]. intros ->. apply NF, in_or_app. right. apply in_map. exact X.
    + exists c, (TWait 0). rewrite CM, set_nth_get, Nat.eqb_refl, N. auto.
  - intros sid t1 X. destruct (n_call _ _ _ _ V _ _ X) as (hash & st1 & N1 & L & Q). exists hash, st1. rewrite set_nth_other; [auto|]. intros ->. apply NF, in_or_app. left. apply (in_map snd) in X. exact X.
  - intros t1 c1 n. unfold fed. cbn [dn_chan dn_callers]. rewrite map_app, app_assoc, in_app_iff. cbn [map In]. rewrite CM, set_nth_get. destruct (Nat.eqb_spec t t1) as [->|NE]; [auto|]. intros X. apply V in X. destruct X as (X & Y). split; [exact X|]. left. exact Y.
  - intros t1 c1 r. rewrite set_nth_get. destruct (Nat.eqb_spec t t1) as [->|NE]; [|apply V]. rewrite N. discriminate.
Qed.
(** The results delivered. *)
Lemma answers_cons H x sid : answers (H ++ [x]) sid = answers H sid ++ match x with OAnswer i r => if Nat.eqb i sid then [r] else [] | _ => [] end.
Proof. rewrite answers_app. f_equal. cbn [answers flat_map]. rewrite app_nil_r. destruct x; reflexivity. Qed.
Definition frame (s s' : appst) : Prop :=
  p_handle s' = p_handle s /\ p_nodes s' = p_nodes s /\
  (forall t, nth_error (p_calls s') t = nth_error (p_calls s) t \/ exists c n r, nth_error (p_calls s) t = Some (c, TWait n) /\ nth_error (p_calls s') t = Some (c, TDone (Found r))).
Lemma ninv_deliver F d : forall o H s s' p, ninv F H d (p_calls s) -> (forall sid, In sid (map fst (dn_callers d)) -> length (answers (H ++ o) sid) <= 1) ->
  deliver s 0 (dn_callers d) o = (s', p) -> ninv F (H ++ o) d (p_calls s') /\ frame s s' /\ (forall x, In x p -> exists t r, x = OReturn t (Found r)).
Proof.
  induction o as [|x o IH]; intros H s s' p V B; cbn [deliver].
  - intros [= <- <-]. rewrite app_nil_r. split; [exact V|]. split; [repeat split; auto|]. intros x [].
  - assert (Q : H ++ x :: o = (H ++ [x]) ++ o) by (rewrite <- app_assoc; reflexivity). rewrite Q in B |- *.
    assert (SKIP : (forall sid t, In (sid, t) (dn_callers d) -> forall c n, nth_error (p_calls s) t = Some (c, TWait n) -> forall r, x <> OAnswer sid r) -> ninv F (H ++ [x]) d (p_calls s)).
    { intros NX. constructor; try apply V. intros sid t X. destruct (n_call _ _ _ _ V _ _ X) as (hash & st & N & L & SV). exists hash, st. split; [exact N|]. split; [exact L|].
      destruct st as [| |n|n|[r| | |]|]; cbn [served] in *; auto.
      - rewrite answers_cons, SV. cbn [app]. destruct x as [? ?|? ? ? ?|? ? ? ?|? ? ?|i r|?]; try reflexivity. destruct (Nat.eqb_spec i sid) as [->|NE]; [|reflexivity]. destruct (NX _ _ X _ _ N r eq_refl).
      - assert (BB := B sid (in_map fst _ _ X)). rewrite answers_app, answers_cons, SV in BB. rewrite answers_cons, SV. destruct x as [? ?|? ? ? ?|? ? ? ?|? ? ?|i r'|?]; try reflexivity. destruct (Nat.eqb i sid); [|reflexivity]. cbn in BB. lia. }
    destruct x as [? ?|? ? ? ?|? ? ? ?|? ? ?|sid r|?]; try (intros E; eapply IH; [apply SKIP; discriminate|exact B|exact E]).
    destruct (find (fun e => Nat.eqb (fst e) sid) (dn_callers d)) as [[sid' t]|] eqn:FI.
    2:{ intros E. eapply IH; [apply SKIP|exact B|exact E]. intros sid' t X c n _ r' [= -> _]. apply (find_none _ _ FI) in X. cbn [fst] in X. rewrite Nat.eqb_refl in X. discriminate. }
    apply find_some in FI. destruct FI as (FI & FI2). cbn [fst] in FI2. apply Nat.eqb_eq in FI2. subst sid'.
    assert (UNI : forall t', In (sid, t') (dn_callers d) -> t' = t).
    { intros t' X. assert (ND : NoDup (map fst (dn_callers d))) by (rewrite (n_ids _ _ _ _ V); apply seq_NoDup). clear - X FI ND. induction (dn_callers d) as [|[i j] l IHl]; [destruct X|]. cbn [map fst] in ND. inversion ND as [|? ? N1 N2]; subst.
      destruct X as [X|X], FI as [Y|Y].
      - congruence.
      - injection X as -> ->. destruct (N1 (in_map fst _ _ Y)).
      - injection Y as -> ->. destruct (N1 (in_map fst _ _ X)).
      - auto. }
    destruct (nth_error (p_calls s) t) as [[c st]|] eqn:N; [|destruct (n_call _ _ _ _ V _ _ FI) as (? & ? & X & _); congruence].
    assert (OTHER : (forall n, st <> TWait n) -> deliver s 0 (dn_callers d) o = (s', p) -> ninv F ((H ++ [OAnswer sid r]) ++ o) d (p_calls s') /\ frame s s' /\ (forall x, In x p -> exists t r, x = OReturn t (Found r))).
    { intros NW E. eapply IH; [apply SKIP|exact B|exact E]. intros sid' t' X c' n N' r' [= <- _]. apply UNI in X. subst t'. rewrite N in N'. injection N' as <- ->. apply (NW n). reflexivity. }
    destruct st as [| |n|n|r0|]; try (apply OTHER; discriminate). clear OTHER SKIP.
    unfold M_App.finish. match goal with |- context [deliver ?z 0 (dn_callers d) o] => set (s1 := z); destruct (deliver s1 0 (dn_callers d) o) as [s2 p2] eqn:D end. intros [= <- <-].
    assert (V1 : ninv F (H ++ [OAnswer sid r]) d (p_calls s1)).
    { destruct (n_call _ _ _ _ V _ _ FI) as (hash & st & N1 & L & SV). rewrite N in N1. injection N1 as -> <-. cbn [served] in SV. unfold s1. cbn [p_calls].
      assert (INF : In t (map snd (dn_callers d))) by (apply (in_map snd) in FI; exact FI).
      constructor; try apply V.
      - intros m X. destruct (n_chan _ _ _ _ V _ X) as (c1 & st1 & N1 & E1 & Q1). exists c1, st1. rewrite set_nth_other; [auto|]. intros ->.
        assert (ND := n_nd _ _ _ _ V). unfold fed in ND. apply (in_map caller) in X. eapply NoDup_app_disj; eauto.
      - intros sid1 t1 X. destruct (n_call _ _ _ _ V _ _ X) as (hash1 & st1 & N1 & L1 & SV1). destruct (Nat.eq_dec t t1) as [->|NE].
        + rewrite N in N1. injection N1 as <- <-. exists hash, (TDone (Found r)). rewrite set_nth_get, Nat.eqb_refl, N. split; [reflexivity|]. split; [exact L1|].
          assert (sid1 = sid).
          { assert (ND := n_nd _ _ _ _ V). unfold fed in ND. apply NoDup_app_l in ND. clear - X FI ND. induction (dn_callers d) as [|[i j] l IHl]; [destruct X|]. cbn [map snd] in ND. inversion ND as [|? ? M1 M2]; subst.
            destruct X as [X|X], FI as [Y|Y].
            - congruence.
            - injection X as -> ->. destruct (M1 (in_map snd _ _ Y)).
            - injection Y as -> ->. destruct (M1 (in_map snd _ _ X)).
            - auto. }
          subst sid1. cbn [served]. rewrite answers_cons, SV, Nat.eqb_refl. reflexivity.
        + exists hash1, st1. rewrite set_nth_other by exact NE. split; [exact N1|]. split; [exact L1|].
          assert (sid <> sid1) by (intros ->; apply NE; symmetry; apply UNI; exact X). unfold served in *. rewrite answers_cons. destruct (Nat.eqb_spec sid sid1); [congruence|]. rewrite app_nil_r. exact SV1.
      - intros t1 c1 n1. rewrite set_nth_get. destruct (Nat.eqb_spec t t1) as [->|NE]; [rewrite N; discriminate|apply V].
      - intros t1 c1 r1. rewrite set_nth_get. destruct (Nat.eqb_spec t t1) as [<-|NE]; [intros _; exact INF|apply V]. }
    destruct (IH _ _ _ _ V1 B D) as (A1 & (A2 & A3 & A4) & A5). split; [exact A1|]. split.
    + split; [exact A2|]. split; [exact A3|]. intros t1. specialize (A4 t1). unfold s1 in A4. cbn [p_calls] in A4. rewrite set_nth_get in A4. destruct (Nat.eqb_spec t t1) as [ET|NE]; [subst t1|exact A4]. rewrite N in A4. right.
      destruct A4 as [A4|(c1 & n1 & r1 & X & _)]; [|discriminate]. exists c, n, r. auto.
    + intros x [<-|X]; eauto.
Qed.
