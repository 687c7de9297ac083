From Verif Require Import Base M_Net M_Tracker M_DhtMsg S_Bencode M_Dht S_Async S_Dht P_Dht4 P_Dht5 P_Dht6.
(** Two nodes with the same id; the first told of replies, the other does not. *)
Definition two : list aev :=
  let id c := repeat c 20 in
  let at_ n := mkSA (V4 n) 1 in
  [ALookup (id x00) [];
   ADatagram (at_ 1) (encode (VDict [(bs "r", VDict [(bs "id", VBytes (id x05)); (bs "nodes", VBytes (id x01 ++ [x00; x00; x00; x02; x00; x01] ++ id x01 ++ [x00; x00; x00; x03; x00; x01] ++ id x02 ++ [x00; x00; x00; x04; x00; x01]))]);
                                     (bs "t", VBytes [x00; x00; x00; x00]); (bs "y", VBytes (bs "r"))])) (Some O) [];
   ADatagram (at_ 2) (encode (VDict [(bs "r", VDict [(bs "id", VBytes (id x01))]); (bs "t", VBytes [x00; x00; x00; x02]); (bs "y", VBytes (bs "r"))])) (Some O) [];
   ADatagram (at_ 4) (encode (VDict [(bs "r", VDict [(bs "id", VBytes (id x02))]); (bs "t", VBytes [x00; x00; x00; x03]); (bs "y", VBytes (bs "r"))])) (Some O) [];
   ATimeout (at_ 3, [x00; x00; x00; x01]) (Some O)].
Definition two_me : bytes := repeat x09 20.
Definition two_boot : list sockaddr := [mkSA (V4 1) 1].
Definition two_out := Eval vm_compute in arun (actor_start two_me false two_boot) two.
Definition two_a : actor := Eval vm_compute in match two_out with Some (a, _) => a | None => actor_start [] false [] end.
Definition two_h : list aobs := Eval vm_compute in match two_out with Some (_, h) => h | None => [] end.
Lemma two_run : arun (actor_start two_me false two_boot) two = Some (two_a, two_h).
Proof. vm_compute. reflexivity. Qed.
Lemma two_history : history two_me false two_boot two_a two_h.
Proof. exists two. split; [repeat constructor|exact two_run]. Qed.
Lemma two_lookup : In (OLookup 0 (repeat x00 20)) two_h.
Proof. left. reflexivity. Qed.
Definition two_nodes : list node := [mkNode (repeat x01 20) (V4 2) 1; mkNode (repeat x01 20) (V4 3) 1; mkNode (repeat x02 20) (V4 4) 1].
Lemma firsts_three {A K} (key : A -> K) x y z : key x <> key y -> key x <> key z -> key y <> key z -> firsts key [x; y; z] [x; y; z].
Proof.
  intros A1 A2 A3. change (firsts key ((([] ++ [x]) ++ [y]) ++ [z]) ((([] ++ [x]) ++ [y]) ++ [z])).
  repeat (apply f_new); [constructor| | |]; cbn; intuition congruence.
Qed.
Lemma two_known : known_nodes (firstn 6 two_h) 0 two_nodes /\ known_nodes two_h 0 two_nodes.
Proof. split; apply firsts_three; discriminate. Qed.
Lemma two_responded : responded two_h 0 (mkNode (repeat x01 20) (V4 2) 1).
Proof.
  exists (firstn 6 two_h), [x00; x00; x00; x02], (mkGPR [x00; x00; x00; x02] None (repeat x01 20) [] [] [] None None), (skipn 7 two_h), two_nodes.
  split; [reflexivity|]. split; [apply two_known|]. left. reflexivity.
Qed.
Lemma two_answers : answers two_h 0 = [mkFound [] [mkSA (V4 3) 1; mkSA (V4 4) 1]].
Proof. reflexivity. Qed.
Lemma closest_refuted : exists my_id v6 boot a h sid hash r n m, history my_id v6 boot a h /\ In (OLookup sid hash) h /\ In r (answers h sid) /\
  responded h sid n /\ responded h sid m /\ In (node_address m) (fp_nodes r) /\ xdist hash n < xdist hash m /\ ~ In (node_address n) (fp_nodes r).
Proof.
  exists two_me, false, two_boot, two_a, two_h, 0%nat, (repeat x00 20), (mkFound [] [mkSA (V4 3) 1; mkSA (V4 4) 1]), (mkNode (repeat x01 20) (V4 2) 1), (mkNode (repeat x02 20) (V4 4) 1).
  split; [exact two_history|]. split; [exact two_lookup|]. split; [left; reflexivity|]. split; [exact two_responded|]. split.
  { exists (firstn 7 two_h), [x00; x00; x00; x03], (mkGPR [x00; x00; x00; x03] None (repeat x02 20) [] [] [] None None), (skipn 8 two_h), two_nodes.
    split; [reflexivity|]. split; [apply firsts_three; discriminate|]. right. right. left. reflexivity. }
  split; [right; left; reflexivity|]. split; [vm_compute; reflexivity|]. intros [X|[X|[]]]; discriminate.
Qed.
Lemma responsive_refuted : exists my_id v6 boot a h sid hash r x, history my_id v6 boot a h /\ In (OLookup sid hash) h /\ In r (answers h sid) /\
  In x (fp_nodes r) /\ forall txn rsp, ~ In (OReply sid x txn rsp) h.
Proof.
  exists two_me, false, two_boot, two_a, two_h, 0%nat, (repeat x00 20), (mkFound [] [mkSA (V4 3) 1; mkSA (V4 4) 1]), (mkSA (V4 3) 1).
  split; [exact two_history|]. split; [exact two_lookup|]. split; [left; reflexivity|]. split; [left; reflexivity|].
  intros txn rsp X. cbn in X. repeat (destruct X as [X|X]; [discriminate|]). destruct X.
Qed.
Lemma two_facts :
  history two_me false two_boot two_a two_h /\ In (OLookup 0 (repeat x00 20)) two_h /\
  answers two_h 0 = [mkFound [] [mkSA (V4 3) 1; mkSA (V4 4) 1]] /\ few two_h /\ a_running two_a = true /\
  known_nodes two_h 0 two_nodes /\ responded two_h 0 (mkNode (repeat x01 20) (V4 2) 1) /\
  asked two_h 0 = [mkSA (V4 1) 1; mkSA (V4 3) 1; mkSA (V4 2) 1; mkSA (V4 4) 1].
Proof.
  split; [exact two_history|]. split; [exact two_lookup|]. split; [reflexivity|]. split; [unfold few; vm_compute; discriminate|]. split; [reflexivity|]. split; [apply two_known|]. split; [exact two_responded|reflexivity].
Qed.
(** Three nodes with distinct ids. *)
Definition three : list aev :=
  let id c := repeat c 20 in
  let at_ n := mkSA (V4 n) 1 in
  [ALookup (id x00) [];
   ADatagram (at_ 1) (encode (VDict [(bs "r", VDict [(bs "id", VBytes (id x05)); (bs "nodes", VBytes (id x01 ++ [x00; x00; x00; x02; x00; x01] ++ id x03 ++ [x00; x00; x00; x03; x00; x01] ++ id x02 ++ [x00; x00; x00; x04; x00; x01]))]);
                                     (bs "t", VBytes [x00; x00; x00; x00]); (bs "y", VBytes (bs "r"))])) (Some O) [];
   ADatagram (at_ 2) (encode (VDict [(bs "r", VDict [(bs "id", VBytes (id x01)); (bs "values", VList [VBytes [x0a; x00; x00; x01; x1a; xe1]])]); (bs "t", VBytes [x00; x00; x00; x01]); (bs "y", VBytes (bs "r"))])) (Some O) [];
   ADatagram (at_ 4) (encode (VDict [(bs "r", VDict [(bs "id", VBytes (id x02))]); (bs "t", VBytes [x00; x00; x00; x02]); (bs "y", VBytes (bs "r"))])) (Some O) [];
   ATimeout (at_ 3, [x00; x00; x00; x03]) (Some O)].
Definition three_out := Eval vm_compute in arun (actor_start two_me false two_boot) three.
Definition three_a : actor := Eval vm_compute in match three_out with Some (a, _) => a | None => actor_start [] false [] end.
Definition three_h : list aobs := Eval vm_compute in match three_out with Some (_, h) => h | None => [] end.
Definition three_nodes : list node := [mkNode (repeat x01 20) (V4 2) 1; mkNode (repeat x03 20) (V4 3) 1; mkNode (repeat x02 20) (V4 4) 1].
Lemma three_facts : history two_me false two_boot three_a three_h /\ In (OLookup 0 (repeat x00 20)) three_h /\
  answers three_h 0 = [mkFound [mkPeer (mkSA (V4 167772161) 6881) None false] [mkSA (V4 2) 1; mkSA (V4 4) 1]] /\ known_nodes three_h 0 three_nodes /\ NoDup (map nd_id three_nodes).
Proof.
  split; [exists three; split; [repeat constructor|vm_compute; reflexivity]|]. split; [left; reflexivity|]. split; [reflexivity|]. split; [apply firsts_three; discriminate|].
  cbn. repeat constructor; cbn; intuition discriminate.
Qed.
(** Waiting for the bootstrap node. *)
Lemma waiting_facts : exists a h, history two_me false two_boot a h /\ answers h 0 = [] /\ downs h 0 = O /\ awaiting h 0 (mkSA (V4 1) 1) [x00; x00; x00; x00] /\
  let msg := bs "d1:t2:aa1:y1:re" in carries msg (bs "aa") /\ (forall txn sid, carries msg txn -> ~ awaiting h sid (mkSA (V4 1) 1) txn).
Proof.
  eexists _, _. split; [exists (firstn 1 two); split; [repeat constructor|vm_compute; reflexivity]|]. split; [reflexivity|]. split; [reflexivity|]. split.
  - exists [OLookup 0 (repeat x00 20)]. eexists. exists []. split; [reflexivity|]. split; [reflexivity|]. cbn. tauto.
  - cbv zeta. split; [apply carries_prescan; exists TResponse; split; [vm_compute; reflexivity|discriminate]|].
    intros txn sid C A. apply carries_prescan in C. destruct C as (ty & P & _). vm_compute in P. injection P as <- _.
    destruct A as (h1 & q & h2 & E & T & _). destruct h1 as [|x [|y h1]]; [discriminate| |]; cbn in E; injection E as E; [|destruct h1; discriminate]. subst q. discriminate.
Qed.
