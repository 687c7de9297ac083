(** Specification: reading a .torrent document back (BEP 3, BEP 5, BEP 12). *)
From Verif Require Import Base S_Bencode M_Net M_IpText.

Fixpoint all_some {A B} (f : A -> option B) (l : list A) : option (list B) :=
  match l with
  | [] => Some []
  | x :: r => leto y := f x in leto ys := all_some f r in Some (y :: ys)
  end.

(** A tier holding exactly one URL. *)
Definition one_url (v : value) : option bytes :=
  match v with VList [VBytes u] => Some u | _ => None end.

(** A node: [host text, port]. *)
Definition host_port (v : value) : option sockaddr :=
  match v with
  | VList [VBytes host; VInt port] =>
      leto i := parse_ip host in
      if (0 <=? port)%Z then Some (mkSA i (Z.to_N port)) else None
  | _ => None
  end.

(** A missing list is empty; an empty list is not written. *)
Definition opt_list {A} (f : value -> option A) (k : bytes) (doc : list (bytes * value)) : option (list A) :=
  match lookup k doc with
  | None => Some []
  | Some (VList (x :: l)) => all_some f (x :: l)
  | Some _ => None
  end.

(** What the document says: tracker URLs in tier order, DHT nodes, creator, date
    and info dictionary. *)
Definition says (doc : list (bytes * value)) (trackers : list bytes) (nodes : list sockaddr)
    (creator : bytes) (date : Z) (info : value) : Prop :=
  opt_list one_url (bs "announce-list") doc = Some trackers /\
  opt_list host_port (bs "nodes") doc = Some nodes /\
  lookup (bs "created by") doc = Some (VBytes creator) /\
  lookup (bs "creation date") doc = Some (VInt date) /\
  lookup (bs "info") doc = Some info /\
  forall k, lookup k doc <> None ->
    In k [bs "announce-list"; bs "nodes"; bs "created by"; bs "creation date"; bs "info"].
