(** Model of src/peer/extensions.rs. *)
From Verif Require Import Base.

(** src/peer/extensions.rs:10-19 Extension *)
Inductive extension :=
| AzureusMessaging | LocationAware | Bep10 | Dht | XbtPex | Fast | NatTraversal | HybridV2.
Definition all_extensions : list extension :=
  [AzureusMessaging; LocationAware; Bep10; Dht; XbtPex; Fast; NatTraversal; HybridV2].
Definition ext_pos (e : extension) : N :=
  match e with
  | AzureusMessaging => 63 | LocationAware => 43 | Bep10 => 20 | Dht => 0
  | XbtPex => 1 | Fast => 2 | NatTraversal => 3 | HybridV2 => 4
  end.

(** src/peer/extensions.rs:22-24 Extension::bit *)
Definition ext_bit (e : extension) : N := N.shiftl 1 (ext_pos e).

(** src/peer/extensions.rs:43-109 ExtensionSet(u64): has, BitAnd, FromIterator *)
Definition ext_has (s : N) (e : extension) : bool := negb (N.land s (ext_bit e) =? 0).
Definition ext_and (a b : N) : N := N.land a b.
Definition ext_from (l : list extension) : N := fold_left (fun v e => N.lor v (ext_bit e)) l 0.

(** src/consts.rs:20 *)
Definition SUPPORTED_EXTENSIONS : list extension := [Bep10; Fast].

(** src/peer/extensions.rs:111-136 Bep10Extension and its FromStr / Display *)
Inductive bep10_ext := Metadata.
Definition ext_eqb (a b : bep10_ext) : bool := match a, b with Metadata, Metadata => true end.
Definition ext_of_name (s : bytes) : option bep10_ext :=
  if bytes_eqb s (bs "ut_metadata") then Some Metadata else None.
Definition ext_name (e : bep10_ext) : bytes := match e with Metadata => bs "ut_metadata" end.

(** src/peer/extensions.rs:142-147 Bep10Registry: two maps (association lists,
    most recent insertion first). *)
Record registry := mkReg { to_code : list (bep10_ext * N); from_code : list (N * bep10_ext) }.
Definition reg_new : registry := mkReg [] [].
Inductive registry_error := RHandshake | RCode (c : N) | RExt (e : bep10_ext).

Fixpoint get_code (e : bep10_ext) (l : list (bep10_ext * N)) : option N :=
  match l with [] => None | (e', c) :: r => if ext_eqb e e' then Some c else get_code e r end.
Fixpoint get_ext (c : N) (l : list (N * bep10_ext)) : option bep10_ext :=
  match l with [] => None | (c', e) :: r => if c =? c' then Some e else get_ext c r end.

(** src/peer/extensions.rs:176-186 contains, get_message_id, for_message_id *)
Definition reg_get_message_id (r : registry) (e : bep10_ext) : option N := get_code e (to_code r).
Definition reg_for_message_id (r : registry) (c : N) : option bep10_ext := get_ext c (from_code r).
Definition reg_contains (r : registry) (e : bep10_ext) : bool :=
  match reg_get_message_id r e with Some _ => true | None => false end.

(** src/peer/extensions.rs:188-206 register *)
Definition reg_register (r : registry) (e : bep10_ext) (code : N) : res registry_error registry :=
  if code =? 0 then Err RHandshake
  else match reg_for_message_id r code with
       | Some _ => Err (RCode code)
       | None =>
           match reg_get_message_id r e with
           | Some _ => Err (RExt e)
           | None => Ok (mkReg ((e, code) :: to_code r) ((code, e) :: from_code r))
           end
       end.

(** src/peer/extensions.rs:158-166 from_m *)
Fixpoint reg_from_m_go (m : list (bytes * N)) (r : registry) : res registry_error registry :=
  match m with
  | [] => Ok r
  | (k, v) :: m' =>
      match ext_of_name k with
      | Some e => let? r' := reg_register r e v in reg_from_m_go m' r'
      | None => reg_from_m_go m' r
      end
  end.
Definition reg_from_m (m : list (bytes * N)) : res registry_error registry := reg_from_m_go m reg_new.

(** src/peer/extensions.rs:168-174 to_m *)
Definition reg_to_m (r : registry) : list (bytes * N) :=
  map (fun ec => (ext_name (fst ec), snd ec)) (to_code r).
