(** Specification: the text form of IP addresses (RFC 4291 section 2.2; dotted decimal
    without leading zeros). *)
From Verif Require Import Base S_Types M_Net M_Tracker M_Udp.

(** a.b.c.d *)
Definition ipv4_text (s : bytes) (n : N) : Prop :=
  exists a b c d, a < 256 /\ b < 256 /\ c < 256 /\ d < 256 /\
    s = dec a ++ "."%byte :: dec b ++ "."%byte :: dec c ++ "."%byte :: dec d /\
    n = ((a * 256 + b) * 256 + c) * 256 + d.

(** One to four hexadecimal digits, of either case. *)
Definition hex_group (s : bytes) (g : N) : Prop := (1 <= length s <= 4)%nat /\ number 16 hex_value s = Some g.
(** One or more 16-bit groups separated by colons; [dotted]: the last two as a.b.c.d. *)
Inductive hex_groups : bytes -> list N -> bool -> Prop :=
| hg_last s g : hex_group s g -> hex_groups s [g] false
| hg_dotted s n : ipv4_text s n -> hex_groups s [n / 65536; n mod 65536] true
| hg_more s g r l dotted : hex_group s g -> hex_groups r l dotted -> hex_groups (s ++ ":"%byte :: r) (g :: l) dotted.
(** Possibly none. *)
Definition some_groups (s : bytes) (l : list N) (dotted : bool) : Prop :=
  (s = [] /\ l = [] /\ dotted = false) \/ hex_groups s l dotted.
Definition groups_value (l : list N) : N := fold_left (fun a g => a * 65536 + g) l 0.
(** Eight groups; or fewer, with "::" standing for one or more groups of zeros. *)
Definition ipv6_text (s : bytes) (n : N) : Prop :=
  (exists l dotted, hex_groups s l dotted /\ length l = 8%nat /\ n = groups_value l) \/
  (exists a la b lb dotted, s = a ++ ":"%byte :: ":"%byte :: b /\ some_groups a la false /\ some_groups b lb dotted /\
     (length la + length lb <= 7)%nat /\
     n = groups_value (la ++ repeat 0 (8 - length la - length lb) ++ lb)).
Definition address_text (s : bytes) (i : ip) : Prop :=
  match i with V4 n => ipv4_text s n | V6 n => ipv6_text s n end.

(** The host of a URL, IPv6 addresses in brackets. *)
Definition url_host_text (h : option url_host) (s : bytes) : Prop :=
  match h with
  | Some (HDomain d) => s = d
  | Some (HIp (V4 n)) => ipv4_text s n
  | Some (HIp (V6 n)) => exists t, s = ["["%byte] ++ t ++ ["]"%byte] /\ ipv6_text t n
  | None => False
  end.
