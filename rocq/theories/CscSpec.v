(** What a new daemon and users of gdnsdctl rely on. *)
From Coq Require Import Ascii String.
From Verif Require Import Base DnameSpec ChalSpec CtlModel CscModel.
Local Open Scope N_scope.

(** ** Messages: the key, three bytes of v (highest first), four of d (lowest first) *)
Definition message (key v d : N) : bytes :=
  [key; v / 65536; v / 256 mod 256; v mod 256; d mod 256; d / 256 mod 256; d / 65536 mod 256; d / 16777216 mod 256].

(** What the kernel hands to the client of what the daemon did on the connection. *)
Definition delivered (x : item) : list rmsg :=
  match x with
  | Wrote key v d => [{| m_bytes := message key v d; m_ctrunc := false; m_cmsgs := [] |}]
  | WroteFds key v d fds => [{| m_bytes := message key v d; m_ctrunc := false; m_cmsgs := [Rights fds 0] |}]
  | Closed => [{| m_bytes := []; m_ctrunc := false; m_cmsgs := [] |}]
  | _ => []
  end.
(** The bytes. *)
Definition stream (x : item) : bytes :=
  match x with Wrote key v d => message key v d | WroteData b => b | _ => [] end.
(** The bytes arrive in pieces of any size (only the first 8 come in one piece at least). *)
Definition arrives (net : list arrival) (b : bytes) : Prop :=
  exists pieces, net = map Piece pieces /\ concat pieces = b /\ Forall (fun p => p <> []) pieces /\ match pieces with [] => True | p :: _ => (8 <= List.length p)%nat end.

(** ** Sockets and threads *)
Definition inet (a : anysin) : Prop := a_family a = INET \/ a_family a = INET6.
(** A socket that a thread could use. *)
Definition usable (name_of : N -> sockname) (type_of : N -> socktype) (fd : N) (udp : bool) (a : anysin) : Prop :=
  name_of fd = Named a /\ inet a /\ type_of fd = (if udp then Dgram else Stream).
(** How many sockets and threads there are for an address and protocol. *)
Definition count {A} (P : A -> bool) (l : list A) : nat := List.length (filter P l).

(** ** Challenges on the command line *)
Definition codes (s : string) : bytes := map N_of_ascii (list_ascii_of_string s).
Definition base64url : bytes := codes "ABCDEFGHIJKLMNOPQRSTUVWXYZabcdefghijklmnopqrstuvwxyz0123456789-_".
Definition prefix : bytes := codes "_acme-challenge.".
(** [names text ls]: the name given is [ls], with or without the prefix in front
    of it. *)
Definition given_name (text : bytes) (ls : list (list N)) : Prop :=
  exists t fq, (text = prefix ++ t \/ (text = t /\ ~ exists t', text = prefix ++ t')) /\ name_text t ls fq /\ legal_name ls /\ (wire_len ls <= 239)%nat.
Inductive given : list (bytes * bytes) -> list achal -> Prop :=
| given_nil : given [] []
| given_cons dn ch args ls cs : given_name dn ls -> List.length ch = 43%nat -> (forall x, In x ch -> In x base64url) ->
    given args cs -> given ((dn, ch) :: args) ({| a_name := ls; a_text := ch |} :: cs).

(** a message that brings the sockets [p] of [n] in all, complete *)
Definition sockets_in (n : nat) (m : rmsg) (p : list N) : Prop :=
  exists v0 v1 v2 tail a b, m_bytes m = [RESP_ACK; v0; v1; v2] ++ tail /\ (N.of_nat n = v0 * 65536 + v1 * 256 + v2)%N /\
    m_ctrunc m = false /\ m_cmsgs m = repeat OtherCmsg a ++ Rights p 0 :: b /\ p <> [].
