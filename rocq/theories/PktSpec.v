(** Query messages as structured data, and what decoding should make of them.
    Only the record types of the model are used. *)
From Verif Require Import Base DnameSpec PktModel.
Local Open Scope N_scope.

(** ** Client-subnet options (RFC 7871) *)

(** Bit [i] of an address, counted from the most significant bit. *)
Definition addr_bit (addr : bytes) (i : nat) : bool :=
  N.testbit (nth (i / 8) addr 0) (N.of_nat (7 - i mod 8)).

Definition ecs_fields (opt : bytes) (family src : N) (addr : bytes) : Prop :=
  opt = be16 family ++ [src; 0] ++ addr /\
  ((family = 1 /\ src <= 32) \/ (family = 2 /\ src <= 128)) /\
  length addr = ((N.to_nat src + 7) / 8)%nat /\
  forall i, (N.to_nat src <= i < 8 * length addr)%nat -> addr_bit addr i = false.

Definition ecs_ok (opt : bytes) : Prop := exists family src addr, ecs_fields opt family src addr.

(** ** Message parts *)
Record question := { q_name : list (list N); q_type : N; q_class : N }.
Definition question_ok (q : question) : Prop :=
  legal_name (q_name q) /\ q_type q < 65536 /\ q_class q < 65536.
Definition question_wire (q : question) : bytes :=
  wire_labels (q_name q) ++ [0] ++ be16 (q_type q) ++ be16 (q_class q).

Definition header (id : bytes) (flags1 flags2 qd an ns ar : N) : bytes :=
  id ++ [flags1; flags2] ++ be16 qd ++ be16 an ++ be16 ns ++ be16 ar.

(** An EDNS option: code and data. *)
Notation option_ := (N * list N)%type (only parsing).
Definition opt_ok (o : option_) : Prop := fst o < 65536 /\ N.of_nat (length (snd o)) < 65536 /\ all_bytes (snd o).
Definition opt_wire (o : option_) : bytes := be16 (fst o) ++ be16 (N.of_nat (length (snd o))) ++ snd o.
Definition opts_wire (os : list option_) : bytes := concat (map opt_wire os).

(** An OPT record: sender's maximum size, extended flags (with version 0..255
    in bits 16..23 and the DO bit as bit 15), options. *)
Record optrr := { o_size : N; o_ext : N; o_opts : list option_ }.
Definition optrr_ok (o : optrr) : Prop :=
  o_size o < 65536 /\ o_ext o < 4294967296 /\ Forall opt_ok (o_opts o) /\
  N.of_nat (length (opts_wire (o_opts o))) < 65536.
Definition optrr_wire (o : optrr) : bytes :=
  [0] ++ be16 41 ++ be16 (o_size o) ++ be32 (o_ext o) ++
  be16 (N.of_nat (length (opts_wire (o_opts o)))) ++ opts_wire (o_opts o).

(** Options with no parse: fewer than four bytes, or more data announced than
    present. *)
Definition no_option (R : bytes) : Prop := forall o rest, opt_ok o -> R <> opt_wire o ++ rest.

Definition put (buf data : bytes) : bytes := data ++ skipn (length data) buf.

(** the state after an accepted option *)
Definition ecs_result (e : edns) (family src : N) (addr : bytes) : edns :=
  set_ecs e family src
    (if src =? 0 then e_sa_family e else family)%N
    (if (src =? 0) || negb (family =? 1) then e_v4 e else put (e_v4 e) addr)%N
    (if (src =? 0) || (family =? 1) then e_v6 e else put (e_v6 e) addr)%N
    (e_out_bytes e + (8 + N.of_nat (length addr)))%N.

Section OptSpec.
  Variable cfg : pcfg.
  (** cookie check of one option: valid, and the 16 bytes to send back *)
  Variable ckp : bytes -> bool * bytes.

  (** What one option does. *)
  Inductive opt_rel (dso : bool) (e : edns) : N * list N -> rcode_rv -> edns -> Prop :=
  | or_ecs opt family src addr : c_ecs cfg = true -> ecs_fields opt family src addr ->
      opt_rel dso e (8%N, opt) DECODE_OK (ecs_result e family src addr)
  | or_ecs_bad opt : c_ecs cfg = true -> ~ ecs_ok opt -> opt_rel dso e (8%N, opt) DECODE_FORMERR e
  | or_ecs_off opt : c_ecs cfg = false -> opt_rel dso e (8%N, opt) DECODE_OK e
  | or_nsid : c_nsid cfg <> [] ->
      opt_rel dso e (3%N, []) DECODE_OK (set_nsid e (e_out_bytes e + (4 + N.of_nat (length (c_nsid cfg)))))
  | or_nsid_off : c_nsid cfg = [] -> opt_rel dso e (3%N, []) DECODE_OK e
  | or_nsid_bad opt : opt <> [] -> opt_rel dso e (3%N, opt) DECODE_FORMERR e
  | or_keepalive_dso opt : c_is_udp cfg = false -> dso = true -> opt_rel dso e (11%N, opt) DECODE_IGNORE e
  | or_keepalive opt : c_is_udp cfg = true \/ dso = false -> opt_rel dso e (11%N, opt) DECODE_OK e
  | or_cookie opt : c_disable_cookies cfg = false -> e_ck_recvd e = false ->
      (length opt = 8 \/ 16 <= length opt <= 40)%nat ->
      opt_rel dso e (10%N, opt) DECODE_OK (set_ck e true (fst (ckp opt)) (snd (ckp opt)) (e_out_bytes e + 20))
  | or_cookie_bad opt : c_disable_cookies cfg = false -> e_ck_recvd e = false ->
      ~ ((length opt = 8 \/ 16 <= length opt <= 40)%nat) ->
      opt_rel dso e (10%N, opt) DECODE_FORMERR (set_ck e (e_ck_respond e) (e_ck_valid e) (e_ck_output e) (e_out_bytes e))
  | or_cookie_off opt : c_disable_cookies cfg = true \/ e_ck_recvd e = true -> opt_rel dso e (10%N, opt) DECODE_OK e
  | or_other code opt : ~ In code [3; 8; 10; 11]%N -> opt_rel dso e (code, opt) DECODE_OK e.

  (** Running over the option area of an OPT record. *)
  Inductive opts_rel (dso : bool) : edns -> list N -> rcode_rv -> edns -> Prop :=
  | os_end e : opts_rel dso e [] DECODE_OK e
  | os_bad e R : R <> [] -> no_option R -> opts_rel dso e R DECODE_FORMERR e
  | os_next e o R rv e1 e2 : opt_ok o -> opt_rel dso e o DECODE_OK e1 -> opts_rel dso e1 R rv e2 ->
      opts_rel dso e (opt_wire o ++ R) rv e2
  | os_stop e o R rv e1 : opt_ok o -> opt_rel dso e o rv e1 -> rv <> DECODE_OK ->
      opts_rel dso e (opt_wire o ++ R) rv e1.

  (** An OPT record header: root name, type 41, size, extended flags, data
      length. *)
  Definition opt_header (size ext rdlen : N) : bytes := [0] ++ be16 41 ++ be16 size ++ be32 ext ++ be16 rdlen.
  Definition opt_version (ext : N) : N := (ext / 65536) mod 256.
  Definition opt_do (ext : N) : bool := N.testbit ext 15.

  (** the transaction once the OPT header has been read *)
  Definition opt_seen (t : txn) (ext : N) : txn :=
    set_edns t (set_req (t_edns t) 11 (e_do (t_edns t) || opt_do ext)).
  (** and once its version was found to be 0: the UDP size limit is the
      client's, at least 512 and at most the server's; over TCP without a DSO
      session, six bytes are set aside for the keepalive option *)
  Definition opt_limits (dso : bool) (t : txn) (size : N) : txn :=
    if c_is_udp cfg then set_max t (N.min (N.max 512 size) (c_udp_max cfg))
    else if dso then t
    else set_edns t (set_out (t_edns t) (e_out_bytes (t_edns t) + 6)).

  Inductive optrr_rel (dso : bool) (t : txn) (size ext rdlen : N) (tail : bytes) : rcode_rv -> txn -> Prop :=
  | rr_version : opt_version ext <> 0 -> optrr_rel dso t size ext rdlen tail DECODE_BADVERS (opt_seen t ext)
  | rr_short : opt_version ext = 0 -> (length tail < N.to_nat rdlen)%nat ->
      optrr_rel dso t size ext rdlen tail DECODE_FORMERR (opt_limits dso (opt_seen t ext) size)
  | rr_run rv e' : opt_version ext = 0 -> (N.to_nat rdlen <= length tail)%nat ->
      opts_rel dso (t_edns (opt_limits dso (opt_seen t ext) size)) (firstn (N.to_nat rdlen) tail) rv e' ->
      optrr_rel dso t size ext rdlen tail rv (set_edns (opt_limits dso (opt_seen t ext) size) e').
End OptSpec.

(** ** A whole message *)

(** The transaction before any OPT record is looked at. *)
Definition txn_start (cfg : pcfg) (q : option question) : txn :=
  {| t_max := if c_is_udp cfg then 512 else 16376;
     t_qtype := match q with Some q => q_type q | None => 0 end;
     t_qclass := match q with Some q => q_class q | None => 0 end;
     t_qdcount := match q with Some _ => 1 | None => 0 end;
     t_lqname := match q with Some q => dname (map (map lower) (q_name q)) true | None => [] end;
     t_edns := edns0 |}.

Definition qr_set (pkt : bytes) : bool := N.testbit (nth 2 pkt 0) 7.
Definition opcode_of (pkt : bytes) : N := (nth 2 pkt 0 / 8) mod 16.
Definition qdcount_of (pkt : bytes) : N := get16 (nth 4 pkt 0) (nth 5 pkt 0).

(** The question section of a message: the first question, if one is
    announced. *)
Inductive first_question (pkt : bytes) : option question -> nat -> Prop :=
| fq_none : qdcount_of pkt = 0 -> first_question pkt None 12
| fq_some q rest : qdcount_of pkt <> 0 -> question_ok q -> skipn 12 pkt = question_wire q ++ rest ->
    first_question pkt (Some q) (12 + length (question_wire q)).

(** What the OPT record of a message, if there is one behind the question, did. *)
Inductive opt_effect (cfg : pcfg) (ckp : bytes -> bool * bytes) (dso : bool) (pkt : bytes) (off : nat) (t0 : txn)
  : rcode_rv -> txn -> Prop :=
| oe_none : opt_effect cfg ckp dso pkt off t0 DECODE_OK t0
| oe_some p size ext rdlen tail rv t : (off <= length p)%nat -> pkt = p ++ opt_header size ext rdlen ++ tail ->
    size < 65536 /\ rdlen < 65536 ->
    optrr_rel cfg ckp dso t0 size ext rdlen tail rv t -> opt_effect cfg ckp dso pkt off t0 rv t.

(** Decision for a message that parsed. *)
Definition opcode_verdict (cfg : pcfg) (pkt : bytes) (t : txn) : rcode_rv :=
  if opcode_of pkt =? 0 then
    if (1 <? qdcount_of pkt) || ((qdcount_of pkt =? 0) && negb (e_ck_recvd (t_edns t))) then DECODE_FORMERR
    else if (128 <=? t_qtype t) && (t_qtype t <=? 254) then DECODE_NOTIMP
    else DECODE_OK
  else if (opcode_of pkt =? 6) && negb (c_disable_dso cfg) then DECODE_DSO
  else DECODE_NOTIMP.

(** A standard message: header, one question, at most an OPT record, and
    anything behind it. *)
Definition add_wire (o : option optrr) : bytes := match o with Some o => optrr_wire o | None => [] end.
Definition add_count (o : option optrr) : N := match o with Some _ => 1 | None => 0 end.
Definition std_msg (id : bytes) (f1 f2 : N) (q : question) (o : option optrr) (trail : bytes) : bytes :=
  header id f1 f2 1 0 0 (add_count o) ++ question_wire q ++ add_wire o ++ trail.
