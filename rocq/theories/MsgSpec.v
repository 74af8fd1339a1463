(** What a response must look like.  Uses the message parts of PktSpec.v, the
    reading of records of RespSpec.v, and the data types of the models. *)
From Coq Require Import Sorting.Permutation.
From Verif Require Import Base DnameSpec RandSpec PktModel PktSpec CompSpec RespModel RespSpec.
Local Open Scope N_scope.

(** A response: code, flags, counts of the three sections (without the OPT
    record), their bytes, and the OPT record. *)
Record rsp := { m_rcode : N; m_aa : bool; m_tc : bool; m_an : N; m_ns : N; m_ar : N; m_body : bytes; m_opt : option optrr }.
Definition rd_bit (pkt : bytes) : N := nth 2 pkt 0 mod 2.
Definition opt_part (m : rsp) : bytes := match m_opt m with Some o => optrr_wire o | None => [] end.

(** Laid out as the reply to [pkt], whose question section as far as it is
    echoed ends at [off] and has [qd] questions. *)
Definition front (pkt : bytes) (off : nat) (qd : N) (m : rsp) : bytes :=
  header (firstn 2 pkt)
    (128 + 8 * opcode_of pkt + (if m_aa m then 4 else 0) + (if m_tc m then 2 else 0) + rd_bit pkt)
    (m_rcode m) qd (m_an m) (m_ns m) (m_ar m + match m_opt m with Some _ => 1 | None => 0 end)
  ++ sub pkt 12 (off - 12) ++ m_body m.
Definition msg (pkt : bytes) (off : nat) (qd : N) (m : rsp) : bytes := front pkt off qd m ++ opt_part m.

Definition plain (rcode : N) (m : rsp) : Prop :=
  m_rcode m = rcode /\ m_aa m = false /\ m_tc m = false /\ m_an m = 0 /\ m_ns m = 0 /\ m_ar m = 0 /\ m_body m = [].

(** ** The OPT record of a response *)
Definition ecs_addr (e : edns) : bytes :=
  firstn ((N.to_nat (e_ecs_mask e) + 7) / 8) (if e_ecs_family e =? 1 then e_v4 e else e_v6 e).
Definition base_opts (cfg : pcfg) (dso : bool) (e : edns) (scope : N) : list (N * list N) :=
  (if e_respond_ecs e
   then [(8, be16 (e_ecs_family e) ++ [e_ecs_mask e; if e_ecs_mask e =? 0 then 0 else scope mod 256] ++ ecs_addr e)] else []) ++
  (if e_ck_respond e then [(10, e_ck_output e)] else []) ++
  (if c_is_udp cfg || dso then [] else [(11, be16 (c_keepalive cfg))]) ++
  (if e_respond_nsid e then [(3, c_nsid cfg)] else []).
(** [pad] zero bytes of padding, if padding is on *)
Definition response_opt (cfg : pcfg) (dso : bool) (e : edns) (scope : N) (rv : rcode_rv) (pad : nat) : optrr :=
  {| o_size := 1024;
     o_ext := (match rv with DECODE_BADVERS => 16777216 | _ => 0 end) + (if e_do e then 32768 else 0);
     o_opts := base_opts cfg dso e scope ++ (if c_tcp_pad cfg then [(12, repeat 0 pad)] else []) |}.

(** ** Contents *)
(** The size limit that applies to an answer over UDP. *)
Definition udp_limit (cfg : pcfg) (t : txn) : N :=
  if e_ck_valid (t_edns t) || (c_nocookie_max cfg =? 0) then t_max t else N.min (c_nocookie_max cfg) (t_max t).

Section Content.
  Variable cfg : pcfg.
  Variable chaos : bytes.
  Variable dyn : edns -> N -> dynres.
  Variable chals : name -> list (N * bytes).
  Variable root : node.
  Variable pkt : bytes.
  Variable off : nat.

  (** The answer to a question of class IN or ANY: complete and, over UDP,
      within the limit; or, over UDP only and only because the complete one
      would not be, truncated to nothing. *)
  Definition db_content (t : txn) (q : question) (m : rsp) : Prop :=
    exists r, resolves (dyn (t_edns t)) chals true root (map (map lower) (q_name q)) (q_type q) r /\
      ((m_tc m = false /\ reply_ok same_name (t_max t) off (front pkt off 1 m) (m_an m) (m_ns m) (m_ar m) (m_rcode m) (m_aa m) r /\
        (c_is_udp cfg = true -> N.of_nat (length (msg pkt off 1 m)) <= udp_limit cfg t)) \/
       (m_tc m = true /\ c_is_udp cfg = true /\ m_an m = 0 /\ m_ns m = 0 /\ m_ar m = 0 /\ m_rcode m = 0 /\ m_body m = [] /\ m_aa m = r_aa r /\
        exists full, m_opt full = m_opt m /\
          reply_ok same_name (t_max t) off (front pkt off 1 full) (m_an full) (m_ns full) (m_ar full) (m_rcode full) (m_aa full) r /\
          udp_limit cfg t < N.of_nat (length (msg pkt off 1 full)))).

  Definition content (rv : rcode_rv) (t : txn) (q : option question) (m : rsp) : Prop :=
    match rv with
    | DECODE_FORMERR => plain 1 m
    | DECODE_NOTIMP => plain 4 m
    | DECODE_BADVERS => plain 0 m
    | DECODE_OK =>
        match q with
        | None => plain 0 m
        | Some q =>
            if (q_class q =? 1) || (q_class q =? 255) then db_content t q m
            else if q_class q =? 3 then
              m_rcode m = 0 /\ m_aa m = false /\ m_tc m = false /\ m_an m = 1 /\ m_ns m = 0 /\ m_ar m = 0 /\ m_body m = chaos
            else plain 5 m
        end
    | _ => False
    end.
End Content.

(** ** Queries the size prediction copes with *)
Definition once (c : N) (os : list (N * list N)) : Prop := (length (filter (fun o => N.eqb (fst o) c) os) <= 1)%nat.
(** wherever an OPT record may be read in [pkt]: version 0 (or UDP, or a DSO
    session), no second client-subnet and no second NSID option *)
Definition tame (cfg : pcfg) (dso : bool) (pkt : bytes) : Prop :=
  forall p size ext rdlen tail, pkt = p ++ opt_header size ext rdlen ++ tail -> (12 <= length p)%nat -> size < 65536 -> rdlen < 65536 ->
    (opt_version ext = 0 \/ c_is_udp cfg = true \/ dso = true) /\
    forall os rest, Forall opt_ok os -> firstn (N.to_nat rdlen) tail = opts_wire os ++ rest -> once 8 os /\ once 3 os.

(** ** Settings and data a server runs with *)
Record wf_server (cfg : pcfg) (chaos : bytes) (ckp : bytes -> bool * bytes) (draws : nat -> nat -> list nat)
    (dyn : edns -> N -> dynres) (chals : name -> list (N * bytes)) (root : node) : Prop := {
  ws_cookie : forall d, length (snd (ckp d)) = 16%nat;
  ws_nsid : (length (c_nsid cfg) <= 128)%nat;
  ws_pad : c_tcp_pad cfg = true -> c_is_udp cfg = false;
  ws_udp : 512 <= c_udp_max cfg;
  (* a pointer to the question's name, 8 fixed bytes, length, data *)
  ws_chaos : exists fixed d, length fixed = 8%nat /\ (length d <= 256)%nat /\ chaos = [192; 12] ++ fixed ++ be16 (N.of_nat (length d)) ++ d;
  ws_db : wf_db root;
  ws_dyn : forall e, wf_dyn (dyn e) root;
  ws_chals : forall n, Forall (fun c => length (snd c) = 44%nat) (chals n);
  ws_draws : forall off n, legal_draws (n - 1) (draws off n) }.
(** the largest OPT record (without padding) of a server with these settings:
    fixed fields and keepalive option, client subnet, cookie, server ID *)
Definition opt_room (cfg : pcfg) : N :=
  17 + (if c_ecs cfg then 24 else 0) + (if c_disable_cookies cfg then 0 else 20) +
  match c_nsid cfg with [] => 0 | _ => 4 + N.of_nat (length (c_nsid cfg)) end.
(** whatever the plugins say, the answer to the question of [pkt] leaves room
    in the buffer for the largest OPT record *)
Definition fits (cfg : pcfg) (dyn : edns -> N -> dynres) (chals : name -> list (N * bytes)) (root : node) (pkt : bytes) : Prop :=
  forall e q off r, first_question pkt (Some q) off ->
    resolves (dyn e) chals true root (map (map lower) (q_name q)) (q_type q) r ->
    N.of_nat off + rep_size r + opt_room cfg <= 16376.

(** ** Reading a response without knowing what it should say *)
(** [n] records between [off] and [e] *)
Inductive recs_at (pkt : bytes) : nat -> nat -> nat -> Prop :=
| ra_nil off : recs_at pkt off 0 off
| ra_cons off ls e1 fixed e n e' : name_at pkt off ls e1 -> length fixed = 8%nat -> (e1 + 10 <= e <= length pkt)%nat ->
    N.of_nat (e - (e1 + 10)) < 65536 -> sub pkt e1 10 = fixed ++ be16 (N.of_nat (e - (e1 + 10))) ->
    recs_at pkt e n e' -> recs_at pkt off (S n) e'.
Definition count_at (pkt : bytes) (i : nat) : nat := N.to_nat (get16 (nth i pkt 0) (nth (S i) pkt 0)).
(** three sections with as many records as announced fill the message from
    [off] to its end *)
Definition counts_right (pkt : bytes) (off : nat) : Prop :=
  exists e1 e2, recs_at pkt off (count_at pkt 6) e1 /\ recs_at pkt e1 (count_at pkt 8) e2 /\
    recs_at pkt e2 (count_at pkt 10) (length pkt).

(** ** DSO (RFC 8490) *)
(** items of type, length, data *)
Definition tlvs_wire (xs : list (N * list N)) : bytes := concat (map opt_wire xs).
(** a DSO response: ID and opcode of the request, no other flags *)
Definition dso_msg (pkt : bytes) (rcode : N) (body : bytes) : bytes :=
  header (firstn 2 pkt) (128 + 8 * 6) rcode 0 0 0 0 ++ body.
(** with padding on: an item of type 3 with zeros up to 468 bytes *)
Definition dso_padded (cfg : pcfg) (m : bytes) : bytes :=
  m ++ (if c_tcp_pad cfg then opt_wire (3, repeat 0 (464 - length m)) else []).

(** ** Size limits *)
(** what a client asks for, over UDP *)
Definition client_limit (cfg : pcfg) (o : option optrr) : N :=
  match o with
  | None => 512
  | Some x => if opt_version (o_ext x) =? 0 then N.min (N.max 512 (o_size x)) (c_udp_max cfg) else 512
  end.
(** a query whose OPT record, if any, has no fault, and what it is taken to say *)
Definition accepted (cfg : pcfg) (ckp : bytes -> bool * bytes) (dso : bool) (q : question) (o : option optrr) (trail : bytes) (t : txn) : Prop :=
  match o with
  | None => t = txn_start cfg (Some q)
  | Some x => optrr_rel cfg ckp dso (txn_start cfg (Some q)) (o_size x) (o_ext x) (N.of_nat (length (opts_wire (o_opts x))))
                (opts_wire (o_opts x) ++ trail) DECODE_OK t
  end.
Definition std_ok (id : bytes) (f1 f2 : N) (q : question) (o : option optrr) (trail : bytes) : Prop :=
  length id = 2%nat /\ all_bytes id /\ f1 < 128 /\ f2 < 256 /\ question_ok q /\ (forall x, o = Some x -> optrr_ok x) /\ all_bytes trail /\
  (length (std_msg id f1 f2 q o trail) <= 1024)%nat.
