(** Model of query decoding, src/dnspacket.c:294-760.

    The received message is a list of exactly the received bytes and every
    read is checked against it.  Statistics counters and log output are left
    out. *)
From Verif Require Import Base DnameModel.
Local Open Scope N_scope.

(** Run-time configuration read by the packet code (gcfg in src/conf.h and the
    per-thread fields of dnsp_ctx, src/dnspacket.c:164-201). *)
Record pcfg := {
  c_ecs : bool;                (* gcfg->edns_client_subnet *)
  c_nsid : bytes;              (* gcfg->nsid *)
  c_disable_cookies : bool;    (* gcfg->disable_cookies *)
  c_disable_dso : bool;        (* gcfg->disable_tcp_dso *)
  c_is_udp : bool;             (* ctx->is_udp *)
  c_tcp_pad : bool;            (* ctx->tcp_pad *)
  c_udp_max : N;               (* ctx->udp_edns_max *)
  c_keepalive : N;             (* ctx->edns_tcp_keepalive *)
  c_inactivity : N;            (* ctx->dso_inactivity *)
  c_nocookie_max : N           (* gcfg->max_nocookie_response *) }.

(** [edns_t] and [cookie_t], src/dnspacket.c:60-108.  The client address union
    is kept as its two disjoint address fields. *)
Record edns := {
  e_out_bytes : N;
  e_req : bool;
  e_do : bool;
  e_respond_ecs : bool;
  e_ecs_family : N;
  e_ecs_mask : N;
  e_sa_family : N;             (* 0, 1 for AF_INET, 2 for AF_INET6 *)
  e_v4 : bytes;                (* sin4.sin_addr, 4 bytes *)
  e_v6 : bytes;                (* sin6.sin6_addr, 16 bytes *)
  e_respond_nsid : bool;
  e_ck_recvd : bool;
  e_ck_respond : bool;
  e_ck_valid : bool;
  e_ck_output : bytes }.

Definition edns0 : edns :=
  {| e_out_bytes := 0; e_req := false; e_do := false; e_respond_ecs := false; e_ecs_family := 0;
     e_ecs_mask := 0; e_sa_family := 0; e_v4 := repeat 0 4; e_v6 := repeat 0 16; e_respond_nsid := false;
     e_ck_recvd := false; e_ck_respond := false; e_ck_valid := false; e_ck_output := repeat 0 16 |}.

(** The part of [txn_t] (src/dnspacket.c:113-161) that decoding fills in. *)
Record txn := {
  t_max : N;                   (* this_max_response *)
  t_qtype : N;
  t_qclass : N;
  t_qdcount : N;
  t_lqname : bytes;            (* lqname, without the unused tail *)
  t_edns : edns }.

(** [rcode_rv_t], src/dnspacket.c:282-291. *)
Inductive rcode_rv := DECODE_IGNORE | DECODE_FORMERR | DECODE_BADVERS | DECODE_NOTIMP | DECODE_OK | DECODE_DSO.

Definition rd16 (pkt : bytes) (off : nat) : res N :=
  do a <- rd pkt off; do b <- rd pkt (S off); Ok (get16 a b).
Definition rd32 (pkt : bytes) (off : nat) : res N :=
  do a <- rd pkt off; do b <- rd pkt (off + 1); do c <- rd pkt (off + 2); do d <- rd pkt (off + 3);
  Ok (get32 a b c d).

Definition EDNS_NSID : N := 3.
Definition EDNS_ECS : N := 8.
Definition EDNS_COOKIE : N := 10.
Definition EDNS_KEEPALIVE : N := 11.
Definition EDNS_PADDING : N := 12.

Definition set_ecs (e : edns) (family mask sa : N) (v4 v6 : bytes) (out : N) : edns :=
  {| e_out_bytes := out; e_req := e_req e; e_do := e_do e; e_respond_ecs := true; e_ecs_family := family;
     e_ecs_mask := mask; e_sa_family := sa; e_v4 := v4; e_v6 := v6; e_respond_nsid := e_respond_nsid e;
     e_ck_recvd := e_ck_recvd e; e_ck_respond := e_ck_respond e; e_ck_valid := e_ck_valid e; e_ck_output := e_ck_output e |}.
Definition set_nsid (e : edns) (out : N) : edns :=
  {| e_out_bytes := out; e_req := e_req e; e_do := e_do e; e_respond_ecs := e_respond_ecs e; e_ecs_family := e_ecs_family e;
     e_ecs_mask := e_ecs_mask e; e_sa_family := e_sa_family e; e_v4 := e_v4 e; e_v6 := e_v6 e; e_respond_nsid := true;
     e_ck_recvd := e_ck_recvd e; e_ck_respond := e_ck_respond e; e_ck_valid := e_ck_valid e; e_ck_output := e_ck_output e |}.
Definition set_ck (e : edns) (respond valid : bool) (ckout : bytes) (out : N) : edns :=
  {| e_out_bytes := out; e_req := e_req e; e_do := e_do e; e_respond_ecs := e_respond_ecs e; e_ecs_family := e_ecs_family e;
     e_ecs_mask := e_ecs_mask e; e_sa_family := e_sa_family e; e_v4 := e_v4 e; e_v6 := e_v6 e; e_respond_nsid := e_respond_nsid e;
     e_ck_recvd := true; e_ck_respond := respond; e_ck_valid := valid; e_ck_output := ckout |}.
Definition set_req (e : edns) (out : N) (do_bit : bool) : edns :=
  {| e_out_bytes := out; e_req := true; e_do := do_bit; e_respond_ecs := e_respond_ecs e; e_ecs_family := e_ecs_family e;
     e_ecs_mask := e_ecs_mask e; e_sa_family := e_sa_family e; e_v4 := e_v4 e; e_v6 := e_v6 e; e_respond_nsid := e_respond_nsid e;
     e_ck_recvd := e_ck_recvd e; e_ck_respond := e_ck_respond e; e_ck_valid := e_ck_valid e; e_ck_output := e_ck_output e |}.
Definition set_out (e : edns) (out : N) : edns :=
  {| e_out_bytes := out; e_req := e_req e; e_do := e_do e; e_respond_ecs := e_respond_ecs e; e_ecs_family := e_ecs_family e;
     e_ecs_mask := e_ecs_mask e; e_sa_family := e_sa_family e; e_v4 := e_v4 e; e_v6 := e_v6 e; e_respond_nsid := e_respond_nsid e;
     e_ck_recvd := e_ck_recvd e; e_ck_respond := e_ck_respond e; e_ck_valid := e_ck_valid e; e_ck_output := e_ck_output e |}.

Definition set_edns (t : txn) (e : edns) : txn :=
  {| t_max := t_max t; t_qtype := t_qtype t; t_qclass := t_qclass t; t_qdcount := t_qdcount t; t_lqname := t_lqname t; t_edns := e |}.
Definition set_max (t : txn) (m : N) : txn :=
  {| t_max := m; t_qtype := t_qtype t; t_qclass := t_qclass t; t_qdcount := t_qdcount t; t_lqname := t_lqname t; t_edns := t_edns t |}.

(** [handle_edns_client_subnet], src/dnspacket.c:293-364.  [off] is the offset
    of opt_data in the packet. *)
Definition handle_edns_client_subnet (pkt : bytes) (e : edns) (opt_len off : nat) : res (rcode_rv * edns) :=
  if Nat.ltb opt_len 4 then Ok (DECODE_FORMERR, e)
  else
    do family <- rd16 pkt off;
    do src_mask <- rd pkt (off + 2);
    do scope_mask <- rd pkt (off + 3);
    let off := (off + 4)%nat in
    if negb (scope_mask =? 0) then Ok (DECODE_FORMERR, e)
    else
      let bad := if family =? 1 then 32 <? src_mask
                 else if family =? 2 then 128 <? src_mask
                 else true in
      if bad then Ok (DECODE_FORMERR, e)
      else
        let whole_bytes := N.shiftr src_mask 3 in
        let trailing_bits := N.land src_mask 7 in
        let addr_bytes := N.to_nat (whole_bytes + (if trailing_bits =? 0 then 0 else 1)) in
        if negb (Nat.eqb opt_len (4 + addr_bytes)) then Ok (DECODE_FORMERR, e)
        else
          do trailing_bad <-
            (if trailing_bits =? 0 then Ok false
             else
               do final_byte <- rd pkt (off + N.to_nat (N.shiftr src_mask 3));
               (* ~(0xFF << n) & 0xFF on 32-bit unsigned *)
               let final_mask := N.land (N.lxor 4294967295 (N.shiftl 255 (8 - trailing_bits))) 255 in
               Ok (negb (N.land final_byte final_mask =? 0)));
          if trailing_bad : bool then Ok (DECODE_FORMERR, e)
          else
            do (sa, v4, v6) <-
              (if src_mask =? 0 then Ok (e_sa_family e, e_v4 e, e_v6 e)
               else
                 do addr <- rdn pkt off addr_bytes;
                 if family =? 1 then
                   do v4 <- wr (e_v4 e) 0 addr; Ok (1, v4, e_v6 e)
                 else
                   rassert (family =? 2) (do v6 <- wr (e_v6 e) 0 addr; Ok (2, e_v4 e, v6)));
            Ok (DECODE_OK, set_ecs e family src_mask sa v4 v6 (e_out_bytes e + (8 + N.of_nat addr_bytes))).

Section Decode.
  Variable cfg : pcfg.
  (** [cookie_process], src/cookie.c:190-233, on the bytes of the option: is
      the cookie valid, and the 16 bytes to send back.  It depends on the keys
      and the client address, which are fixed during one query. *)
  Variable cookie_process : bytes -> bool * bytes.

  (** [handle_edns_cookie], src/dnspacket.c:366-385. *)
  Definition handle_edns_cookie (pkt : bytes) (e : edns) (opt_len off : nat) : res (rcode_rv * edns) :=
    if negb (Nat.eqb opt_len 8) && (Nat.ltb opt_len 16 || Nat.ltb 40 opt_len)
    then Ok (DECODE_FORMERR, set_ck e (e_ck_respond e) (e_ck_valid e) (e_ck_output e) (e_out_bytes e))
    else
      do data <- rdn pkt off opt_len;
      let (valid, out) := cookie_process data in
      do out <- wr (e_ck_output e) 0 out;
      Ok (DECODE_OK, set_ck e true valid out (e_out_bytes e + 20)).

  (** [handle_edns_option], src/dnspacket.c:387-433.  [dso_estab] is
      [txn.dso->estab] (false and unused for UDP). *)
  Definition handle_edns_option (dso_estab : bool) (pkt : bytes) (e : edns) (opt_code : N) (opt_len off : nat)
    : res (rcode_rv * edns) :=
    if opt_code =? EDNS_ECS then
      if c_ecs cfg then handle_edns_client_subnet pkt e opt_len off else Ok (DECODE_OK, e)
    else if opt_code =? EDNS_NSID then
      if Nat.eqb opt_len 0 then
        Ok (DECODE_OK,
            match c_nsid cfg with
            | [] => e
            | _ => set_nsid e (e_out_bytes e + (4 + N.of_nat (length (c_nsid cfg))))
            end)
      else Ok (DECODE_FORMERR, e)
    else if opt_code =? EDNS_KEEPALIVE then
      Ok (if negb (c_is_udp cfg) && dso_estab then DECODE_IGNORE else DECODE_OK, e)
    else if opt_code =? EDNS_PADDING then Ok (DECODE_OK, e)
    else if opt_code =? EDNS_COOKIE then
      if negb (c_disable_cookies cfg) && negb (e_ck_recvd e)
      then handle_edns_cookie pkt e opt_len off else Ok (DECODE_OK, e)
    else Ok (DECODE_OK, e).

  (** [handle_edns_options], src/dnspacket.c:435-463. *)
  Fixpoint handle_edns_options (fuel : nat) (dso_estab : bool) (pkt : bytes) (e : edns) (rdlen off : nat)
    : res (rcode_rv * edns) :=
    match fuel with
    | O => UB
    | S fuel =>
        if Nat.ltb rdlen 4 then Ok (DECODE_FORMERR, e)
        else
          do opt_code <- rd16 pkt off;
          do opt_dlen <- rd16 pkt (off + 2);
          let opt_dlen := N.to_nat opt_dlen in
          let rdlen := (rdlen - 4)%nat in
          let off := (off + 4)%nat in
          if Nat.ltb rdlen opt_dlen then Ok (DECODE_FORMERR, e)
          else
            do (rv, e) <- handle_edns_option dso_estab pkt e opt_code opt_dlen off;
            match rv with
            | DECODE_OK =>
                let rdlen := (rdlen - opt_dlen)%nat in
                let off := (off + opt_dlen)%nat in
                if Nat.eqb rdlen 0 then Ok (DECODE_OK, e)
                else handle_edns_options fuel dso_estab pkt e rdlen off
            | _ => Ok (rv, e)
            end
    end.

  (** [parse_optrr], src/dnspacket.c:465-529: decision, transaction, offset. *)
  Definition parse_optrr (dso_estab : bool) (pkt : bytes) (t : txn) (offset0 : nat) : res (rcode_rv * txn * nat) :=
    let packet_len := length pkt in
    rassert (Nat.leb (offset0 + 11) packet_len)
    (do b0 <- rd pkt offset0;
     rassert (b0 =? 0)
     (do ty <- rd16 pkt (offset0 + 1);
      rassert (ty =? 41)
      (let offset := (offset0 + 3)%nat in
       do edns_maxsize <- rd16 pkt offset;
       let offset := (offset + 2)%nat in
       do edns_extflags <- rd32 pkt offset;
       let offset := (offset + 4)%nat in
       do edns_rdlen <- rd16 pkt offset;
       let edns_rdlen := N.to_nat edns_rdlen in
       let offset := (offset + 2)%nat in
       let do_bit := e_do (t_edns t) || negb (N.land edns_extflags 32768 =? 0) in
       let t := set_edns t (set_req (t_edns t) 11 do_bit) in
       let edns_version := N.shiftr (N.land edns_extflags 16711680) 16 in
       if edns_version =? 0 then
         let t :=
           if c_is_udp cfg then
             let m := if edns_maxsize <? 512 then 512 else edns_maxsize in
             set_max t (if m <? c_udp_max cfg then m else c_udp_max cfg)
           else if negb dso_estab then set_edns t (set_out (t_edns t) (e_out_bytes (t_edns t) + 6))
           else t in
         if Nat.eqb edns_rdlen 0 then Ok (DECODE_OK, t, offset)
         else if Nat.ltb packet_len (offset + edns_rdlen) then Ok (DECODE_FORMERR, t, offset0)
         else
           do (rc, e) <- handle_edns_options (S edns_rdlen) dso_estab pkt (t_edns t) edns_rdlen offset;
           let t := set_edns t e in
           Ok (rc, t, match rc with DECODE_OK => (offset + edns_rdlen)%nat | _ => offset0 end)
       else Ok (DECODE_BADVERS, t, offset0)))).

  (** The name loop of [parse_first_question], src/dnspacket.c:538-565.  [lq] is
      what has been stored at lqname[1..] (255 bytes of room); the
      per-byte copy is one step. *)
  Fixpoint question_name (fuel : nat) (pkt : bytes) (base len pos : nat) (lq : bytes) : res (option (nat * bytes)) :=
    match fuel with
    | O => UB
    | S fuel =>
        do llen <- rd pkt (base + pos);
        let pos := (pos + 1)%nat in
        rassert (Nat.ltb (length lq) 255)
        (let lq := lq ++ [llen] in
         if llen =? 0 then Ok (Some (pos, lq))
         else if negb (N.land llen 192 =? 0) then Ok None
         else
           let n := N.to_nat llen in
           if Nat.leb len (pos + n) then Ok None
           else if Nat.ltb 254 (pos + n) then Ok None
           else
             do lab <- rdn pkt (base + pos) n;
             rassert (Nat.leb (length lq + n) 255)
             (question_name fuel pkt base len (pos + n) (lq ++ map downcase lab)))
    end.

  (** [parse_first_question], src/dnspacket.c:531-582; [None] is failure. *)
  Definition parse_first_question (pkt : bytes) (t : txn) (offset : nat) : res (option (txn * nat)) :=
    let len := (length pkt - offset)%nat in
    if Nat.eqb len 0 then Ok None
    else
      do r <- question_name 256 pkt offset len 0 [];
      match r with
      | None => Ok None
      | Some (pos, lq) =>
          if Nat.leb (pos + 4) len then
            do qtype <- rd16 pkt (offset + pos);
            do qclass <- rd16 pkt (offset + pos + 2);
            let t := {| t_max := t_max t; t_qtype := qtype; t_qclass := qclass; t_qdcount := t_qdcount t;
                        t_lqname := N.of_nat pos :: lq; t_edns := t_edns t |} in
            rassert (Nat.leb (offset + pos + 4) (length pkt)) (Ok (Some (t, (offset + pos + 4)%nat)))
          else Ok None
      end.

  (** [parse_rr_name_minimal], src/dnspacket.c:584-607 (0 is failure). *)
  Fixpoint rr_name_minimal (fuel : nat) (pkt : bytes) (base len pos : nat) : res nat :=
    match fuel with
    | O => UB
    | S fuel =>
        do llen <- rd pkt (base + pos);
        let pos := (pos + 1)%nat in
        if llen =? 0 then Ok pos
        else if negb (N.land llen 192 =? 0) then
          let pos := (pos + 1)%nat in
          if Nat.leb len pos then Ok 0%nat else Ok pos
        else
          let pos := (pos + N.to_nat llen)%nat in
          if Nat.leb len pos then Ok 0%nat else rr_name_minimal fuel pkt base len pos
    end.
  Definition parse_rr_name_minimal (pkt : bytes) (base len : nat) : res nat :=
    rassert (negb (Nat.eqb len 0))
    (rr_name_minimal 256 pkt base (if Nat.ltb 255 len then 255%nat else len) 0).

  (** [parse_rr_minimal], src/dnspacket.c:609-639; [None] is failure. *)
  Definition parse_rr_minimal (pkt : bytes) (offset : nat) (has_data : bool) : res (option nat) :=
    rassert (Nat.leb offset (length pkt))
    (let len := (length pkt - offset)%nat in
     if Nat.eqb len 0 then Ok None
     else
       do pos <- parse_rr_name_minimal pkt offset len;
       if Nat.eqb pos 0 then Ok None
       else if has_data then
         if Nat.ltb len (pos + 10) then Ok None
         else
           do rdlen <- rd16 pkt (offset + pos + 8);
           let pos := (pos + 10 + N.to_nat rdlen)%nat in
           if Nat.ltb len pos then Ok None else Ok (Some (offset + pos)%nat)
       else if Nat.ltb len (pos + 4) then Ok None else Ok (Some (offset + pos + 4)%nat)).

  Fixpoint parse_rrs_minimal (n : nat) (pkt : bytes) (offset : nat) (has_data : bool) : res (option nat) :=
    match n with
    | O => Ok (Some offset)
    | S n =>
        do r <- parse_rr_minimal pkt offset has_data;
        match r with None => Ok None | Some offset => parse_rrs_minimal n pkt offset has_data end
    end.

  (** The additional-section loop, src/dnspacket.c:682-696. *)
  Fixpoint parse_additional (n : nat) (dso_estab : bool) (pkt : bytes) (t : txn) (offset : nat) (seen : bool)
    : res (rcode_rv * txn) :=
    match n with
    | O => Ok (DECODE_OK, t)
    | S n =>
        do is_opt <-
          (if Nat.leb (offset + 11) (length pkt) then
             do b0 <- rd pkt offset;
             if b0 =? 0 then do ty <- rd16 pkt (offset + 1); Ok (ty =? 41) else Ok false
           else Ok false);
        if is_opt : bool then
          if seen then Ok (DECODE_FORMERR, t)
          else
            do (rc, t, offset) <- parse_optrr dso_estab pkt t offset;
            match rc with
            | DECODE_OK => parse_additional n dso_estab pkt t offset true
            | _ => Ok (rc, t)
            end
        else
          do r <- parse_rr_minimal pkt offset true;
          match r with
          | None => Ok (DECODE_FORMERR, t)
          | Some offset => parse_additional n dso_estab pkt t offset seen
          end
    end.

  (** [parse_query_rrs], src/dnspacket.c:641-699: decision, transaction, and
      where the response will start. *)
  Definition parse_query_rrs (dso_estab : bool) (pkt : bytes) (t : txn) : res (rcode_rv * txn * nat) :=
    rassert (Nat.leb 12 (length pkt))
    (rassert (t_qdcount t =? 0)
    (do qdcount <- rd16 pkt 4;
     do ancount <- rd16 pkt 6;
     do nscount <- rd16 pkt 8;
     do arcount <- rd16 pkt 10;
     do q <- (if qdcount =? 0 then Ok (Some (t, 12%nat))
              else
                do r <- parse_first_question pkt t 12;
                match r with
                | None => Ok None
                | Some (t, offset) =>
                    Ok (Some ({| t_max := t_max t; t_qtype := t_qtype t; t_qclass := t_qclass t; t_qdcount := 1;
                                 t_lqname := t_lqname t; t_edns := t_edns t |}, offset))
                end);
     match q with
     | None => Ok (DECODE_FORMERR, t, 12%nat)
     | Some (t, out_offset) =>
         do r <- parse_rrs_minimal (N.to_nat qdcount - 1) pkt out_offset false;
         match r with
         | None => Ok (DECODE_FORMERR, t, out_offset)
         | Some offset =>
             do r <- parse_rrs_minimal (N.to_nat ancount) pkt offset true;
             match r with
             | None => Ok (DECODE_FORMERR, t, out_offset)
             | Some offset =>
                 do r <- parse_rrs_minimal (N.to_nat nscount) pkt offset true;
                 match r with
                 | None => Ok (DECODE_FORMERR, t, out_offset)
                 | Some offset =>
                     do (rc, t) <- parse_additional (N.to_nat arcount) dso_estab pkt t offset false;
                     Ok (rc, t, out_offset)
                 end
             end
         end
     end)).

  (** [decode_query], src/dnspacket.c:701-760. *)
  Definition decode_query (dso_estab : bool) (pkt : bytes) (t : txn) : res (rcode_rv * txn * nat) :=
    if Nat.ltb (length pkt) 12 then Ok (DECODE_IGNORE, t, 12%nat)
    else
      do flags1 <- rd pkt 2;
      if negb (N.land flags1 128 =? 0) then Ok (DECODE_IGNORE, t, 12%nat)
      else
        do (rc, t, off) <- parse_query_rrs dso_estab pkt t;
        match rc with
        | DECODE_OK =>
            let opcode := N.shiftr (N.land flags1 120) 3 in
            if opcode =? 0 then
              do hdr_qdcount <- rd16 pkt 4;
              if (1 <? hdr_qdcount) || ((hdr_qdcount =? 0) && negb (e_ck_recvd (t_edns t))) then
                Ok (DECODE_FORMERR, t, off)
              else if (127 <? t_qtype t) && (t_qtype t <? 255) then Ok (DECODE_NOTIMP, t, off)
              else Ok (DECODE_OK, t, off)
            else if (opcode =? 6) && negb (c_disable_dso cfg) then Ok (DECODE_DSO, t, off)
            else Ok (DECODE_NOTIMP, t, off)
        | _ => Ok (rc, t, off)
        end.

  (** The transaction at the start of [process_dns_query],
      src/dnspacket.c:2196-2215: zeroed, with the default size limit. *)
  Definition txn_init : txn :=
    {| t_max := if c_is_udp cfg then 512 else 16376;
       t_qtype := 0; t_qclass := 0; t_qdcount := 0; t_lqname := []; t_edns := edns0 |}.
End Decode.
