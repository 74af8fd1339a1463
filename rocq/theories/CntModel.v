(** The counters of the DNS layer: which of them one request increments.
    This follows the functions of PktModel.v and MsgModel.v once more, with the calls of [stats_own_inc] kept: each result comes
    with the list of counters incremented, oldest first.  CntProps.v (C66_same) proves that without that list these are the
    functions of PktModel.v and MsgModel.v.
    Simplification: the two increments inside [db_lookup] stand next to the only two assignments of a response code there,
    src/dnspacket.c:1790-1791 and 1843-1844, which are followed by its return, so they are read off the code it leaves. *)
From Verif Require Import Base DnameModel PktModel RandModel CompModel RespModel MsgModel.
Local Open Scope N_scope.

(** [dnspacket_stats_t], src/dnspacket.h:33-94, as far as the DNS layer increments it *)
Inductive counter := Noerror | Refused | Nxdomain | Notimp | Badvers | Formerr | Dropped | V6 | Edns | EdnsClientsub | EdnsDo
| CookieFormerr | CookieOk | CookieInit | CookieBad | UdpTc | UdpEdnsBig | UdpEdnsTc | DsoEstab | DsoProtoerr | DsoTypeni.
Notation counts := (list counter) (only parsing).

Section Count.
  Variable cfg : pcfg.
  Variable cookie_process : bytes -> bool * bytes.

  (** [handle_edns_cookie], src/dnspacket.c:366-385 *)
  Definition cookie_c (pkt : bytes) (e : edns) (opt_len off : nat) : res (rcode_rv * edns * counts) :=
    if negb (Nat.eqb opt_len 8) && (Nat.ltb opt_len 16 || Nat.ltb 40 opt_len)
    then Ok (DECODE_FORMERR, set_ck e (e_ck_respond e) (e_ck_valid e) (e_ck_output e) (e_out_bytes e), [CookieFormerr])
    else
      do data <- rdn pkt off opt_len;
      let (valid, out) := cookie_process data in
      do out <- wr (e_ck_output e) 0 out;
      Ok (DECODE_OK, set_ck e true valid out (e_out_bytes e + 20),
          [if valid : bool then CookieOk else if Nat.eqb opt_len 8 then CookieInit else CookieBad]).

  (** [handle_edns_option], src/dnspacket.c:387-433 *)
  Definition option_c (dso_estab : bool) (pkt : bytes) (e : edns) (opt_code : N) (opt_len off : nat) : res (rcode_rv * edns * counts) :=
    if opt_code =? EDNS_ECS then
      if c_ecs cfg then do (rv, e) <- handle_edns_client_subnet pkt e opt_len off; Ok (rv, e, [EdnsClientsub]) else Ok (DECODE_OK, e, [])
    else if opt_code =? EDNS_NSID then
      if Nat.eqb opt_len 0 then
        Ok (DECODE_OK,
            match c_nsid cfg with
            | [] => e
            | _ => set_nsid e (e_out_bytes e + (4 + N.of_nat (length (c_nsid cfg))))
            end, [])
      else Ok (DECODE_FORMERR, e, [])
    else if opt_code =? EDNS_KEEPALIVE then
      if negb (c_is_udp cfg) && dso_estab then Ok (DECODE_IGNORE, e, [DsoProtoerr]) else Ok (DECODE_OK, e, [])
    else if opt_code =? EDNS_PADDING then Ok (DECODE_OK, e, [])
    else if opt_code =? EDNS_COOKIE then
      if negb (c_disable_cookies cfg) && negb (e_ck_recvd e) then cookie_c pkt e opt_len off else Ok (DECODE_OK, e, [])
    else Ok (DECODE_OK, e, []).

  (** [handle_edns_options], src/dnspacket.c:435-463 *)
  Fixpoint options_c (fuel : nat) (dso_estab : bool) (pkt : bytes) (e : edns) (rdlen off : nat) : res (rcode_rv * edns * counts) :=
    match fuel with
    | O => UB
    | S fuel =>
        if Nat.ltb rdlen 4 then Ok (DECODE_FORMERR, e, [])
        else
          do opt_code <- rd16 pkt off;
          do opt_dlen <- rd16 pkt (off + 2);
          let opt_dlen := N.to_nat opt_dlen in
          let rdlen := (rdlen - 4)%nat in
          let off := (off + 4)%nat in
          if Nat.ltb rdlen opt_dlen then Ok (DECODE_FORMERR, e, [])
          else
            do (rv, e, c) <- option_c dso_estab pkt e opt_code opt_dlen off;
            match rv with
            | DECODE_OK =>
                let rdlen := (rdlen - opt_dlen)%nat in
                let off := (off + opt_dlen)%nat in
                if Nat.eqb rdlen 0 then Ok (DECODE_OK, e, c)
                else do (rv, e, c') <- options_c fuel dso_estab pkt e rdlen off; Ok (rv, e, c ++ c')
            | _ => Ok (rv, e, c)
            end
    end.

  (** [parse_optrr], src/dnspacket.c:465-529 *)
  Definition optrr_c (dso_estab : bool) (pkt : bytes) (t : txn) (offset0 : nat) : res (rcode_rv * txn * nat * counts) :=
    let packet_len := length pkt in
    rassert (Nat.leb (offset0 + 11) packet_len)
    (do b0 <- rd pkt offset0;
     rassert (b0 =? 0)
     (do ty <- rd16 pkt (offset0 + 1);
      rassert (ty =? 41)
      (let offset := (offset0 + 3)%nat in
       do edns_maxsize <- rd16 pkt offset;
       let offset := (offset + 2)%nat in
       do edns_extflags <- rd32 pkt offset;
       let offset := (offset + 4)%nat in
       do edns_rdlen <- rd16 pkt offset;
       let edns_rdlen := N.to_nat edns_rdlen in
       let offset := (offset + 2)%nat in
       let has_do := negb (N.land edns_extflags 32768 =? 0) in
       let t := set_edns t (set_req (t_edns t) 11 (e_do (t_edns t) || has_do)) in
       let c := Edns :: (if has_do then [EdnsDo] else []) in
       let edns_version := N.shiftr (N.land edns_extflags 16711680) 16 in
       if edns_version =? 0 then
         let t :=
           if c_is_udp cfg then
             let m := if edns_maxsize <? 512 then 512 else edns_maxsize in
             set_max t (if m <? c_udp_max cfg then m else c_udp_max cfg)
           else if negb dso_estab then set_edns t (PktModel.set_out (t_edns t) (e_out_bytes (t_edns t) + 6))
           else t in
         if Nat.eqb edns_rdlen 0 then Ok (DECODE_OK, t, offset, c)
         else if Nat.ltb packet_len (offset + edns_rdlen) then Ok (DECODE_FORMERR, t, offset0, c)
         else
           do (rc, e, c') <- options_c (S edns_rdlen) dso_estab pkt (t_edns t) edns_rdlen offset;
           let t := set_edns t e in
           Ok (rc, t, match rc with DECODE_OK => (offset + edns_rdlen)%nat | _ => offset0 end, c ++ c')
       else Ok (DECODE_BADVERS, t, offset0, c)))).

  (** The additional-section loop, src/dnspacket.c:682-696 *)
  Fixpoint additional_c (n : nat) (dso_estab : bool) (pkt : bytes) (t : txn) (offset : nat) (seen : bool) : res (rcode_rv * txn * counts) :=
    match n with
    | O => Ok (DECODE_OK, t, [])
    | S n =>
        do is_opt <-
          (if Nat.leb (offset + 11) (length pkt) then
             do b0 <- rd pkt offset;
             if b0 =? 0 then do ty <- rd16 pkt (offset + 1); Ok (ty =? 41) else Ok false
           else Ok false);
        if is_opt : bool then
          if seen then Ok (DECODE_FORMERR, t, [])
          else
            do (rc, t, offset, c) <- optrr_c dso_estab pkt t offset;
            match rc with
            | DECODE_OK => do (rc, t, c') <- additional_c n dso_estab pkt t offset true; Ok (rc, t, c ++ c')
            | _ => Ok (rc, t, c)
            end
        else
          do r <- parse_rr_minimal pkt offset true;
          match r with
          | None => Ok (DECODE_FORMERR, t, [])
          | Some offset => additional_c n dso_estab pkt t offset seen
          end
    end.

  (** [parse_query_rrs], src/dnspacket.c:641-699 *)
  Definition query_rrs_c (dso_estab : bool) (pkt : bytes) (t : txn) : res (rcode_rv * txn * nat * counts) :=
    rassert (Nat.leb 12 (length pkt))
    (rassert (t_qdcount t =? 0)
    (do qdcount <- rd16 pkt 4;
     do ancount <- rd16 pkt 6;
     do nscount <- rd16 pkt 8;
     do arcount <- rd16 pkt 10;
     do q <- (if qdcount =? 0 then Ok (Some (t, 12%nat))
              else
                do r <- parse_first_question pkt t 12;
                match r with
                | None => Ok None
                | Some (t, offset) =>
                    Ok (Some ({| t_max := t_max t; t_qtype := t_qtype t; t_qclass := t_qclass t; t_qdcount := 1;
                                 t_lqname := t_lqname t; t_edns := t_edns t |}, offset))
                end);
     match q with
     | None => Ok (DECODE_FORMERR, t, 12%nat, [])
     | Some (t, out_offset) =>
         do r <- parse_rrs_minimal (N.to_nat qdcount - 1) pkt out_offset false;
         match r with
         | None => Ok (DECODE_FORMERR, t, out_offset, [])
         | Some offset =>
             do r <- parse_rrs_minimal (N.to_nat ancount) pkt offset true;
             match r with
             | None => Ok (DECODE_FORMERR, t, out_offset, [])
             | Some offset =>
                 do r <- parse_rrs_minimal (N.to_nat nscount) pkt offset true;
                 match r with
                 | None => Ok (DECODE_FORMERR, t, out_offset, [])
                 | Some offset =>
                     do (rc, t, c) <- additional_c (N.to_nat arcount) dso_estab pkt t offset false;
                     Ok (rc, t, out_offset, c)
                 end
             end
         end
     end)).

  (** [decode_query], src/dnspacket.c:701-760 *)
  Definition decode_c (dso_estab : bool) (pkt : bytes) (t : txn) : res (rcode_rv * txn * nat * counts) :=
    if Nat.ltb (length pkt) 12 then Ok (DECODE_IGNORE, t, 12%nat, [])
    else
      do flags1 <- rd pkt 2;
      if negb (N.land flags1 128 =? 0) then Ok (DECODE_IGNORE, t, 12%nat, [])
      else
        do (rc, t, off, c) <- query_rrs_c dso_estab pkt t;
        match rc with
        | DECODE_OK =>
            let opcode := N.shiftr (N.land flags1 120) 3 in
            if opcode =? 0 then
              do hdr_qdcount <- rd16 pkt 4;
              if (1 <? hdr_qdcount) || ((hdr_qdcount =? 0) && negb (e_ck_recvd (t_edns t))) then
                Ok (DECODE_FORMERR, t, off, c)
              else if (127 <? t_qtype t) && (t_qtype t <? 255) then Ok (DECODE_NOTIMP, t, off, c)
              else Ok (DECODE_OK, t, off, c)
            else if (opcode =? 6) && negb (c_disable_dso cfg) then Ok (DECODE_DSO, t, off, c)
            else Ok (DECODE_NOTIMP, t, off, c)
        | _ => Ok (rc, t, off, c)
        end.

  Variable chaos : bytes.
  Variable draws : nat -> nat -> list nat.
  Variable dyn : edns -> N -> dynres.
  Variable chals : name -> list (N * bytes).
  Variable no_chain : bool.
  Variable root : node.
  Variable depth : nat.

  (** [answer_from_db], src/dnspacket.c:1875-1913, with the counters of [do_final_auth_response] and [db_lookup] *)
  Definition db_counts (rcode : N) : counts := if rcode =? 5 then [Refused] else if rcode =? 3 then [Nxdomain] else [].
  Definition answer_c (t : txn) (out : bytes) : res (resp * counts) :=
    rassert (negb (Nat.eqb (length out) 0))
    (let lq := tl (t_lqname t) in
     let s0 := {| s_out := out; s_cts := []; s_an := 0; s_cn := 0; s_ns := 0; s_ar := 0; s_qc := 12; s_ac := 0;
                  s_aa := false; s_rcode := 0; s_qtype := t_qtype t; s_scope := 0 |} in
     do s <- db_lookup lq draws (dyn (t_edns t)) chals (t_max t) no_chain root depth s0 (labels_of 256 lq) false;
     let max := if negb (e_ck_valid (t_edns t)) && negb (c_nocookie_max cfg =? 0) && (c_nocookie_max cfg <? t_max t)
                then c_nocookie_max cfg else t_max t in
     Ok (if c_is_udp cfg && (max <? N.of_nat (length (s_out s)) + e_out_bytes (t_edns t)) then
           ({| p_out := out; p_an := 0; p_ns := 0; p_ar := 0; p_aa := s_aa s; p_tc := true; p_rcode := 0; p_scope := s_scope s |},
            db_counts (s_rcode s) ++ [if e_req (t_edns t) then UdpEdnsTc else UdpTc])
         else
           ({| p_out := s_out s; p_an := s_an s + s_cn s; p_ns := s_ns s; p_ar := s_ar s; p_aa := s_aa s; p_tc := false;
               p_rcode := s_rcode s; p_scope := s_scope s |}, db_counts (s_rcode s)))).

  (** [handle_dso], src/dnspacket.c:2051-2157 *)
  Definition dso_c (dso_estab : bool) (flags1 : N) (pkt : bytes) : res (bool * option bytes * counts) :=
    do qd <- rd16 pkt 4; do an <- rd16 pkt 6; do ns <- rd16 pkt 8; do ar <- rd16 pkt 10;
    if c_is_udp cfg || negb (N.lor (N.lor (N.lor qd an) ns) ar =? 0) then
      Ok (dso_estab, Some (dso_hdr pkt flags1 1), [Formerr])
    else
      do id <- rd16 pkt 0;
      if (id =? 0) || Nat.ltb (length pkt) 16 then Ok (dso_estab, None, [DsoProtoerr])
      else
        do dtype <- rd16 pkt 12;
        if (dtype =? 2) || (dtype =? 3) then Ok (dso_estab, None, [DsoProtoerr])
        else
          do dlen <- rd16 pkt 14;
          do atlv <- dso_tlvs (S (length pkt)) pkt (16 + N.to_nat dlen);
          if negb (Nat.eqb atlv (length pkt)) then Ok (dso_estab, None, [DsoProtoerr])
          else if dtype =? 1 then
            if negb (dlen =? 8) then Ok (dso_estab, None, [DsoProtoerr])
            else
              do tl <- rdn pkt 12 4;
              Ok (true, Some (dso_hdr pkt flags1 0 ++ tl ++ [255; 255; 255; 255] ++ be32 (c_inactivity cfg)), if dso_estab then [] else [DsoEstab])
          else Ok (dso_estab, Some (dso_hdr pkt flags1 11), [DsoTypeni]).

  (** [handle_dso_with_padding], src/dnspacket.c:2159-2188 *)
  Definition dso_padding_c (dso_estab : bool) (flags1 : N) (pkt : bytes) : res (bool * option bytes * counts) :=
    do (st, r, c) <- dso_c dso_estab flags1 pkt;
    match r with
    | None => Ok (st, None, c)
    | Some out =>
        let n := length out in
        rassert (Nat.leb n 464)
        (if c_tcp_pad cfg then
           rassert (negb (c_is_udp cfg)) (rassert (Nat.leb 12 n)
           (let pad_dlen := (468 - n - 4)%nat in
            let out := out ++ be16 3 ++ be16 (N.of_nat pad_dlen) ++ repeat 0 pad_dlen in
            rassert (Nat.eqb (length out) 468) (Ok (st, Some out, c))))
         else Ok (st, Some out, c))
    end.

  (** [process_dns_query], src/dnspacket.c:2190-2270.  [v6]: the client's address is an IPv6 address. *)
  Definition process_c (v6 dso_estab : bool) (pkt : bytes) : res (bool * option bytes * counts) :=
    rassert (Nat.leb (length pkt) 1024)
    (do (status, t, off, c) <- decode_c dso_estab pkt (txn_init cfg);
     let c := (if v6 then [V6] else []) ++ c in
     match status with
     | DECODE_IGNORE => Ok (dso_estab, None, c ++ [Dropped])
     | _ =>
         do f1 <- rd pkt 2;
         let flags1 := N.lor (N.land f1 121) 128 in
         match status with
         | DECODE_DSO => do (st, r, c') <- dso_padding_c dso_estab flags1 pkt; Ok (st, r, c ++ c')
         | _ =>
             let out := firstn off pkt in
             do (p, c1) <-
               match status with
               | DECODE_OK =>
                   do qdcount <- rd16 pkt 4;
                   do (p, c1) <-
                     (if qdcount =? 1 then
                        if (t_qclass t =? 1) || (t_qclass t =? 255) then answer_c t out
                        else if t_qclass t =? 3 then
                          do out <- emit out chaos;
                          Ok ({| p_out := out; p_an := 1; p_ns := 0; p_ar := 0; p_aa := false; p_tc := false; p_rcode := 0; p_scope := 0 |}, [])
                        else Ok (resp0 out 5, [Refused])
                      else rassert (e_ck_recvd (t_edns t)) (Ok (resp0 out 0, [])));
                   Ok (p, c1 ++ if p_rcode p =? 0 then [Noerror] else [])
               | DECODE_FORMERR => Ok (resp0 out 1, [Formerr])
               | DECODE_NOTIMP => Ok (resp0 out 4, [Notimp])
               | DECODE_BADVERS => Ok (resp0 out 0, [Badvers])
               | _ => UB
               end;
             do (out, arcount, c2) <-
               (if e_req (t_edns t) then
                  do out <- do_edns_output cfg dso_estab (t_edns t) (p_out p) (p_scope p) status;
                  Ok (out, p_ar p + 1, if c_is_udp cfg && (512 <? N.of_nat (length out)) then [UdpEdnsBig] else [])
                else Ok (p_out p, p_ar p, []));
             let flags1 := N.lor (N.lor flags1 (if p_aa p then 4 else 0)) (if p_tc p then 2 else 0) in
             let hdr := firstn 2 pkt ++ [flags1; p_rcode p] ++
                        be16 (t_qdcount t) ++ be16 (p_an p) ++ be16 (p_ns p) ++ be16 arcount in
             rassert (N.of_nat (length out) <=? 16382)
             (Ok (dso_estab, Some (hdr ++ skipn 12 out), c ++ c1 ++ c2))
         end
     end).

  (** The requests that one thread processes in turn, each with the state of its connection: what it adds to the counters *)
  Fixpoint history_c (l : list (bool * bool * bytes)) : res counts :=
    match l with
    | [] => Ok []
    | (v6, dso_estab, pkt) :: l =>
        do (_, _, c) <- process_c v6 dso_estab pkt;
        do c' <- history_c l;
        Ok (c ++ c')
    end.
End Count.
