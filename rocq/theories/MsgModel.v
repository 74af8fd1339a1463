(** Model of the response to one message: answer with truncation, EDNS output,
    DSO and the header, src/dnspacket.c:1875-2270.

    The packet buffer is kept as the bytes written so far; [emit] checks its
    size.  The response header is put together at the end instead of field by
    field: between decoding and the end nothing reads it, except that the DSO
    code reads the counts and the ID, which are still the client's then.
    Statistics are left out. *)
From Verif Require Import Base DnameModel PktModel RandModel CompModel RespModel.
Local Open Scope N_scope.

(** The labels of a stored name (wire form without the length byte): what
    [dname_to_lstack], src/dnspacket.c:1625-1637, collects. *)
Fixpoint labels_of (fuel : nat) (w : bytes) : name :=
  match fuel, w with
  | S fuel, l :: w => if l =? 0 then [] else firstn (N.to_nat l) w :: labels_of fuel (skipn (N.to_nat l) w)
  | _, _ => []
  end.

(** The response under construction. *)
Record resp := { p_out : bytes; p_an : N; p_ns : N; p_ar : N; p_aa : bool; p_tc : bool; p_rcode : N; p_scope : N }.
Definition resp0 (out : bytes) (rcode : N) : resp :=
  {| p_out := out; p_an := 0; p_ns := 0; p_ar := 0; p_aa := false; p_tc := false; p_rcode := rcode; p_scope := 0 |}.

Section Msg.
  Variable cfg : pcfg.
  (** gcfg->chaos *)
  Variable chaos : bytes.
  Variable cookie_process : bytes -> bool * bytes.
  Variable draws : nat -> nat -> list nat.
  (** The plugins' answers depend on the client's address (fixed during one
      query) and on its client-subnet option. *)
  Variable dyn : edns -> N -> dynres.
  Variable chals : name -> list (N * bytes).
  Variable no_chain : bool.
  Variable root : node.
  (** how deep [db_lookup] may recurse *)
  Variable depth : nat.

  (** [answer_from_db], src/dnspacket.c:1875-1913. *)
  Definition answer_from_db (t : txn) (out : bytes) : res resp :=
    rassert (negb (Nat.eqb (length out) 0))
    (let lq := tl (t_lqname t) in
     let s0 := {| s_out := out; s_cts := []; s_an := 0; s_cn := 0; s_ns := 0; s_ar := 0; s_qc := 12; s_ac := 0;
                  s_aa := false; s_rcode := 0; s_qtype := t_qtype t; s_scope := 0 |} in
     do s <- db_lookup lq draws (dyn (t_edns t)) chals (t_max t) no_chain root depth s0 (labels_of 256 lq) false;
     let max := if negb (e_ck_valid (t_edns t)) && negb (c_nocookie_max cfg =? 0) && (c_nocookie_max cfg <? t_max t)
                then c_nocookie_max cfg else t_max t in
     Ok (if c_is_udp cfg && (max <? N.of_nat (length (s_out s)) + e_out_bytes (t_edns t)) then
           {| p_out := out; p_an := 0; p_ns := 0; p_ar := 0; p_aa := s_aa s; p_tc := true; p_rcode := 0; p_scope := s_scope s |}
         else
           {| p_out := s_out s; p_an := s_an s + s_cn s; p_ns := s_ns s; p_ar := s_ar s; p_aa := s_aa s; p_tc := false;
              p_rcode := s_rcode s; p_scope := s_scope s |})).

  (** [do_edns_output], src/dnspacket.c:1915-2049: the bytes behind the OPT
      header so far, and their count [rdlen], are kept in step by [add]. *)
  Definition do_edns_output (dso_estab : bool) (e : edns) (out : bytes) (scope : N) (status : rcode_rv) : res bytes :=
    let extflags := N.lor (match status with DECODE_BADVERS => 16777216 | _ => 0 end) (if e_do e then 32768 else 0) in
    do out <- emit out ([0] ++ be16 41 ++ be16 1024 ++ be32 extflags);
    let rdlen_ptr := length out in
    do out <- emit out [0; 0];
    let rdlen := 0 in
    (* client subnet *)
    do (out, rdlen) <-
      (if e_respond_ecs e then
         let src_mask := e_ecs_mask e in
         let scope_mask := if src_mask =? 0 then 0 else scope in
         let addr_bytes := N.shiftr src_mask 3 + (if N.land src_mask 7 =? 0 then 0 else 1) in
         do out <- emit out (be16 EDNS_ECS ++ be16 (4 + addr_bytes) ++ be16 (e_ecs_family e) ++ [src_mask mod 256; scope_mask mod 256]);
         do out <- (if src_mask =? 0 then Ok out
                    else rassert (negb (addr_bytes =? 0))
                         (if e_ecs_family e =? 1 then do a <- rdn (e_v4 e) 0 (N.to_nat addr_bytes); emit out a
                          else rassert (e_ecs_family e =? 2) (do a <- rdn (e_v6 e) 0 (N.to_nat addr_bytes); emit out a)));
         Ok (out, rdlen + (8 + addr_bytes))
       else Ok (out, rdlen));
    (* cookie *)
    do (out, rdlen) <-
      (if e_ck_respond e then
         rassert (e_ck_recvd e)
         (do out <- emit out (be16 EDNS_COOKIE ++ be16 16 ++ e_ck_output e);
          Ok (out, rdlen + 20))
       else Ok (out, rdlen));
    (* TCP keepalive *)
    do (out, rdlen) <-
      (if negb (c_is_udp cfg) && negb dso_estab then
         do out <- emit out (be16 EDNS_KEEPALIVE ++ be16 2 ++ be16 (c_keepalive cfg));
         Ok (out, rdlen + 6)
       else Ok (out, rdlen));
    (* NSID *)
    do (out, rdlen) <-
      (if e_respond_nsid e then
         let n := N.of_nat (length (c_nsid cfg)) in
         rassert (negb (n =? 0))
         (do out <- emit out (be16 EDNS_NSID ++ be16 n ++ c_nsid cfg);
          Ok (out, rdlen + (4 + n)))
       else Ok (out, rdlen));
    rassert (e_out_bytes e =? 11 + rdlen)
    (do (out, rdlen) <-
      (if c_tcp_pad cfg then
         rassert (negb (c_is_udp cfg))
         (let n := N.of_nat (length out) in
          rassert (n <=? 16376)
          (let pad_dlen := ((n + 4 + 468 - 1) / 468) * 468 - 4 - n in
           rassert (n + 4 + pad_dlen <=? 16382)
           (do out <- emit out (be16 EDNS_PADDING ++ be16 pad_dlen ++ repeat 0 (N.to_nat pad_dlen));
            rassert (N.of_nat (length out) mod 468 =? 0) (Ok (out, rdlen + (4 + pad_dlen))))))
       else Ok (out, rdlen));
     wr out rdlen_ptr (be16 rdlen)).

  (** [handle_dso], src/dnspacket.c:2051-2157.  Result: the new DSO state, and
      the response ([None]: close the connection).  [flags1] already has the
      response bit.  Only [estab] of [dso_state_t] is kept. *)
  Fixpoint dso_tlvs (fuel : nat) (pkt : bytes) (off : nat) : res nat :=
    match fuel with
    | O => UB
    | S fuel =>
        if Nat.leb (off + 4) (length pkt) then
          do adlen <- rd16 pkt (off + 2);
          dso_tlvs fuel pkt (off + (4 + N.to_nat adlen))
        else Ok off
    end.
  Definition dso_hdr (pkt : bytes) (flags1 flags2 : N) : bytes :=
    firstn 2 pkt ++ [N.land flags1 248; flags2] ++ repeat 0 8.
  Definition handle_dso (dso_estab : bool) (flags1 : N) (pkt : bytes) : res (bool * option bytes) :=
    do qd <- rd16 pkt 4; do an <- rd16 pkt 6; do ns <- rd16 pkt 8; do ar <- rd16 pkt 10;
    if c_is_udp cfg || negb (N.lor (N.lor (N.lor qd an) ns) ar =? 0) then
      Ok (dso_estab, Some (dso_hdr pkt flags1 1))
    else
      do id <- rd16 pkt 0;
      if (id =? 0) || Nat.ltb (length pkt) 16 then Ok (dso_estab, None)
      else
        do dtype <- rd16 pkt 12;
        if (dtype =? 2) || (dtype =? 3) then Ok (dso_estab, None)
        else
          do dlen <- rd16 pkt 14;
          do atlv <- dso_tlvs (S (length pkt)) pkt (16 + N.to_nat dlen);
          if negb (Nat.eqb atlv (length pkt)) then Ok (dso_estab, None)
          else if dtype =? 1 then
            if negb (dlen =? 8) then Ok (dso_estab, None)
            else
              (* the type and length bytes in front are the client's *)
              do tl <- rdn pkt 12 4;
              Ok (true, Some (dso_hdr pkt flags1 0 ++ tl ++ [255; 255; 255; 255] ++ be32 (c_inactivity cfg)))
          else Ok (dso_estab, Some (dso_hdr pkt flags1 11)).

  (** [handle_dso_with_padding], src/dnspacket.c:2159-2188. *)
  Definition handle_dso_with_padding (dso_estab : bool) (flags1 : N) (pkt : bytes) : res (bool * option bytes) :=
    do (st, r) <- handle_dso dso_estab flags1 pkt;
    match r with
    | None => Ok (st, None)
    | Some out =>
        let n := length out in
        rassert (Nat.leb n 464)
        (if c_tcp_pad cfg then
           rassert (negb (c_is_udp cfg)) (rassert (Nat.leb 12 n)
           (let pad_dlen := (468 - n - 4)%nat in
            let out := out ++ be16 3 ++ be16 (N.of_nat pad_dlen) ++ repeat 0 pad_dlen in
            rassert (Nat.eqb (length out) 468) (Ok (st, Some out))))
         else Ok (st, Some out))
    end.

  (** [process_dns_query], src/dnspacket.c:2190-2270: the new DSO state and the
      response ([None]: none is sent). *)
  Definition process_dns_query (dso_estab : bool) (pkt : bytes) : res (bool * option bytes) :=
    rassert (Nat.leb (length pkt) 1024)
    (do (status, t, off) <- decode_query cfg cookie_process dso_estab pkt (txn_init cfg);
     match status with
     | DECODE_IGNORE => Ok (dso_estab, None)
     | _ =>
         do f1 <- rd pkt 2;
         let flags1 := N.lor (N.land f1 121) 128 in
         match status with
         | DECODE_DSO => handle_dso_with_padding dso_estab flags1 pkt
         | _ =>
             let out := firstn off pkt in
             do p <-
               match status with
               | DECODE_OK =>
                   do qdcount <- rd16 pkt 4;
                   if qdcount =? 1 then
                     if (t_qclass t =? 1) || (t_qclass t =? 255) then answer_from_db t out
                     else if t_qclass t =? 3 then
                       do out <- emit out chaos;
                       Ok {| p_out := out; p_an := 1; p_ns := 0; p_ar := 0; p_aa := false; p_tc := false; p_rcode := 0; p_scope := 0 |}
                     else Ok (resp0 out 5)
                   else rassert (e_ck_recvd (t_edns t)) (Ok (resp0 out 0))
               | DECODE_FORMERR => Ok (resp0 out 1)
               | DECODE_NOTIMP => Ok (resp0 out 4)
               | DECODE_BADVERS => Ok (resp0 out 0)
               | _ => UB
               end;
             do (out, arcount) <-
               (if e_req (t_edns t) then
                  do out <- do_edns_output dso_estab (t_edns t) (p_out p) (p_scope p) status;
                  Ok (out, p_ar p + 1)
                else Ok (p_out p, p_ar p));
             let flags1 := N.lor (N.lor flags1 (if p_aa p then 4 else 0)) (if p_tc p then 2 else 0) in
             let hdr := firstn 2 pkt ++ [flags1; p_rcode p] ++
                        be16 (t_qdcount t) ++ be16 (p_an p) ++ be16 (p_ns p) ++ be16 arcount in
             rassert (N.of_nat (length out) <=? 16382)
             (Ok (dso_estab, Some (hdr ++ skipn 12 out)))
         end
     end).
End Msg.
