(** Model of libgdnsd/dname.c and include/gdnsd/dname.h. *)
From Verif Require Import Base.
Local Open Scope N_scope.

Inductive dstatus := DNAME_VALID | DNAME_PARTIAL | DNAME_INVALID.

Definition isdig (b : N) : bool := (b <=? 57) && (48 <=? b).

(** [gdnsd_dns_unescape], libgdnsd/dname.c:32-69.  [inb] is the whole input
    text, [base] the offset of the argument [in] in it; every access is
    checked.  [cap] is the size of the output buffer.  [Ok None] is the
    failure return 0. *)
Fixpoint dns_unescape_loop (fuel : nat) (inb : bytes) (base len i : nat) (cap : nat) (out : bytes) : res (option bytes) :=
  match fuel with
  | O => UB
  | S fuel =>
      if Nat.ltb i len then
        do c <- rd inb (base + i);
        if negb (c =? 92) then
          rassert (Nat.ltb (length out) cap) (dns_unescape_loop fuel inb base len (i + 1) cap (out ++ [c]))
        else
          let i := (i + 1)%nat in
          if Nat.leb len i then Ok None
          else
            do c <- rd inb (base + i);
            if isdig c then
              if Nat.leb len (i + 2) then Ok None
              else
                do c1 <- rd inb (base + (i + 1));
                if negb (isdig c1) then Ok None
                else
                  do c2 <- rd inb (base + (i + 2));
                  if negb (isdig c2) then Ok None
                  else
                    let x := (c - 48) * 100 + (c1 - 48) * 10 + (c2 - 48) in
                    if 255 <? x then Ok None
                    else rassert (Nat.ltb (length out) cap)
                           (dns_unescape_loop fuel inb base len (i + 3) cap (out ++ [x]))
            else rassert (Nat.ltb (length out) cap)
                   (dns_unescape_loop fuel inb base len (i + 1) cap (out ++ [c]))
      else Ok (Some out)
  end.
Definition dns_unescape (inb : bytes) (base len cap : nat) : res (option bytes) :=
  rassert (negb (Nat.eqb len 0)) (dns_unescape_loop (S len) inb base len 0 cap []).

(** [gdnsd_downcase_bytes], include/gdnsd/misc.h:71-76.  (The C char is signed:
    bytes above 127 compare below 0x40 there, and above 0x5B here.) *)
Definition downcase (b : N) : N := if (b <? 91) && (64 <? b) then N.lor b 32 else b.

(** [gdnsd_dns_unescape_label], libgdnsd/dname.c:74-87, with its caller's
    252-byte buffer. *)
Definition dns_unescape_label (inb : bytes) (base len : nat) : res (option bytes) :=
  if Nat.leb len 252 then
    do r <- dns_unescape inb base len 252;
    match r with
    | None => Ok None
    | Some out => if Nat.leb (length out) 63 then Ok (Some (map downcase out)) else Ok None
    end
  else Ok None.

(** The loop of [gdnsd_dname_from_string], libgdnsd/dname.c:123-175.
    [n] counts the iterations left; [i + n = len]. *)
Fixpoint from_string_loop (n i : nat) (instr : bytes) (buf : bytes) (cursor : nat)
    (escape_next cursor_has_dot : bool) (label_start : nat) : res (option (bytes * nat * bool)) :=
  match n with
  | O => Ok (Some (buf, cursor, cursor_has_dot))
  | S n' =>
      let raw_llen := (i - label_start)%nat in
      do c <- rd instr i;
      let '(escape_next, cursor_has_dot) :=
        if escape_next then (false, false)
        else if c =? 92 then (true, false)
        else if c =? 46 then (false, true)
        else (false, false) in
      if negb cursor_has_dot && negb (Nat.eqb n' 0) then
        from_string_loop n' (i + 1) instr buf cursor escape_next cursor_has_dot label_start
      else
        let raw_llen := if cursor_has_dot then raw_llen else (raw_llen + 1)%nat in
        if Nat.eqb raw_llen 0 then Ok None
        else
          do r <- dns_unescape_label instr label_start raw_llen;
          match r with
          | None | Some [] => Ok None
          | Some lab =>
              do total <- rd buf 0;
              if 255 <? N.of_nat (length lab) + 1 + total then Ok None
              else
                do buf <- wr buf 0 [total + N.of_nat (length lab) + 1];
                do buf <- wr buf cursor [N.of_nat (length lab)];
                do buf <- wr buf (cursor + 1) lab;
                from_string_loop n' (i + 1) instr buf (cursor + 1 + length lab) escape_next cursor_has_dot (i + 1)
          end
  end.

(** [gdnsd_dname_status], libgdnsd/dname.c:245-270.  Offsets are relative to the
    byte after the length byte. *)
Fixpoint dname_status_loop (fuel : nat) (buf : bytes) (oal p : nat) : res dstatus :=
  match fuel with
  | O => UB
  | S fuel =>
      do llen <- rd buf (S p);
      let p := S p in
      if (llen =? 0) || (llen =? 255) then
        if Nat.ltb p oal then Ok DNAME_INVALID
        else rassert (Nat.eqb p oal) (Ok (if llen =? 0 then DNAME_VALID else DNAME_PARTIAL))
      else
        let p := (p + N.to_nat llen)%nat in
        if Nat.leb oal p then Ok DNAME_INVALID else dname_status_loop fuel buf oal p
  end.
Definition dname_status (buf : bytes) : res dstatus :=
  do oal <- rd buf 0;
  if oal =? 0 then Ok DNAME_INVALID else dname_status_loop (S (N.to_nat oal)) buf (N.to_nat oal) 0.

(** [gdnsd_dname_status_buflen], include/gdnsd/dname.h:209-214. [buf] is the
    allocation. *)
Definition dname_status_buflen (buf : bytes) (buflen : nat) : res dstatus :=
  if Nat.eqb buflen 0 then Ok DNAME_INVALID
  else do l <- rd buf 0;
       if Nat.ltb buflen (N.to_nat l + 1) then Ok DNAME_INVALID else dname_status buf.

Definition status_eqb (a b : dstatus) : bool :=
  match a, b with
  | DNAME_VALID, DNAME_VALID | DNAME_PARTIAL, DNAME_PARTIAL | DNAME_INVALID, DNAME_INVALID => true
  | _, _ => false
  end.

(** [gdnsd_dname_from_string], libgdnsd/dname.c:89-190.  [buf] is the caller's
    256-byte storage with its old contents. *)
Definition dname_from_string (buf instr : bytes) : res (dstatus * bytes) :=
  let len := length instr in
  if Nat.ltb 1004 len then Ok (DNAME_INVALID, buf)
  else
    do buf <- wr buf 0 [1];
    if Nat.eqb len 0 then
      do buf <- wr buf 1 [255];
      do s <- dname_status buf;
      rassert (status_eqb s DNAME_PARTIAL) (Ok (DNAME_PARTIAL, buf))
    else
      do c0 <- rd instr 0;
      if Nat.eqb len 1 && (c0 =? 46) then
        do buf <- wr buf 1 [0]; Ok (DNAME_VALID, buf)
      else
        do r <- from_string_loop len 0 instr buf 1 false false 0;
        match r with
        | None => Ok (DNAME_INVALID, buf)   (* contents undefined *)
        | Some (buf, cursor, has_dot) =>
            if negb has_dot then
              do buf <- wr buf cursor [255];
              do s <- dname_status buf;
              rassert (status_eqb s DNAME_PARTIAL) (Ok (DNAME_PARTIAL, buf))
            else
              do buf <- wr buf cursor [0];
              do s <- dname_status buf;
              rassert (status_eqb s DNAME_VALID) (Ok (DNAME_VALID, buf))
        end.

(** [gdnsd_dname_to_string], libgdnsd/dname.c:192-224.  [cap] is the size of the
    output buffer; the text is returned without its terminating NUL. *)
Definition show_byte (x : N) : bytes :=
  if (32 <? x) && (x <? 127) then [x]
  else [92; 48 + x / 100; 48 + (x / 10) mod 10; 48 + x mod 10].

Definition emit (cap : nat) (out add : bytes) : res bytes :=
  rassert (Nat.leb (length out + length add) cap) (Ok (out ++ add)).

Fixpoint show_label (n : nat) (cap : nat) (buf : bytes) (p : nat) (out : bytes) : res (nat * bytes) :=
  match n with
  | O => Ok (p, out)
  | S n' =>
      do x <- rd buf p;
      do out <- emit cap out (show_byte x);
      show_label n' cap buf (S p) out
  end.
Fixpoint to_string_loop (fuel : nat) (cap : nat) (buf : bytes) (p : nat) (out : bytes) : res bytes :=
  match fuel with
  | O => UB
  | S fuel =>
      do llen <- rd buf p;
      if llen =? 0 then do out' <- emit cap out [0]; Ok out
      else if llen =? 255 then
        let out := match out with [] => out | _ => removelast out end in
        do out' <- emit cap out [0]; Ok out
      else
        do (p, out) <- show_label (N.to_nat llen) cap buf (S p) out;
        do out <- emit cap out [46];
        to_string_loop fuel cap buf p out
  end.
Definition dname_to_string (cap : nat) (buf : bytes) : res bytes :=
  do s <- dname_status buf;
  rassert (negb (status_eqb s DNAME_INVALID)) (to_string_loop 256 cap buf 1 []).

(** [gdnsd_dname_cat], libgdnsd/dname.c:226-243. *)
Definition dname_cat (dn1 dn2 : bytes) : res (dstatus * bytes) :=
  do s1 <- dname_status dn1; do s2 <- dname_status dn2;
  rassert (negb (status_eqb s1 DNAME_INVALID)) (rassert (negb (status_eqb s2 DNAME_INVALID))
  (do l1 <- rd dn1 0; do l2 <- rd dn2 0;
   let final_len := (N.to_nat l1 + N.to_nat l2 - 1)%nat in
   if Nat.ltb final_len 256 then
     do dn1 <- wr dn1 0 [N.of_nat final_len];
     do src <- rdn dn2 1 (N.to_nat l2);
     do dn1 <- wr dn1 (N.to_nat l1) src;
     do e <- rd dn1 final_len;
     Ok (if e =? 0 then DNAME_VALID else DNAME_PARTIAL, dn1)
   else Ok (DNAME_INVALID, dn1))).

(** memcmp for equality *)
Fixpoint beqb (a b : bytes) : bool :=
  match a, b with
  | [], [] => true
  | x :: a', y :: b' => (x =? y) && beqb a' b'
  | _, _ => false
  end.

(** [gdnsd_dname_isinzone], include/gdnsd/dname.h:310-343. *)
Fixpoint label_walk (fuel : nat) (child : bytes) (idx stop : nat) : res nat :=
  match fuel with
  | O => UB
  | S fuel =>
      if Nat.ltb idx stop then
        do llen <- rd child (S idx);
        label_walk fuel child (idx + 1 + N.to_nat llen) stop
      else Ok idx
  end.
Definition dname_isinzone (parent child : bytes) : res bool :=
  do sp <- dname_status parent; do sc <- dname_status child;
  rassert (status_eqb sp DNAME_VALID) (rassert (status_eqb sc DNAME_VALID)
  (do pl <- rd parent 0; do cl <- rd child 0;
   let plen := N.to_nat pl in let clen := N.to_nat cl in
   if Nat.ltb clen plen then Ok false
   else
     let parent_start := (clen - plen)%nat in
     do a <- rdn child (1 + parent_start) plen;
     do b <- rdn parent 1 plen;
     if negb (beqb a b) then Ok false
     else do idx <- label_walk 256 child 0 parent_start;
          Ok (Nat.eqb idx parent_start))).

(** [gdnsd_dname_drop_zone], include/gdnsd/dname.h:351-361. *)
Definition dname_drop_zone (dn zroot : bytes) : res bytes :=
  do s1 <- dname_status dn; do s2 <- dname_status zroot;
  rassert (status_eqb s1 DNAME_VALID) (rassert (status_eqb s2 DNAME_VALID)
  (do l1 <- rd dn 0; do l2 <- rd zroot 0;
   rassert (l2 <=? l1)
   (let newterm := (N.to_nat l1 - (N.to_nat l2 - 1))%nat in
    do a <- rd dn newterm; do b <- rd zroot 1;
    rassert (a =? b)
    (do dn <- wr dn 0 [N.of_nat newterm];
     wr dn newterm [0])))).

(** [gdnsd_dname_cmp], include/gdnsd/dname.h:282-293, for equality. *)
Definition dname_eq (dn1 dn2 : bytes) : res bool :=
  do s1 <- dname_status dn1; do s2 <- dname_status dn2;
  rassert (negb (status_eqb s1 DNAME_INVALID)) (rassert (negb (status_eqb s2 DNAME_INVALID))
  (do l1 <- rd dn1 0; do l2 <- rd dn2 0;
   if l1 =? l2 then
     do a <- rdn dn1 1 (N.to_nat l1); do b <- rdn dn2 1 (N.to_nat l1); Ok (beqb a b)
   else Ok false)).

(** [gdnsd_dname_iswild], include/gdnsd/dname.h:365-373. *)
Definition dname_iswild (dn : bytes) : res bool :=
  do s <- dname_status dn;
  rassert (negb (status_eqb s DNAME_INVALID))
  (do a <- rd dn 1; if a =? 1 then do b <- rd dn 2; Ok (b =? 42) else Ok false).

(** [gdnsd_dname_terminate], include/gdnsd/dname.h:220-226. *)
Definition dname_terminate (dn : bytes) : res bytes :=
  do l <- rd dn 0; rassert (0 <? l) (wr dn (N.to_nat l) [0]).
