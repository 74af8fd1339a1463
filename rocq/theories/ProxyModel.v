(** The PROXY protocol header at the start of a connection: src/proxy.c.
    The buffer holds exactly the bytes received so far: any access past them
    is [UB]. *)
From Verif Require Import Base.

(** gdnsd_anysin_t: address and port as bytes in network order. *)
Inductive peer := Inet (a p : bytes) | Inet6 (a p : bytes) | Zero.

Definition byte_eqb (a b : bytes) : bool := if list_eq_dec N.eq_dec a b then true else false.
Definition PROXY_ : bytes := [80; 82; 79; 88; 89; 32]%N.        (* "PROXY " *)
Definition TCP4_ : bytes := [84; 67; 80; 52; 32]%N.             (* "TCP4 " *)
Definition TCP6_ : bytes := [84; 67; 80; 54; 32]%N.             (* "TCP6 " *)
Definition v2sig : bytes := [13; 10; 13; 10; 0; 13; 10; 81; 85; 73; 84; 10]%N.  (* proxy.c:39 *)
Definition HDR_SIZE : nat := 108.                               (* sizeof(proxy_hdr_t), proxy.h *)

(** memcmp of a part of the buffer with a constant *)
Definition cmp_at (b : bytes) (i : nat) (c : bytes) : res bool := do x <- rdn b i (length c); Ok (byte_eqb x c).
(** memchr(&b[i], c, n) *)
Fixpoint memchr (b : bytes) (i : nat) (c : N) (n : nat) : res (option nat) :=
  match n with
  | 0 => Ok None
  | S n => do x <- rd b i; if (x =? c)%N then Ok (Some i) else memchr b (S i) c n
  end.
(** strchr(&b[i], c) for a c that is not NUL; [fuel] is the size of the buffer *)
Fixpoint strchr (fuel : nat) (b : bytes) (i : nat) (c : N) : res (option nat) :=
  match fuel with
  | 0 => UB
  | S fuel => do x <- rd b i; if (x =? c)%N then Ok (Some i) else if (x =? 0)%N then Ok None else strchr fuel b (S i) c
  end.
(** the C string at &b[i] *)
Fixpoint str_at (fuel : nat) (b : bytes) (i : nat) : res bytes :=
  match fuel with
  | 0 => UB
  | S fuel => do x <- rd b i; if (x =? 0)%N then Ok [] else do r <- str_at fuel b (S i); Ok (x :: r)
  end.

Section Proxy.
  (** [gdnsd_anysin_getaddrinfo] with numeric host and service: [None] is an error. *)
  Variable getaddrinfo : bytes -> bytes -> option peer.

  (** [parse_proxy_v1], proxy.c:41-95: the bytes to skip (0: failure), the peer, the
      buffer with the NULs written into it. *)
  Definition parse_v1 (b : bytes) (sa : peer) : res (nat * peer * bytes) :=
    let dlen := length b in
    rassert (8 <=? dlen) (
    do m <- cmp_at b 0 PROXY_;
    rassert m (
    do e <- memchr b 0 13 (dlen - 1);
    match e with
    | None => Ok (0, sa, b)
    | Some e =>
        do nl <- rd b (e + 1);
        if negb (nl =? 10)%N || (e <? 16) then Ok (0, sa, b)
        else
          do b <- wr b e [0%N];
          do t4 <- cmp_at b 6 TCP4_; do t6 <- cmp_at b 6 TCP6_;
          if negb t4 && negb t6 then Ok (0, sa, b)
          else
            do dst <- strchr dlen b 11 32;
            match dst with
            | None => Ok (0, sa, b)
            | Some dst =>
              if e <=? dst then Ok (0, sa, b)
              else
                do b <- wr b dst [0%N];
                let dst := dst + 1 in
                do sport <- strchr dlen b dst 32;
                match sport with
                | None => Ok (0, sa, b)
                | Some sport =>
                  if e <=? sport then Ok (0, sa, b)
                  else
                    do b <- wr b sport [0%N];
                    let sport := sport + 1 in
                    do dport <- strchr dlen b sport 32;
                    match dport with
                    | None => Ok (0, sa, b)
                    | Some dport =>
                      if e <=? dport then Ok (0, sa, b)
                      else
                        do b <- wr b dport [0%N];
                        do host <- str_at dlen b 11;
                        do serv <- str_at dlen b sport;
                        match getaddrinfo host serv with
                        | None => Ok (0, sa, b)
                        | Some sa => rassert (e + 2 <=? HDR_SIZE) (Ok (e + 2, sa, b))
                        end
                    end
                end
            end
    end)).

  (** [proxy_parse], proxy.c:97-145 *)
  Definition proxy_parse (b : bytes) (sa : peer) : res (nat * peer * bytes) :=
    let dlen := length b in
    do is2 <- (if 16 <=? dlen then
                 do s <- cmp_at b 0 v2sig;
                 if s then do vc <- rd b 12; Ok (N.land vc 240 =? 32)%N else Ok false
               else Ok false);
    if is2 then
      do l1 <- rd b 14; do l2 <- rd b 15;
      let skip := 16 + N.to_nat (get16 l1 l2) in
      if dlen <? skip then Ok (0, sa, b)
      else
        do vc <- rd b 12;
        let cmd := N.land vc 15 in
        if (cmd =? 1)%N then
          do fam <- rd b 13;
          if (fam =? 17)%N && (28 <=? skip) then
            do a <- rdn b 16 4; do p <- rdn b 24 2; Ok (skip, Inet a p, b)
          else if (fam =? 33)%N && (52 <=? skip) then
            do a <- rdn b 16 16; do p <- rdn b 48 2; Ok (skip, Inet6 a p, b)
          else Ok (0, Zero, b)
        else if negb (cmd =? 0)%N then Ok (0, sa, b)
        else Ok (skip, sa, b)
    else if 8 <=? dlen then
      do m <- cmp_at b 0 PROXY_;
      if m then parse_v1 b sa else Ok (0, sa, b)
    else Ok (0, sa, b).
End Proxy.
