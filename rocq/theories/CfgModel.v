(** The global options: libgdnsd/paths.c (gdnsd_init_paths), src/socks.c (socks_conf_load),
    src/conf.c (conf_load up to the service types), and libgdnsd/net.c (gdnsd_anysin_fromstr).
    main.c:666-697 calls them in this order, on the same data, so what one of them reads is
    known to the others.  Making directories is left out, and so are service types and plugins
    (ProbeConfModel.v has the former). *)
From Coq Require Import String Ascii.
From Verif Require Import Base CompModel VscfModel OptModel ProbeConfModel.
Local Open Scope N_scope.
Local Open Scope list_scope.
Local Notation length := List.length.

(** A step that reads no option *)
Definition lift {A} (r : res (option A)) : reader A :=
  fun ks => match r with Ok (Some a) => Ok (Some (a, ks)) | Ok None => Ok None | UB => UB end.
(** Reading another hash, which has marks of its own *)
Definition apart {A} (m : reader A) : res (option A) :=
  match m [] with Ok (Some (a, _)) => Ok (Some a) | Ok None => Ok None | UB => UB end.
(** One after the other, until one fails *)
Fixpoint each {A B} (f : A -> res (option B)) (l : list A) : res (option (list B)) :=
  match l with
  | [] => Ok (Some [])
  | a :: l' =>
      match f a with
      | UB => UB | Ok None => Ok None
      | Ok (Some b) =>
          match each f l' with UB => UB | Ok None => Ok None | Ok (Some bs) => Ok (Some (b :: bs)) end
      end
  end.

(** ** Addresses *)

(** [gdnsd_anysin_t]: the address family, the bytes of the address (and scope), the port as a number *)
Record sockaddr := Sockaddr { v6 : bool; host : bytes; port : N }.
Definition with_port (p : N) (a : sockaddr) : sockaddr := Sockaddr (v6 a) (host a) p.
(** The field [sin_port] as a little-endian machine sees it *)
Definition sin_port (a : sockaddr) : N := (port a mod 256) * 256 + port a / 256.

(** strchr: what is before the first [c], and what is after it *)
Fixpoint cut (c : N) (s : bytes) : option (bytes * bytes) :=
  match s with
  | [] => None
  | x :: s' => if x =? c then Some ([], s') else match cut c s' with Some (a, b) => Some (x :: a, b) | None => None end
  end.

(** [gdnsd_anysin_fromstr], net.c:184-237.  [gai] is getaddrinfo for numeric hosts and ports. *)
Definition split_spec (t : bytes) : bytes * option bytes :=
  let bare :=
    match cut 58 t with
    | None => (t, None)
    | Some (a, p) =>
        match cut 58 p with
        | Some _ => (t, None)
        | None =>
            match a with
            | [] => (txt "!!invalid!!", Some t)
            | _ => (a, match p with [] => None | _ => Some p end)
            end
        end
    end in
  match t with
  | c :: t' =>
      if c =? 91 then
        match cut 93 t' with
        | Some (a, r) =>
            (a, match r with x :: y :: p => if x =? 58 then Some (y :: p) else None | _ => None end)
        | None => (t, None)
        end
      else bare
  | [] => bare
  end.

Section Gai.
  Variable gai : bytes -> option bytes -> option sockaddr.

  Definition anysin_fromstr (t : bytes) (def_port : N) : option sockaddr :=
    let '(a, p) := split_spec t in
    match gai a p with
    | None => None
    | Some sa =>
        match p with
        | None => if def_port =? 0 then Some sa else Some (with_port (def_port mod 65536) sa)
        | Some _ => Some sa
        end
    end.

  (** [make_addr], socks.c:76-82 *)
  Definition make_addr (t : bytes) (def_port : N) : res (option sockaddr) := Ok (anysin_fromstr t def_port).

  (** ** Sockets *)

  (** [dns_addr_t], socks.h:29-42, without the address; defaults at socks.c:44-56 *)
  Record dns_opts := DnsOpts {
    dns_port : N; udp_rcvbuf : N; udp_sndbuf : N; udp_threads : N; tcp_timeout : N; tcp_fastopen : N;
    tcp_clients : N; tcp_backlog : N; tcp_threads : N; tcp_proxy : bool; tcp_pad : bool }.
  Definition dns_defaults : dns_opts := DnsOpts 53 0 0 2 37 256 256 0 2 false false.

  Record dns_addr := DnsAddr { addr : sockaddr; opts : dns_opts }.
  (** [ctl_addr_t], socks.h:51-55 *)
  Record ctl_addr := CtlAddr { caddr : sockaddr; chal_ok : bool; ctl_ok : bool }.

  Definition with_addr (t : bytes) (o : dns_opts) : res (option dns_addr) :=
    match make_addr t (dns_port o) with
    | Ok (Some a) => Ok (Some (DnsAddr a o)) | Ok None => Ok None | UB => UB
    end.

  (** [dns_listen_any], socks.c:131-142 *)
  Definition listen_any (d : dns_opts) : res (option (list dns_addr)) :=
    each (fun t => with_addr t d) [txt "0.0.0.0"; txt "::"].

  (** [process_listen_hashentry], socks.c:144-187 *)
  Definition listen_entry (d : dns_opts) (e : bytes * vnode) : res (option dns_addr) :=
    match snd e with
    | VH _ =>
        let h := snd e in
        apart
          (let! _ <- opt_removed h (txt "udp_recv_width") ;
           let! proxy <- opt_bool h (txt "tcp_proxy") (tcp_proxy d) ;
           let! timeout <- opt_uint h (txt "tcp_timeout") 5 1800 (tcp_timeout d) ;
           let! fastopen <- opt_uint h (txt "tcp_fastopen") 0 1048576 (tcp_fastopen d) ;
           let! clients <- opt_uint h (txt "tcp_clients_per_thread") 16 65535 (tcp_clients d) ;
           let! backlog <- opt_uint h (txt "tcp_backlog") 0 65535 (tcp_backlog d) ;
           let! tthr <- opt_uint h (txt "tcp_threads") 1 1024 (tcp_threads d) ;
           let! udp <- (if proxy then rret (udp_rcvbuf d, udp_sndbuf d, 0, true)
                        else let! r <- opt_uint h (txt "udp_rcvbuf") 4096 1048576 (udp_rcvbuf d) ;
                             let! s <- opt_uint h (txt "udp_sndbuf") 4096 1048576 (udp_sndbuf d) ;
                             let! u <- opt_uint h (txt "udp_threads") 1 1024 (udp_threads d) ;
                             rret (r, s, u, tcp_pad d)) ;
           let '(rcv, snd_, uthr, padd) := udp in
           let! pad <- opt_bool h (txt "tcp_pad") padd ;
           let! a <- lift (make_addr (c_str (fst e)) (dns_port d)) ;
           let! _ <- (if proxy : bool then need (negb (sin_port a =? 53)) else rret tt) ;
           let! _ <- no_others h ;
           rret (DnsAddr a (DnsOpts (dns_port d) rcv snd_ uthr timeout fastopen clients backlog tthr proxy pad)))
    | _ => Ok None
    end.

  Definition listen_string (d : dns_opts) (v : vnode) : res (option dns_addr) :=
    match v with VS _ s => with_addr (c_str s) d | _ => Ok None end.

  (** [fill_dns_addrs], socks.c:189-229, and socks.c:237-238: an empty set is refused (already
      xcalloc_n refuses to allocate nothing) *)
  Definition fill_addrs (o : option vnode) (d : dns_opts) : res (option (list dns_addr)) :=
    match o with
    | None => listen_any d
    | Some (VH []) => Ok None
    | Some (VH es) => each (listen_entry d) es
    | Some (VA []) => Ok None
    | Some (VA vs) => each (listen_string d) vs
    | Some (VS r s) => if bytes_eqb (c_str s) (txt "any") then listen_any d else each (listen_string d) [VS r s]
    end.

  (** A thread: the index of its address, and is it for UDP? *)
  Definition threads_of (i : nat) (a : dns_addr) : list (nat * bool) :=
    repeat (i, true) (N.to_nat (udp_threads (opts a))) ++ repeat (i, false) (N.to_nat (tcp_threads (opts a))).
  Fixpoint all_threads (i : nat) (l : list dns_addr) : list (nat * bool) :=
    match l with [] => [] | a :: l' => threads_of i a ++ all_threads (S i) l' end.

  (** [process_listen], socks.c:231-285: the threads are counted in 32 bits, the array is made
      for that many, and then filled *)
  Definition process_listen (o : option vnode) (d : dns_opts) : res (option (list dns_addr * list (nat * bool))) :=
    match fill_addrs o d with
    | UB => UB | Ok None => Ok None
    | Ok (Some addrs) =>
        let count := fold_left (fun n a => (n + (udp_threads (opts a) + tcp_threads (opts a))) mod two32) addrs 0 in
        let ts := all_threads 0 addrs in
        rassert (negb (count =? 0))
        (rassert (forallb (fun a => negb (tcp_proxy (opts a)) || (udp_threads (opts a) =? 0)) addrs)
        (rassert (N.of_nat (length ts) =? count)
        (Ok (Some (addrs, ts)))))
    end.

  (** [process_control_item], socks.c:287-314 *)
  Definition control_item (t : bytes) (o : option vnode) : res (option ctl_addr) :=
    let tail (chal ctl : bool) :=
      match anysin_fromstr t 0 with
      | None => Ok None
      | Some a => if sin_port a =? 0 then Ok None else Ok (Some (CtlAddr a chal ctl))
      end in
    match o with
    | None => tail false false
    | Some (VH l) =>
        let h := VH l in
        match apart (let! chal <- opt_bool h (txt "chal_ok") false ;
                     let! ctl <- opt_bool h (txt "ctl_ok") false ;
                     let! _ <- no_others h ;
                     rret (chal, ctl)) with
        | UB => UB | Ok None => Ok None
        | Ok (Some (chal, ctl)) => tail chal ctl
        end
    | Some _ => Ok None
    end.

  (** [process_tcp_control], socks.c:316-343 *)
  Definition tcp_control (v : vnode) : res (option (list ctl_addr)) :=
    match v with
    | VH es => each (fun e => control_item (c_str (fst e)) (Some (snd e))) es
    | VA vs => each (fun v => match v with VS _ s => control_item (c_str s) None | _ => Ok None end) vs
    | VS _ s => each (fun v => match v with VS _ s => control_item (c_str s) None | _ => Ok None end) [v]
    end.

  (** [socks_cfg_t], socks.h:57-65 *)
  Record socks_cfg := SocksCfg { dns_addrs : list dns_addr; dns_threads : list (nat * bool); ctl_addrs : list ctl_addr; fd_estimate : N }.

  (** socks.c:376-391; the products are taken in 32 bits *)
  Definition estimate (addrs : list dns_addr) (ctls : list ctl_addr) : N :=
    (fold_left (fun n a => (n + udp_threads (opts a) + (tcp_threads (opts a) * (tcp_clients (opts a) + 5)) mod two32) mod two64) addrs 0
     + (N.of_nat (length ctls) * 17) mod two32) mod two64.

  Definition sockets (listen ctl : option vnode) (d : dns_opts) : res (option socks_cfg) :=
    match process_listen listen d with
    | UB => UB | Ok None => Ok None
    | Ok (Some (addrs, ts)) =>
        match (match ctl with None => Ok (Some []) | Some v => tcp_control v end) with
        | UB => UB | Ok None => Ok None
        | Ok (Some ctls) => Ok (Some (SocksCfg addrs ts ctls (estimate addrs ctls)))
        end
    end.

  (** [socks_conf_load], socks.c:345-394 *)
  Definition read_socks (h : vnode) : reader socks_cfg :=
    let! _ <- opt_removed h (txt "udp_recv_width") ;
    let! p <- opt_uint h (txt "dns_port") 1 65535 53 ;
    let! rcv <- opt_uint h (txt "udp_rcvbuf") 4096 1048576 0 ;
    let! snd_ <- opt_uint h (txt "udp_sndbuf") 4096 1048576 0 ;
    let! uthr <- opt_uint h (txt "udp_threads") 1 1024 2 ;
    let! timeout <- opt_uint h (txt "tcp_timeout") 5 1800 37 ;
    let! fastopen <- opt_uint h (txt "tcp_fastopen") 0 1048576 256 ;
    let! clients <- opt_uint h (txt "tcp_clients_per_thread") 16 65535 256 ;
    let! backlog <- opt_uint h (txt "tcp_backlog") 0 65535 0 ;
    let! tthr <- opt_uint h (txt "tcp_threads") 1 1024 2 ;
    let! listen <- look h (txt "listen") ;
    let! ctl <- look h (txt "tcp_control") ;
    lift (sockets listen ctl (DnsOpts p rcv snd_ uthr timeout fastopen clients backlog tthr false false)).

  (** ** Everything else *)

  (** [cfg_t], src/conf.h:28-55; defaults at conf.c:46-68 *)
  Record cfg := Cfg {
    run_dir : option bytes; state_dir : option bytes;
    lock_mem : bool; disable_text_autosplit : bool; edns_client_subnet : bool; zones_strict_data : bool;
    disable_cookies : bool; experimental_no_chain : bool; disable_tcp_dso : bool;
    zones_default_ttl : N; min_ttl : N; max_ttl : N; max_ncache_ttl : N;
    max_edns_response : N; max_edns_response_v6 : N; acme_challenge_ttl : N; acme_challenge_dns_ttl : N;
    zones_rfc1035_threads : N; max_nocookie_response : N;
    cookie_key_file : option bytes; chaos : bytes; nsid : option bytes }.

  (** [set_chaos], conf.c:70-86 *)
  Definition chaos_prefix : bytes := [192; 12; 0; 16; 0; 3; 0; 0; 0; 0].
  Definition set_chaos (data : bytes) : res (option bytes) :=
    let dlen := N.of_nat (length data) in
    if 254 <? dlen then Ok None
    else Ok (Some (chaos_prefix ++ [0; (dlen + 1) mod 256; dlen mod 256] ++ data)).

  (** [ahex], conf.c:88-92 *)
  Definition ahex : bytes := [0; 1; 2; 3; 4; 5; 6; 7; 8; 9; 0; 0; 0; 0; 0; 0; 0; 10; 11; 12; 13; 14; 15; 0].
  Definition ahex_of (c : N) : res N := rd ahex (N.to_nat (N.lxor (N.land c 31) 16)).
  Definition is_hex (c : N) : bool := existsb (N.eqb c) (txt "0123456789ABCDEFabcdef").

  Fixpoint hex_pairs (s : bytes) : res bytes :=
    match s with
    | a :: b :: s' =>
        do x <- ahex_of a ;
        do y <- ahex_of b ;
        do r <- hex_pairs s' ;
        Ok (N.lor (N.shiftl x 4 mod 256) y :: r)
    | _ => Ok []
    end.

  (** [set_nsid], conf.c:94-107 *)
  Definition set_nsid (data : bytes) : res (option bytes) :=
    let dlen := length data in
    if Nat.eqb dlen 0 || Nat.ltb 256 dlen || Nat.odd dlen || negb (forallb is_hex data) then Ok None
    else do r <- hex_pairs data ; Ok (Some r).

  (** [set_nsid_ascii], conf.c:109-126; bytes from 128 on are negative there *)
  Definition set_nsid_ascii (data : bytes) : res (option bytes) :=
    let dlen := length data in
    if Nat.eqb dlen 0 || Nat.ltb 128 dlen || negb (forallb (fun c => negb ((c <? 32) || (126 <? c))) data) then Ok None
    else Ok (Some data).

  Definition removed : list bytes :=
    [txt "username"; txt "weaker_security"; txt "include_optional_ns"; txt "realtime_stats"; txt "zones_strict_startup";
     txt "zones_rfc1035_auto"; txt "any_mitigation"; txt "priority"; txt "log_stats"; txt "max_response";
     txt "max_cname_depth"; txt "max_addtl_rrsets"; txt "zones_rfc1035_auto_interval"; txt "zones_rfc1035_quiesce";
     txt "http_listen"; txt "max_http_clients"; txt "http_timeout"; txt "http_port"; txt "plugin_search_path"].
  Fixpoint read_removed (h : vnode) (l : list bytes) : reader unit :=
    match l with [] => rret tt | k :: l' => let! _ <- opt_removed h k ; read_removed h l' end.

  (** conf.c:310-330: what is made of the options, with the texts for chaos_response, nsid and nsid_ascii *)
  Definition finish (chaos_data : bytes) (nsid_data nsid_text : option bytes) : res (option (bytes * option bytes)) :=
    match set_chaos chaos_data with
    | UB => UB | Ok None => Ok None
    | Ok (Some ch) =>
        match nsid_data, nsid_text with
        | Some _, Some _ => Ok None
        | Some x, None => match set_nsid x with UB => UB | Ok None => Ok None | Ok (Some n) => Ok (Some (ch, Some n)) end
        | None, Some x => match set_nsid_ascii x with UB => UB | Ok None => Ok None | Ok (Some n) => Ok (Some (ch, Some n)) end
        | None, None => Ok (Some (ch, None))
        end
    end.

  (** [conf_load], conf.c:250-330 *)
  Definition read_conf (h : vnode) (force_zsd : bool) (run state : option bytes) : reader cfg :=
    let! _ <- read_removed h removed ;
    let! lock <- opt_bool h (txt "lock_mem") false ;
    let! autosplit <- opt_bool h (txt "disable_text_autosplit") false ;
    let! ecs <- opt_bool h (txt "edns_client_subnet") true ;
    let! ttl <- opt_uint h (txt "zones_default_ttl") 1 2147483647 86400 ;
    let! mint <- opt_uint h (txt "min_ttl") 0 86400 5 ;
    let! maxt <- opt_uint h (txt "max_ttl") 3600 268435455 3600000 ;
    let! _ <- need (negb (maxt <? mint)) ;
    let! maxn <- opt_uint h (txt "max_ncache_ttl") 10 86400 10800 ;
    let! _ <- need (negb (maxn <? mint)) ;
    let! edns <- opt_uint h (txt "max_edns_response") 512 16384 1232 ;
    let! edns6 <- opt_uint h (txt "max_edns_response_v6") 512 16384 1232 ;
    let! acme <- opt_uint h (txt "acme_challenge_ttl") 60 3600 600 ;
    let! acmed <- opt_uint h (txt "acme_challenge_dns_ttl") 0 3600 0 ;
    let! zthr <- opt_uint h (txt "zones_rfc1035_threads") 1 1024 2 ;
    let! strict <- opt_bool h (txt "zones_strict_data") false ;
    let! nocookies <- opt_bool h (txt "disable_cookies") false ;
    let! nochain <- opt_bool h (txt "experimental_no_chain") true ;
    let! nodso <- opt_bool h (txt "disable_tcp_dso") false ;
    let! nocookie <- opt_uint h (txt "max_nocookie_response") 0 1024 0 ;
    let! _ <- need (negb (negb (nocookie =? 0) && (nocookie <? 128))) ;
    let! key <- opt_str h (txt "cookie_key_file") None ;
    let! ch <- opt_str h (txt "chaos_response") (Some (txt "gdnsd/3")) ;
    let! ns <- opt_str h (txt "nsid") None ;
    let! nst <- opt_str h (txt "nsid_ascii") None ;
    let! _ <- no_others h ;
    let! fin <- lift (finish match ch with Some c => c | None => [] end ns nst) ;
    rret (Cfg run state lock autosplit ecs (strict || force_zsd) nocookies nochain nodso ttl mint maxt maxn edns edns6
              acme acmed zthr nocookie key (fst fin) (snd fin)).

  (** One hash of options, gone through by all three; paths.c:139-144 *)
  Definition read_options (h : vnode) (force_zsd : bool) : reader (socks_cfg * cfg) :=
    let! run <- opt_str h (txt "run_dir") None ;
    let! state <- opt_str h (txt "state_dir") None ;
    let! s <- read_socks h ;
    let! c <- read_conf h force_zsd run state ;
    rret (s, c).

  (** No options: socks.c:387-389 with the defaults, and the defaults of conf.c *)
  Definition no_options (force_zsd : bool) : res (option (socks_cfg * cfg)) :=
    match sockets None None dns_defaults with
    | UB => UB | Ok None => Ok None
    | Ok (Some s) =>
        match finish (txt "gdnsd/3") None None with
        | UB => UB | Ok None => Ok None
        | Ok (Some (ch, ns)) =>
            Ok (Some (s, Cfg None None false false true force_zsd false true false 86400 5 3600000 10800 1232 1232 600 0 2 0 None ch ns))
        end
    end.

  (** The whole: [None] stands for no file at all.  paths.c:78-98: a file that is an array is refused;
      lines 137-138: so are options that are not a hash; conf.c:369-370: so are unknown keys. *)
  Definition load (root : option vnode) (force_zsd : bool) : res (option (socks_cfg * cfg)) :=
    match root with
    | None => no_options force_zsd
    | Some (VH l) =>
        if forallb (fun e => existsb (bytes_eqb (fst e)) [txt "options"; txt "service_types"; txt "plugins"]) l then
          match get (txt "options") l with
          | None => no_options force_zsd
          | Some (VH o) => apart (read_options (VH o) force_zsd)
          | Some _ => Ok None
          end
        else Ok None
    | Some (VA _) => Ok None
    | Some (VS _ _) => UB
    end.
End Gai.
