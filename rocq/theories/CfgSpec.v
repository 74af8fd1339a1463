(** What the global options say (docs/gdnsd.config.podin) *)
From Coq Require Import String Ascii.
From Verif Require Import Base VscfModel OptModel OptSpec CfgModel.
Local Open Scope N_scope.
Local Open Scope list_scope.
Local Notation length := List.length.

(** ** Addresses with ports *)

(** How a text names a host and a port *)
Inductive names : bytes -> bytes -> option bytes -> Prop :=
(* [host]:port *)
| NBoth h p : ~ In 93 h -> p <> [] -> names (91 :: h ++ 93 :: 58 :: p) h (Some p)
(* [host] and [host]: *)
| NBracket h : ~ In 93 h -> names (91 :: h ++ [93]) h None
| NBracketColon h : ~ In 93 h -> names (91 :: h ++ [93; 58]) h None
(* host:port *)
| NPort c h p : c <> 91 -> ~ In 58 (c :: h) -> ~ In 58 p -> p <> [] -> names ((c :: h) ++ 58 :: p) (c :: h) (Some p)
(* host and host: *)
| NHost t : hd_error t <> Some 91 -> ~ In 58 t -> names t t None
| NHostColon c h : c <> 91 -> ~ In 58 (c :: h) -> names ((c :: h) ++ [58]) (c :: h) None
(* an IPv6 address: two colons or more *)
| NV6 t a b c : hd_error t <> Some 91 -> t = a ++ 58 :: b ++ 58 :: c -> names t t None
(* not meant to be written: something else after a bracket is ignored; a bracket that is not
   closed is part of the host; a port without a host *)
| NJunk h x r : ~ In 93 h -> x <> 58 -> names (91 :: h ++ 93 :: x :: r) h None
| NOpen h : ~ In 93 h -> names (91 :: h) (91 :: h) None
| NNoHost p : ~ In 58 p -> names (58 :: p) (txt "!!invalid!!") (Some (58 :: p)).

Section Gai.
  Variable gai : bytes -> option bytes -> option sockaddr.

  (** The address a text stands for; without a port of its own it gets the default *)
  Definition address (t : bytes) (def : N) (a : sockaddr) : Prop :=
    exists h p a0, names t h p /\ gai h p = Some a0 /\
      a = match p with
          | Some _ => a0
          | None => if def =? 0 then a0 else Sockaddr (v6 a0) (host a0) def
          end.

  (** ** Listening *)

  (** The options of one address; what is not given is taken from [d] *)
  Definition addr_options (l : list (bytes * vnode)) (d o : dns_opts) : Prop :=
    dns_port o = dns_port d /\
    flag l (txt "tcp_proxy") (tcp_proxy d) (tcp_proxy o) /\
    number l (txt "tcp_timeout") 5 1800 (tcp_timeout d) (tcp_timeout o) /\
    number l (txt "tcp_fastopen") 0 1048576 (tcp_fastopen d) (tcp_fastopen o) /\
    number l (txt "tcp_clients_per_thread") 16 65535 (tcp_clients d) (tcp_clients o) /\
    number l (txt "tcp_backlog") 0 65535 (tcp_backlog d) (tcp_backlog o) /\
    number l (txt "tcp_threads") 1 1024 (tcp_threads d) (tcp_threads o) /\
    (if tcp_proxy o then
       udp_rcvbuf o = udp_rcvbuf d /\ udp_sndbuf o = udp_sndbuf d /\ udp_threads o = 0 /\
       flag l (txt "tcp_pad") true (tcp_pad o) /\
       only l [txt "udp_recv_width"; txt "tcp_proxy"; txt "tcp_timeout"; txt "tcp_fastopen"; txt "tcp_clients_per_thread";
               txt "tcp_backlog"; txt "tcp_threads"; txt "tcp_pad"]
     else
       number l (txt "udp_rcvbuf") 4096 1048576 (udp_rcvbuf d) (udp_rcvbuf o) /\
       number l (txt "udp_sndbuf") 4096 1048576 (udp_sndbuf d) (udp_sndbuf o) /\
       number l (txt "udp_threads") 1 1024 (udp_threads d) (udp_threads o) /\
       flag l (txt "tcp_pad") (tcp_pad d) (tcp_pad o) /\
       only l [txt "udp_recv_width"; txt "tcp_proxy"; txt "tcp_timeout"; txt "tcp_fastopen"; txt "tcp_clients_per_thread";
               txt "tcp_backlog"; txt "tcp_threads"; txt "udp_rcvbuf"; txt "udp_sndbuf"; txt "udp_threads"; txt "tcp_pad"]).

  Definition at_text (d : dns_opts) (t : bytes) (a : dns_addr) : Prop :=
    address t (dns_port d) (addr a) /\ opts a = d.

  Inductive plain (d : dns_opts) : vnode -> dns_addr -> Prop :=
  | Plain raw s t a : text_of s t -> at_text d t a -> plain d (VS raw s) a.

  (** 13568 is 53 with its bytes swapped: see C58_proxy_not_on_port_53_refuted *)
  Inductive tuned (d : dns_opts) : bytes * vnode -> dns_addr -> Prop :=
  | Tuned k l t a : text_of k t -> address t (dns_port d) (addr a) -> addr_options l d (opts a) ->
      (tcp_proxy (opts a) = true -> port (addr a) <> 13568) -> tuned d (k, VH l) a.

  Inductive listens (d : dns_opts) : option vnode -> list dns_addr -> Prop :=
  | LDefault as_ : Forall2 (at_text d) [txt "0.0.0.0"; txt "::"] as_ -> listens d None as_
  | LAny raw s as_ : text_of s (txt "any") -> Forall2 (at_text d) [txt "0.0.0.0"; txt "::"] as_ -> listens d (Some (VS raw s)) as_
  | LOne raw s a : ~ text_of s (txt "any") -> plain d (VS raw s) a -> listens d (Some (VS raw s)) [a]
  | LMany vs as_ : as_ <> [] -> Forall2 (plain d) vs as_ -> listens d (Some (VA vs)) as_
  | LTable es as_ : as_ <> [] -> Forall2 (tuned d) es as_ -> listens d (Some (VH es)) as_.

  (** The threads: for each address as many of each kind as its options say *)
  Definition workers (as_ : list dns_addr) (ts : list (nat * bool)) : Prop :=
    forall i udp, length (filter (fun t => Nat.eqb (fst t) i && Bool.eqb (snd t) udp) ts) =
      match nth_error as_ i with
      | Some a => N.to_nat (if udp then udp_threads (opts a) else tcp_threads (opts a))
      | None => 0%nat
      end.

  (** The control sockets; a port has to be given *)
  Inductive control : bytes -> option vnode -> ctl_addr -> Prop :=
  | Control k t o a chal ctl :
      text_of k t -> address t 0 a -> port a <> 0 ->
      match o with
      | None => chal = false /\ ctl = false
      | Some v => exists l, v = VH l /\ flag l (txt "chal_ok") false chal /\ flag l (txt "ctl_ok") false ctl /\
                            only l [txt "chal_ok"; txt "ctl_ok"]
      end -> control k o (CtlAddr a chal ctl).

  Inductive controls : option vnode -> list ctl_addr -> Prop :=
  | CNone : controls None []
  | COne raw s a : control s None a -> controls (Some (VS raw s)) [a]
  | CMany vs as_ : Forall2 (fun v a => exists raw s, v = VS raw s /\ control s None a) vs as_ -> controls (Some (VA vs)) as_
  | CTable es as_ : Forall2 (fun e a => control (fst e) (Some (snd e)) a) es as_ -> controls (Some (VH es)) as_.

  Definition total (l : list N) : N := fold_right N.add 0 l.

  Definition sockets_spec (l : list (bytes * vnode)) (s : socks_cfg) : Prop :=
    exists d lo co,
      number l (txt "dns_port") 1 65535 53 (dns_port d) /\
      number l (txt "udp_rcvbuf") 4096 1048576 0 (udp_rcvbuf d) /\
      number l (txt "udp_sndbuf") 4096 1048576 0 (udp_sndbuf d) /\
      number l (txt "udp_threads") 1 1024 2 (udp_threads d) /\
      number l (txt "tcp_timeout") 5 1800 37 (tcp_timeout d) /\
      number l (txt "tcp_fastopen") 0 1048576 256 (tcp_fastopen d) /\
      number l (txt "tcp_clients_per_thread") 16 65535 256 (tcp_clients d) /\
      number l (txt "tcp_backlog") 0 65535 0 (tcp_backlog d) /\
      number l (txt "tcp_threads") 1 1024 2 (tcp_threads d) /\
      tcp_proxy d = false /\ tcp_pad d = false /\
      given l (txt "listen") lo /\ listens d lo (dns_addrs s) /\
      given l (txt "tcp_control") co /\ controls co (ctl_addrs s) /\
      dns_threads s = flat_map (fun ia => repeat (fst ia, true) (N.to_nat (udp_threads (opts (snd ia)))) ++
                                          repeat (fst ia, false) (N.to_nat (tcp_threads (opts (snd ia)))))
                               (combine (seq 0 (length (dns_addrs s))) (dns_addrs s)) /\
      fd_estimate s = total (map (fun a => udp_threads (opts a) + tcp_threads (opts a) * (tcp_clients (opts a) + 5)) (dns_addrs s))
                      + 17 * N.of_nat (length (ctl_addrs s)).

  (** ** The other options *)

  Inductive hex_text : bytes -> bytes -> Prop :=
  | Hex0 : hex_text [] []
  | HexS a b x y s r : digit a x -> digit b y -> hex_text s r -> hex_text (a :: b :: s) (16 * x + y :: r).

  (** The record sent in answer to CHAOS queries: the question's name, TXT, CH, TTL 0, one string *)
  Definition chaos_record (t : bytes) : bytes :=
    let n := N.of_nat (length t) in
    [192; 12] ++ [0; 16] ++ [0; 3] ++ [0; 0; 0; 0] ++ [0; n + 1] ++ n :: t.

  Definition nsid_spec (l : list (bytes * vnode)) (o : option bytes) : Prop :=
    exists x y,
      text l (txt "nsid") None x /\ text l (txt "nsid_ascii") None y /\
      match x, y with
      | None, None => o = None
      | Some t, None => exists n, o = Some n /\ hex_text t n /\ (1 <= length n <= 128)%nat
      | None, Some t => o = Some t /\ (1 <= length t <= 128)%nat /\ Forall (fun c => 32 <= c <= 126) t
      | Some _, Some _ => False
      end.

  (** The names of options that were removed are still allowed, with any value *)
  Definition removed_names : list bytes :=
    [txt "udp_recv_width"; txt "username"; txt "weaker_security"; txt "include_optional_ns"; txt "realtime_stats";
     txt "zones_strict_startup"; txt "zones_rfc1035_auto"; txt "any_mitigation"; txt "priority"; txt "log_stats";
     txt "max_response"; txt "max_cname_depth"; txt "max_addtl_rrsets"; txt "zones_rfc1035_auto_interval";
     txt "zones_rfc1035_quiesce"; txt "http_listen"; txt "max_http_clients"; txt "http_timeout"; txt "http_port";
     txt "plugin_search_path"].

  Definition option_names : list bytes :=
    [txt "run_dir"; txt "state_dir"; txt "dns_port"; txt "udp_rcvbuf"; txt "udp_sndbuf"; txt "udp_threads"; txt "tcp_timeout";
     txt "tcp_fastopen"; txt "tcp_clients_per_thread"; txt "tcp_backlog"; txt "tcp_threads"; txt "listen"; txt "tcp_control";
     txt "lock_mem"; txt "disable_text_autosplit"; txt "edns_client_subnet"; txt "zones_default_ttl"; txt "min_ttl";
     txt "max_ttl"; txt "max_ncache_ttl"; txt "max_edns_response"; txt "max_edns_response_v6"; txt "acme_challenge_ttl";
     txt "acme_challenge_dns_ttl"; txt "zones_rfc1035_threads"; txt "zones_strict_data"; txt "disable_cookies";
     txt "experimental_no_chain"; txt "disable_tcp_dso"; txt "max_nocookie_response"; txt "cookie_key_file";
     txt "chaos_response"; txt "nsid"; txt "nsid_ascii"].

  Definition conf_spec (l : list (bytes * vnode)) (force_zsd : bool) (c : cfg) : Prop :=
    text l (txt "run_dir") None (run_dir c) /\
    text l (txt "state_dir") None (state_dir c) /\
    flag l (txt "lock_mem") false (lock_mem c) /\
    flag l (txt "disable_text_autosplit") false (disable_text_autosplit c) /\
    flag l (txt "edns_client_subnet") true (edns_client_subnet c) /\
    (exists b, flag l (txt "zones_strict_data") false b /\ zones_strict_data c = b || force_zsd) /\
    flag l (txt "disable_cookies") false (disable_cookies c) /\
    flag l (txt "experimental_no_chain") true (experimental_no_chain c) /\
    flag l (txt "disable_tcp_dso") false (disable_tcp_dso c) /\
    number l (txt "zones_default_ttl") 1 2147483647 86400 (zones_default_ttl c) /\
    number l (txt "min_ttl") 0 86400 5 (min_ttl c) /\
    number l (txt "max_ttl") 3600 268435455 3600000 (max_ttl c) /\
    number l (txt "max_ncache_ttl") 10 86400 10800 (max_ncache_ttl c) /\
    min_ttl c <= max_ttl c /\ min_ttl c <= max_ncache_ttl c /\
    number l (txt "max_edns_response") 512 16384 1232 (max_edns_response c) /\
    number l (txt "max_edns_response_v6") 512 16384 1232 (max_edns_response_v6 c) /\
    number l (txt "acme_challenge_ttl") 60 3600 600 (acme_challenge_ttl c) /\
    number l (txt "acme_challenge_dns_ttl") 0 3600 0 (acme_challenge_dns_ttl c) /\
    number l (txt "zones_rfc1035_threads") 1 1024 2 (zones_rfc1035_threads c) /\
    number l (txt "max_nocookie_response") 0 1024 0 (max_nocookie_response c) /\
    (max_nocookie_response c = 0 \/ 128 <= max_nocookie_response c) /\
    text l (txt "cookie_key_file") None (cookie_key_file c) /\
    (exists t, text l (txt "chaos_response") (Some (txt "gdnsd/3")) (Some t) /\ (length t <= 254)%nat /\ chaos c = chaos_record t) /\
    nsid_spec l (nsid c) /\
    only l (option_names ++ removed_names).

  (** The file, if there is one, and its options, if there are any *)
  Inductive options_of : option vnode -> list (bytes * vnode) -> Prop :=
  | ONoFile : options_of None []
  | ONoOptions l : only l [txt "options"; txt "service_types"; txt "plugins"] -> given l (txt "options") None -> options_of (Some (VH l)) []
  | OOptions l o : only l [txt "options"; txt "service_types"; txt "plugins"] -> given l (txt "options") (Some (VH o)) -> options_of (Some (VH l)) o.

  Definition config (root : option vnode) (force_zsd : bool) (s : socks_cfg) (c : cfg) : Prop :=
    exists l, options_of root l /\ sockets_spec l s /\ conf_spec l force_zsd c.

  (** There are not absurdly many addresses *)
  Definition entries (v : vnode) : nat := match v with VS _ _ => 1%nat | VA l => length l | VH l => length l end.
  Definition few_addresses (root : option vnode) : Prop :=
    forall l v k, options_of root l -> (k = txt "listen" \/ k = txt "tcp_control") -> given l k (Some v) ->
      N.of_nat (entries v) < 2 ^ 20.
End Gai.
