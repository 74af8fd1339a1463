(** Service types: src/plugins/mon.c:623-707, http_status.c:374-444, tcp_connect.c:222-237.
    A service type is the list of entries of its hash (that it is a hash was checked by
    [gdnsd_mon_cfg_stypes_p1], mon.c:645); the entry [plugin] was read there, and picked one of
    the functions [http_type] and [tcp_type] below.  Names of service types, and the addresses
    that use them, are left out. *)
From Coq Require Import String Ascii.
From Verif Require Import Base CompModel VscfModel MonModel OptModel ProbeModel.
Local Open Scope N_scope.
Local Notation length := List.length.

(** [service_type_t], mon.c:38-46 *)
Record mon_svc := MonSvc { up_thresh : N; ok_thresh : N; down_thresh : N; interval : N; timeout : N }.

(** The options every service type has: [gdnsd_mon_cfg_stypes_p2], mon.c:684-697 *)
Definition mon_options (h : vnode) : reader mon_svc :=
  let! up <- opt_uint h (txt "up_thresh") 1 65535 20 ;
  let! ok <- opt_uint h (txt "ok_thresh") 1 65535 10 ;
  let! down <- opt_uint h (txt "down_thresh") 1 65535 10 ;
  let! ival <- opt_uint h (txt "interval") 2 3600 10 ;
  let! tout <- opt_uint h (txt "timeout") 1 300 (N.shiftr ival 1) ;
  let! _ <- need (negb (ival <=? tout)) ;
  rret (MonSvc up ok down ival tout).

(** printf with %s only *)
Fixpoint fill (tmpl : bytes) (args : list bytes) : bytes :=
  match tmpl with
  | c :: ((d :: t) as t1) =>
      if (c =? 37) && (d =? 115)
      then match args with a :: args' => a ++ fill t args' | [] => fill t [] end
      else c :: fill t1 args
  | _ => tmpl
  end.

Definition crlf : bytes := [13; 10].

(** REQ_TMPL and REQ_TMPL_VHOST, http_status.c:377-378 *)
Definition req_tmpl : bytes :=
  txt "GET %s HTTP/1.0" ++ crlf ++ txt "User-Agent: gdnsd-monitor" ++ crlf ++ crlf.
Definition req_tmpl_vhost : bytes :=
  txt "GET %s HTTP/1.1" ++ crlf ++ txt "Host: %s" ++ crlf ++ txt "Connection: close" ++ crlf
    ++ txt "User-Agent: gdnsd-monitor" ++ crlf ++ crlf.

(** [make_req_data], http_status.c:383-395: snprintf stops at the length worked out before
    (sizeof counts the NUL at the end of a template) *)
Definition make_req_data (url : bytes) (vhost : option bytes) : bytes :=
  match vhost with
  | Some v =>
      let len := (length req_tmpl_vhost + 1 - 2 - 2 - 1 + length url + length v)%nat in
      firstn len (fill req_tmpl_vhost [url; v])
  | None =>
      let len := (length req_tmpl + 1 - 2 - 1 + length url)%nat in
      firstn len (fill req_tmpl [url])
  end.

(** [vscf_array_get_len] and [vscf_array_get_data], vscf.rl:914-930: anything else is an array
    with one element *)
Definition elements (v : vnode) : list vnode := match v with VA l => l | _ => [v] end.

(** The loop over ok_codes, http_status.c:421-430; [vscf_simple_get_as_ulong] asserts that its
    argument is a string *)
Fixpoint read_codes (l : list vnode) : reader (list N) :=
  match l with
  | [] => rret []
  | VS _ v :: l' =>
      match as_ulong v with
      | None => rfail
      | Some n =>
          let! _ <- need (negb ((n <? 100) || (999 <? n))) ;
          let! ns <- read_codes l' ;
          rret (n mod two32 :: ns)
      end
  | _ :: _ => rub
  end.

(** [plugin_http_status_add_svctype], http_status.c:397-444 *)
Definition http_options (h : vnode) (m : mon_svc) : reader http_svc :=
  let! url <- opt_str h (txt "url_path") (Some (txt "/")) ;
  let! vhost <- opt_str h (txt "vhost") None ;
  let! port <- opt_uint h (txt "port") 1 65534 80 ;
  let! o <- look h (txt "ok_codes") ;
  let! codes <- match o with
                | None => rret [200]
                | Some v => let! _ <- need match elements v with [] => false | _ => true end ; read_codes (elements v)
                end ;
  rret (HSvc codes (make_req_data match url with Some u => u | None => [] end vhost) port (timeout m) (interval m)).

(** [plugin_tcp_connect_add_svctype], tcp_connect.c:222-237 *)
Definition tcp_options (h : vnode) (m : mon_svc) : reader tcp_svc :=
  let! port <- opt_uint h (txt "port") 1 65534 0 ;
  let! _ <- need (negb (port =? 0)) ;
  rret (TSvc port (timeout m) (interval m)).

(** mon.c:684-700, with [bad_svc_opt] for anything that was not asked for *)
Definition service_type {S} (plugin : vnode -> mon_svc -> reader S) (l : list (bytes * vnode)) : res (option (mon_svc * S)) :=
  match (let! m <- mon_options (VH l) ;
         let! s <- plugin (VH l) m ;
         let! _ <- no_others (VH l) ;
         rret (m, s)) [txt "plugin"] with
  | Ok (Some (r, _)) => Ok (Some r)
  | Ok None => Ok None
  | UB => UB
  end.

Definition http_type := service_type http_options.
Definition tcp_type := service_type tcp_options.
