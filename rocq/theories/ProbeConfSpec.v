(** What service types may look like (docs/gdnsd.config.podin, section on service_types, and
    the manual pages of the two plugins) *)
From Coq Require Import String Ascii.
From Verif Require Import Base VscfModel OptModel OptSpec ProbeModel ProbeConfModel.
Local Open Scope N_scope.
Local Open Scope list_scope.

Definition mon_spec (l : list (bytes * vnode)) (m : mon_svc) : Prop :=
  number l (txt "up_thresh") 1 65535 20 (up_thresh m) /\
  number l (txt "ok_thresh") 1 65535 10 (ok_thresh m) /\
  number l (txt "down_thresh") 1 65535 10 (down_thresh m) /\
  number l (txt "interval") 2 3600 10 (interval m) /\
  number l (txt "timeout") 1 300 (interval m / 2) (timeout m) /\
  timeout m < interval m.

(** A code, written as a number *)
Inductive code : vnode -> N -> Prop :=
| Code raw s n : c_integer s n -> 100 <= n <= 999 -> code (VS raw s) n.

(** One code, or a list of them *)
Inductive codes : option vnode -> list N -> Prop :=
| NoCodes : codes None [200]
| OneCode v n : code v n -> codes (Some v) [n]
| ManyCodes l ns : Forall2 code l ns -> ns <> [] -> codes (Some (VA l)) ns.

(** The request, line by line *)
Definition line (parts : list bytes) : bytes := concat parts ++ [13; 10].
Definition request (url : bytes) (vhost : option bytes) : bytes :=
  match vhost with
  | None =>
      line [txt "GET "; url; txt " HTTP/1.0"] ++
      line [txt "User-Agent: gdnsd-monitor"] ++
      line []
  | Some v =>
      line [txt "GET "; url; txt " HTTP/1.1"] ++
      line [txt "Host: "; v] ++
      line [txt "Connection: close"] ++
      line [txt "User-Agent: gdnsd-monitor"] ++
      line []
  end.

Definition common_keys : list bytes :=
  [txt "plugin"; txt "up_thresh"; txt "ok_thresh"; txt "down_thresh"; txt "interval"; txt "timeout"].

Definition http_spec (l : list (bytes * vnode)) (m : mon_svc) (s : http_svc) : Prop :=
  mon_spec l m /\
  (exists url vhost,
     text l (txt "url_path") (Some (txt "/")) (Some url) /\
     text l (txt "vhost") None vhost /\
     req_data s = request url vhost) /\
  number l (txt "port") 1 65534 80 (h_port s) /\
  (exists o, given l (txt "ok_codes") o /\ codes o (ok_codes s)) /\
  h_timeout s = timeout m /\ h_interval s = interval m /\
  only l (common_keys ++ [txt "url_path"; txt "vhost"; txt "port"; txt "ok_codes"]).

Definition tcp_spec (l : list (bytes * vnode)) (m : mon_svc) (s : tcp_svc) : Prop :=
  mon_spec l m /\
  (exists v, given l (txt "port") (Some v)) /\
  number l (txt "port") 1 65534 0 (t_port s) /\
  t_timeout s = timeout m /\ t_interval s = interval m /\
  only l (common_keys ++ [txt "port"]).

(** The elements of ok_codes are strings *)
Definition plain_codes (l : list (bytes * vnode)) : Prop :=
  forall v, given l (txt "ok_codes") (Some v) ->
    match v with
    | VS _ _ => True
    | VA es => Forall (fun e => match e with VS _ _ => True | _ => False end) es
    | VH _ => False
    end.
