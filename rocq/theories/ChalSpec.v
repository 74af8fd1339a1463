(** What users of ACME challenges are told, independent of the code.  The type of events is that of the model. *)
From Verif Require Import Base DnameSpec RespSpec ChalModel.

(** a challenge: the name to be validated and 43 bytes of text *)
Record achal := { a_name : list (list N); a_text : bytes }.
Record aset := { a_until : Z; a_chals : list achal }.
Definition all_chals (l : list aset) : list achal := flat_map a_chals l.

(** A request: names (a missing final dot is implied), each with its text and a closing byte *)
Inductive request : list achal -> bytes -> Prop :=
| rq_nil : request [] []
| rq_cons n fq t z cs data : struct_name n -> length t = 43 -> request cs data ->
    request ({| a_name := n; a_text := t |} :: cs) (dname n fq ++ t ++ z :: data).
Definition legal_request (count : nat) (data : bytes) (cs : list achal) : Prop :=
  request cs data /\ length cs = count /\ 1 <= count <= 100 /\ length data <= N.to_nat 28400.

(** the record answering _acme-challenge.NAME, without its owner name *)
Definition txt_rr (dns_ttl : N) (c : achal) : bytes := [0; 16; 0; 1]%N ++ be32 dns_ttl ++ [0; 44; 43]%N ++ a_text c.
Definition same_name (n : list (list N)) (c : achal) : bool := if list_eq_dec (list_eq_dec N.eq_dec) (a_name c) n then true else false.
Definition answers (dns_ttl : N) (cs : list achal) (n : list (list N)) : list bytes := map (txt_rr dns_ttl) (filter (same_name n) cs).

(** More than 201 of the challenges fall into one of the [b] buckets, where [b] is the power of two
    above twice their number. *)
Definition crowded (hash : bytes -> N) (cs : list achal) : Prop :=
  exists k j, let b := (2 ^ k)%N in
    (2 * N.of_nat (length cs) < b <= 4 * N.of_nat (length cs))%N /\
    201 < length (filter (fun c => (((hash (wire_labels (a_name c)) mod 2 ^ 32) mod b =? j)%N)) cs).

(** ** The service: the live sets from oldest to newest, when the next expiry is due, whether the
    main thread is busy, and for each thread that is answering a query the sets it sees *)
Record aserv := { live : list aset; due : option Z; busy : bool; views : list (option (list aset)) }.

Definition chal_q (n : list (list N)) : bool * list (list N) := chal_name n.

Section Serv.
  Variable hash : bytes -> N.
  Variable ttl dns_ttl : N.

  Inductive astep : aserv -> ev -> out -> aserv -> Prop :=
  | a_busy a e : busy a = true -> match e with ECreate _ _ _ | ETimer _ | EFlush => True | _ => False end -> astep a e ONone a
  | a_add a now count data cs : busy a = false -> legal_request count data cs ->
      (forall c, In c cs -> length (filter (same_name (a_name c)) (all_chals (live a) ++ cs)) <= 201) ->
      astep a (ECreate now count data) (OAdded false)
        {| live := live a ++ [{| a_until := now + 1000 * Z.of_N ttl; a_chals := cs |}];
           due := match live a with [] => Some (now + 1000 * Z.of_N ttl)%Z | _ => due a end; busy := true; views := views a |}
  | a_illegal a now count data : busy a = false -> (forall cs, ~ legal_request count data cs) ->
      astep a (ECreate now count data) (OAdded true) a
  | a_crowd a now count data cs : busy a = false -> legal_request count data cs -> crowded hash (all_chals (live a) ++ cs) ->
      astep a (ECreate now count data) (OAdded true) a
  | a_not_due a now : busy a = false -> (forall d, due a = Some d -> (now < d)%Z) -> astep a (ETimer now) ONone a
  | a_expire a now d dead keep : busy a = false -> due a = Some d -> (d <= now)%Z -> live a = dead ++ keep ->
      Forall (fun s => (a_until s <= now + 3200)%Z) dead -> (forall s r, keep = s :: r -> (now + 3200 < a_until s)%Z) ->
      astep a (ETimer now) ONone
        {| live := keep; due := match keep with [] => None | s :: _ => Some (a_until s) end; busy := true; views := views a |}
  | a_flush a : busy a = false -> astep a EFlush ONone {| live := []; due := None; busy := true; views := views a |}
  | a_main a b : (busy a = false -> b = false) -> astep a EMain ONone {| live := live a; due := due a; busy := b; views := views a |}
  | a_begin a r : nth_error (views a) r = Some None ->
      astep a (RBegin r) ONone {| live := live a; due := due a; busy := busy a; views := upd (views a) r (Some (live a)) |}
  | a_begin_no a r : nth_error (views a) r <> Some None -> astep a (RBegin r) ONone a
  | a_look a r n v : nth_error (views a) r = Some (Some v) -> struct_name n ->
      astep a (RLook r (dname n true)) (OFound (fst (chal_q n)) (answers dns_ttl (all_chals v) (snd (chal_q n)))) a
  | a_look_no a r q : (forall v, nth_error (views a) r <> Some (Some v)) -> astep a (RLook r q) ONone a
  | a_end a r : r < length (views a) -> astep a (REnd r) ONone {| live := live a; due := due a; busy := busy a; views := upd (views a) r None |}
  | a_end_no a r : length (views a) <= r -> astep a (REnd r) ONone a.

  Inductive asteps : aserv -> list ev -> list out -> aserv -> Prop :=
  | as_nil a : asteps a [] [] a
  | as_cons a e o a1 es os a2 : astep a e o a1 -> asteps a1 es os a2 -> asteps a (e :: es) (o :: os) a2.
End Serv.

Definition astart (n : nat) : aserv := {| live := []; due := None; busy := false; views := repeat None n |}.

(** queries are for well-formed names, data are bytes *)
Definition ev_ok (e : ev) : Prop :=
  match e with
  | ECreate _ _ data => all_bytes data
  | RLook _ q => exists n, struct_name n /\ q = dname n true
  | _ => True
  end.

(** ** Handing over *)
(** what the old daemon hands over at [now]: what has more than 3.2 s to live *)
Definition handed (now : Z) (l : list aset) : list aset := filter (fun s => (now + 3200 <? a_until s)%Z) l.
(** the same sets in a daemon that takes them over at [now'], with its own limit [ttl'] in seconds:
    whole seconds of the remaining time, at most either daemon's limit *)
Definition taken (ttl ttl' : N) (now now' : Z) (s : aset) : aset :=
  {| a_until := now' + 1000 * Z.min (Z.of_N ttl') (Z.min (Z.of_N ttl) ((a_until s - now) / 1000)); a_chals := a_chals s |}.
