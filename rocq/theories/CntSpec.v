(** What the counters of the DNS layer should say, in terms of requests and responses.  Uses the responses of MsgSpec.v. *)
From Verif Require Import Base PktModel PktSpec MsgSpec CntModel.
Local Open Scope N_scope.

Definition counter_eq (a b : counter) : {a = b} + {a <> b}.
Proof. decide equality. Defined.
(** how often a counter is incremented *)
Definition times (c : counter) (cs : list counter) : nat := count_occ counter_eq cs c.
(** The seven whose sum the header file calls the count of requests, src/dnspacket.h:62-66 *)
Definition total (cs : list counter) : nat :=
  times Noerror cs + times Refused cs + times Nxdomain cs + times Notimp cs + times Badvers cs + times Formerr cs + times Dropped cs.
(** The counter of a response, by its code, with the upper bits from the OPT record *)
Definition outcome (m : rsp) : counter :=
  match m_opt m with
  | Some o => if 16777216 <=? o_ext o then Badvers else
      match m_rcode m with 0 => Noerror | 1 => Formerr | 3 => Nxdomain | 4 => Notimp | _ => Refused end
  | None => match m_rcode m with 0 => Noerror | 1 => Formerr | 3 => Nxdomain | 4 => Notimp | _ => Refused end
  end.
Definition bit (b : bool) : nat := if b then 1 else 0.
Definition some {A} (o : option A) : bool := match o with Some _ => true | None => false end.
(** the DO bit and the cookies of a response *)
Definition has_do (m : rsp) : bool := match m_opt m with Some o => N.testbit (o_ext o) 15 | None => false end.
Definition cookies (m : rsp) : nat := match m_opt m with Some o => length (filter (fun o => fst o =? 10) (o_opts o)) | None => 0 end.
Definition cookie_counts (cs : list counter) : nat := times CookieFormerr cs + times CookieOk cs + times CookieInit cs + times CookieBad cs.
(** the counter for a cookie option with the data [d] *)
Definition cookie_counter (ckp : bytes -> bool * bytes) (d : bytes) : counter :=
  if Nat.eqb (length d) 8 || (Nat.leb 16 (length d) && Nat.leb (length d) 40)
  then if fst (ckp d) then CookieOk else if Nat.eqb (length d) 8 then CookieInit else CookieBad
  else CookieFormerr.
(** An option that is no reason to refuse the request *)
Definition harmless (cfg : pcfg) (dso : bool) (o : N * list N) : Prop :=
  (fst o = 8 -> c_ecs cfg = true -> ecs_ok (snd o)) /\ (fst o = 3 -> snd o = []) /\ (fst o = 11 -> c_is_udp cfg = true \/ dso = false).
(** An option that the request may carry: harmless, and of a possible length if it is a cookie *)
Definition well (cfg : pcfg) (dso : bool) (o : N * list N) : Prop :=
  harmless cfg dso o /\ (fst o = 10 -> c_disable_cookies cfg = true \/ (length (snd o) = 8 \/ 16 <= length (snd o) <= 40)%nat).
