(** What a server cookie promises. *)
From Verif Require Import Base CookieModel.
Open Scope N_scope.

Definition addr_ok (a : addr) : Prop := match a with A4 ip => length ip = 4%nat | A6 ip => length ip = 16%nat end.
(** what is signed: the address, filled up to 16 bytes, and the client's cookie *)
Definition signed (a : addr) (ccookie : bytes) : bytes :=
  match a with A4 ip => ip ++ repeat 0 12 | A6 ip => ip end ++ ccookie.

(** A server rotates its keys when it starts and 2.02 s after each full hour.
    Times are in 1/100 s.  [rots]: when it rotated, up to [now]; the timer may
    be late by at most [delay]. *)
Definition HOUR : N := 360000.
Definition punctual (delay now : N) (rots : list N) : Prop :=
  rots <> [] /\ (forall r, In r rots -> r <= now) /\
  (forall k, k * HOUR + 202 + delay <= now -> exists r, In r rots /\ k * HOUR + 202 <= r).
(** the latest rotation *)
Definition latest (rots : list N) : N := fold_right N.max 0 rots.
