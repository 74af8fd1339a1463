(** What users of a state file are told (docs/gdnsd-plugin-extfile.podin), independent of the code. *)
From Verif Require Import Base MonModel MonSpec FileModel.

(** every entry is a legal state; a TTL left out is [ttl] *)
Definition file_fine (ttl : N) (es : list (bytes * aval)) : Prop :=
  forall k v, In (k, v) es -> exists s d t, v = ASimple s /\ sttl_text ttl s d t.

(** [says ttl es def name w]: the file gives the resource [name] the state [w] *)
Inductive says (es : list (bytes * aval)) (def : N) (name : bytes) : N -> Prop :=
| says_entry s d t : In (name, ASimple s) es -> sttl_text (w_ttl def) s d t -> says es def name (word d false t)
| says_default : ~ In name (map fst es) -> says es def name def.

(** what the monitoring core is told about one resource *)
Definition told (direct : bool) (m : fmon) (w : N) : op :=
  if direct then OSttl (f_idx m) w else OProbe (f_idx m) (negb (w_down w)).

(** a default state: no forced flag *)
Definition plain (w : N) : Prop := w_legal w /\ w_forced w = false.
