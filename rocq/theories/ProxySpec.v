(** What a PROXY header is: the text form and the binary form. *)
From Verif Require Import Base ProxyModel.

(** a field of the text form *)
Definition field (f : bytes) : Prop := ~ In 0%N f /\ ~ In 13%N f /\ ~ In 32%N f.

Section Spec.
  Variable getaddrinfo : bytes -> bytes -> option peer.
  (** [header sa h sa']: [h] is a whole header and nothing else, and it says that the
      connection of [sa] is in truth one of [sa']. *)
  Inductive header (sa : peer) : bytes -> peer -> Prop :=
  | text_header proto src dst sport rest sa' :
      proto = TCP4_ \/ proto = TCP6_ ->
      field src -> field dst -> field sport -> ~ In 13%N rest ->
      16 <= length (PROXY_ ++ proto ++ src ++ 32%N :: dst ++ 32%N :: sport ++ 32%N :: rest) ->
      getaddrinfo src sport = Some sa' ->
      header sa ((PROXY_ ++ proto ++ src ++ 32%N :: dst ++ 32%N :: sport ++ 32%N :: rest) ++ [13; 10]%N) sa'
  | local_header fam hi lo body :
      length body = N.to_nat (get16 hi lo) ->
      header sa (v2sig ++ [32; fam; hi; lo]%N ++ body) sa
  | tcp4_header hi lo src dst sport dport more :
      length (src ++ dst ++ sport ++ dport ++ more) = N.to_nat (get16 hi lo) ->
      length src = 4 -> length dst = 4 -> length sport = 2 -> length dport = 2 ->
      header sa (v2sig ++ [33; 17; hi; lo]%N ++ src ++ dst ++ sport ++ dport ++ more) (Inet src sport)
  | tcp6_header hi lo src dst sport dport more :
      length (src ++ dst ++ sport ++ dport ++ more) = N.to_nat (get16 hi lo) ->
      length src = 16 -> length dst = 16 -> length sport = 2 -> length dport = 2 ->
      header sa (v2sig ++ [33; 33; hi; lo]%N ++ src ++ dst ++ sport ++ dport ++ more) (Inet6 src sport).
End Spec.
(** no line of text in [b] is too long: the first CR, if any, is within 106 bytes *)
Definition short_line (b : bytes) : Prop := forall l t, b = l ++ 13%N :: t -> ~ In 13%N l -> length l <= 106.
