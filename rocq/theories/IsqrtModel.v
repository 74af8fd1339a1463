(** Model of [sqrt_sizet], src/dnsio_tcp.c:94-127 (64-bit [size_t]). *)
From Verif Require Import Base.
Local Open Scope N_scope.

(** src/dnsio_tcp.c:107-112: count value bits; at most 64 iterations for a
    64-bit input. *)
Fixpoint valbits (fuel : nat) (shiftme acc : N) : option N :=
  if shiftme =? 0 then Some acc
  else match fuel with
       | O => None
       | S f => valbits f (N.shiftr shiftme 1) (acc + 1)
       end.

(** src/dnsio_tcp.c:115-117: starting point. *)
Definition sqrt_start (vb : N) : N :=
  let answer := N.shiftl 1 (N.shiftr vb 1) mod two64 in
  if N.testbit vb 0 then (answer + N.shiftr answer 1) mod two64 else answer.

(** src/dnsio_tcp.c:120-124: [do { tmp = input / answer; answer = (answer +
    tmp) >> 1; } while (answer > tmp);].  A division by zero would be
    undefined behaviour; running out of fuel is [None]. *)
Fixpoint sqrt_loop (fuel : nat) (input answer : N) : option (res N) :=
  if answer =? 0 then Some UB
  else
    let tmp := input / answer in
    let answer' := N.shiftr ((answer + tmp) mod two64) 1 in
    if tmp <? answer' then
      match fuel with O => None | S f => sqrt_loop f input answer' end
    else Some (Ok answer').

(** The whole function; the [unsigned] return type truncates to 32 bits. *)
Definition sqrt_sizet (fuel : nat) (input : N) : option (res N) :=
  match valbits 64 input 0 with
  | None => None
  | Some vb =>
      match sqrt_loop fuel input (sqrt_start vb) with
      | Some (Ok a) => Some (Ok (a mod two32))
      | r => r
      end
  end.
