(** States of resources from a file: src/plugins/extfile.c. *)
From Coq Require Import Permutation.
From Verif Require Import Base MonModel.

(** extf_mon_t, extfile.c:53-57; midx is the position in the array *)
Record fmon := { f_name : bytes; f_idx : nat }.
Record fsvc := { f_mons : list fmon; f_direct : bool; f_def : N }.

(** strcmp of strings without their NUL *)
Fixpoint strcmp (a b : bytes) : comparison :=
  match a, b with
  | [], [] => Eq
  | [], _ => Lt
  | _, [] => Gt
  | x :: a, y :: b => match N.compare x y with Eq => strcmp a b | c => c end
  end.
(** [moncmp], extfile.c:153-159 *)
Definition moncmp (x y : fmon) : comparison := strcmp (f_name x) (f_name y).

(** qsort with moncmp, extfile.c:321: by its contract the result is sorted and has the same
    elements.  With different names there is only one; insertion is as good as any. *)
Fixpoint insert (x : fmon) (l : list fmon) : list fmon :=
  match l with
  | [] => [x]
  | y :: t => match moncmp x y with Gt => y :: insert x t | _ => x :: l end
  end.
Fixpoint qsort (l : list fmon) : list fmon := match l with [] => [] | x :: l => insert x (qsort l) end.

(** bsearch between [lo] and [hi], as in the C library: the position found.
    The position is midx, which extfile.c:322-323 makes equal to it. *)
Fixpoint bsearch (fuel : nat) (l : list fmon) (key : bytes) (lo hi : nat) : res (option nat) :=
  match fuel with
  | 0 => UB
  | S fuel =>
      if lo <? hi then
        let mid := (lo + hi) / 2 in
        do x <- rd l mid;
        match strcmp key (f_name x) with
        | Lt => bsearch fuel l key lo mid
        | Gt => bsearch fuel l key (S mid) hi
        | Eq => Ok (Some mid)
        end
      else Ok None
  end.

(** [process_entry], extfile.c:161-187: the new results, or [None] for a bad entry *)
Definition process_entry (svc : fsvc) (key : bytes) (val : aval) (results : list N) : res (option (list N)) :=
  match val with
  | AOther => Ok None
  | ASimple s =>
      do r <- mon_parse_sttl s (N.land (f_def svc) STTL_TTL_MASK);
      match r with
      | None => Ok None
      | Some result =>
          do found <- bsearch (S (length (f_mons svc))) (f_mons svc) key 0 (length (f_mons svc));
          match found with
          | Some i => do results <- wr results i [result]; Ok (Some results)
          | None => Ok (Some results)
          end
      end
  end.
(** the loop of [process_file], extfile.c:217-226 *)
Fixpoint process_entries (svc : fsvc) (es : list (bytes * aval)) (results : list N) : res (option (list N)) :=
  match es with
  | [] => Ok (Some results)
  | (k, v) :: es =>
      do r <- process_entry svc k v results;
      match r with None => Ok None | Some results => process_entries svc es results end
  end.
(** the loop that clears the flag, extfile.c:231-237 *)
Fixpoint clear_flags (def : N) (l : list N) : res (list N) :=
  match l with
  | [] => Ok []
  | r :: l =>
      do r <- (if has r STTL_FORCED then let r := N.ldiff r STTL_FORCED in rassert (r =? def)%N (Ok r) else Ok r);
      do l <- clear_flags def l;
      Ok (r :: l)
  end.
(** [process_file], extfile.c:189-250: the updates made.  [ABroken]: no file, or not a hash. *)
Definition process_file (svc : fsvc) (f : afile) : res (list op) :=
  if length (f_mons svc) =? 0 then Ok []
  else match f with
  | ABroken => Ok []
  | AHash es =>
      do r <- process_entries svc es (repeat (N.lor (f_def svc) STTL_FORCED) (length (f_mons svc)));
      match r with
      | None => Ok []
      | Some results =>
          do results <- clear_flags (f_def svc) results;
          Ok (map (fun x => if f_direct svc then OSttl (f_idx (fst x)) (snd x) else OProbe (f_idx (fst x)) (negb (has (snd x) STTL_DOWN)))
                  (combine (f_mons svc) results))
      end
  end.
(** [plugin_extfile_init_monitors], extfile.c:311-327, for one service type *)
Definition init_svc (svc : fsvc) : fsvc := {| f_mons := qsort (f_mons svc); f_direct := f_direct svc; f_def := f_def svc |}.

(** gdnsd_downcase_str; a monitored name is stored in lower case, mon.c:536-549, and passed
    to [plugin_extfile_add_mon_cname], extfile.c:128-146 *)
Definition downcase (s : bytes) : bytes := map (fun b => if (65 <=? b)%N && (b <=? 90)%N then b + 32 else b)%N s.
Definition add_mon (name : bytes) (idx : nat) : fmon := {| f_name := downcase name; f_idx := idx |}.

(** [plugin_extfile_add_svctype], extfile.c:116-122: the default state *)
Definition def_sttl (def_ttl : option N) (def_down : bool) : N :=
  let d := match def_ttl with Some t => t | None => STTL_TTL_MAX end in
  if def_down then N.lor d STTL_DOWN else d.

(** The settling timer of direct mode: [timer_cb], [file_cb] and [start_svc], extfile.c:252-290,
    with ev_timer_again restarting the 1.02 s.  [ts] are the times, in milliseconds, at which
    ev_stat reports a change; the result is the times at which the file is read.  [tie]: whether the
    timer goes first if both are due at once, which libev does not promise. *)
Section Settle.
  Variable tie : bool.
  Fixpoint settle (timer : option Z) (ts : list Z) : list Z :=
    match ts with
    | [] => match timer with Some d => [d] | None => [] end
    | t :: ts =>
        let rest := settle (Some (t + 1020)%Z) ts in
        match timer with
        | Some d => if (d <? t)%Z || (tie && (d =? t)%Z) then d :: rest else rest
        | None => rest
        end
    end.
End Settle.
