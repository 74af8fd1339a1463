(** [geodist] of dclists.c:171-186 over the real numbers. *)
From Coq Require Import Reals Lra Psatz.
Open Scope R_scope.

(** A point: latitude and longitude in radians.  The cosine of the datacenter's
    latitude, which the code caches, is written out. *)
Definition point := (R * R)%type.
Definition geodist_R (p q : point) : R :=
  let sin_half_dlat := sin ((fst q - fst p) * (1 / 2)) in
  let sin_half_dlon := sin ((snd q - snd p) * (1 / 2)) in
  sin_half_dlat * sin_half_dlat + cos (fst p) * cos (fst q) * sin_half_dlon * sin_half_dlon.

(** The point on the unit sphere, and the angle between two of them seen from the
    centre: their distance on the great circle. *)
Definition vec (p : point) : R * R * R := (cos (fst p) * cos (snd p), cos (fst p) * sin (snd p), sin (fst p)).
Definition dot (u v : R * R * R) : R := let '(a, b, c) := u in let '(x, y, z) := v in a * x + b * y + c * z.
Definition great_circle (p q : point) : R := acos (dot (vec p) (vec q)).

Lemma sin2_half x : sin (x * (1 / 2)) * sin (x * (1 / 2)) = (1 - cos x) / 2.
Proof. pose proof (cos_2a_sin (x * (1 / 2))) as H. replace (2 * (x * (1 / 2))) with x in H by lra. lra. Qed.
Lemma geodist_dot p q : geodist_R p q = (1 - dot (vec p) (vec q)) / 2.
Proof.
  unfold geodist_R, dot, vec. destruct p as [a b], q as [c d]; cbn [fst snd].
  rewrite sin2_half. replace (cos a * cos c * sin ((d - b) * (1 / 2)) * sin ((d - b) * (1 / 2))) with (cos a * cos c * (sin ((d - b) * (1 / 2)) * sin ((d - b) * (1 / 2)))) by ring. rewrite sin2_half.
  rewrite !cos_minus. lra.
Qed.
Lemma unit_vec p : dot (vec p) (vec p) = 1.
Proof.
  unfold dot, vec. destruct p as [a b]; cbn [fst snd]. pose proof (sin2_cos2 a) as A. pose proof (sin2_cos2 b) as B. unfold Rsqr in A, B.
  replace (cos a * cos b * (cos a * cos b) + cos a * sin b * (cos a * sin b) + sin a * sin a) with (cos a * cos a * (sin b * sin b + cos b * cos b) + sin a * sin a) by ring. rewrite B. lra.
Qed.
Lemma dot_bound p q : -1 <= dot (vec p) (vec q) <= 1.
Proof.
  pose proof (unit_vec p) as U. pose proof (unit_vec q) as V. destruct (vec p) as [[a b] c], (vec q) as [[x y] z]. unfold dot in *.
  pose proof (Rle_0_sqr (a - x)). pose proof (Rle_0_sqr (b - y)). pose proof (Rle_0_sqr (c - z)). pose proof (Rle_0_sqr (a + x)). pose proof (Rle_0_sqr (b + y)). pose proof (Rle_0_sqr (c + z)). unfold Rsqr in *. nra.
Qed.
Lemma geodist_order p q r : geodist_R p q < geodist_R p r <-> great_circle p q < great_circle p r.
Proof.
  rewrite !geodist_dot. unfold great_circle. pose proof (dot_bound p q) as B1. pose proof (dot_bound p r) as B2.
  set (x := dot (vec p) (vec q)) in *. set (y := dot (vec p) (vec r)) in *. clearbody x y.
  pose proof (acos_bound x) as A1. pose proof (acos_bound y) as A2. split; intros H.
  - apply cos_decreasing_0; try lra. rewrite !cos_acos by assumption. lra.
  - apply cos_decreasing_1 in H; try lra. rewrite !cos_acos in H by assumption. lra.
Qed.

Definition ltb_R (a b : R) : bool := if Rlt_dec a b then true else false.
Lemma ltb_R_iff a b : ltb_R a b = true <-> a < b.
Proof. unfold ltb_R. destruct (Rlt_dec a b); split; intros; try assumption; try discriminate; try reflexivity; contradiction. Qed.
Lemma ltb_R_irrefl a : ltb_R a a = false.
Proof. destruct (ltb_R a a) eqn:E; [|reflexivity]. apply ltb_R_iff in E. lra. Qed.
Lemma ltb_R_trans a b c : ltb_R a b = true -> ltb_R b c = true -> ltb_R a c = true.
Proof. rewrite !ltb_R_iff. lra. Qed.
Lemma ltb_R_weak a b c : ltb_R a c = true -> ltb_R a b = true \/ ltb_R b c = true.
Proof. rewrite !ltb_R_iff. intros H. destruct (Rlt_le_dec a b); [now left|right; lra]. Qed.
