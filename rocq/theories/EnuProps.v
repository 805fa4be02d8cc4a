(** The local frame of baseline vectors (C369, C370). *)
From Coq Require Import Reals Lra.
From Verif Require Import Prelude UvpModel GeomModel GetModel GetProps EnuModel.
Open Scope R_scope.

(** directions at latitude and longitude: east, north and the vertical *)
Definition east (lat lon : R) : vec := mkvec (- sin lon) (cos lon) 0.
Definition north (lat lon : R) : vec := mkvec (- (sin lat * cos lon)) (- (sin lat * sin lon)) (cos lat).
Definition up (lat lon : R) : vec := mkvec (cos lat * cos lon) (cos lat * sin lon) (sin lat).
Definition dot (a b : vec) : R := vx a * vx b + vy a * vy b + vz a * vz b.
Definition vscale (c : R) (a : vec) : vec := mkvec (c * vx a) (c * vy a) (c * vz a).

Lemma vec_eq a b : vx a = vx b -> vy a = vy b -> vz a = vz b -> a = b.
Proof. destruct a, b; cbn; congruence. Qed.
Lemma sc2 x : sin x * sin x = 1 - cos x * cos x.
Proof. pose proof (sin2_cos2 x) as H. unfold Rsqr in H. lra. Qed.

(** the three directions are an orthonormal basis *)
Lemma frame_orthonormal lat lon :
  dot (east lat lon) (east lat lon) = 1 /\ dot (north lat lon) (north lat lon) = 1 /\ dot (up lat lon) (up lat lon) = 1 /\
  dot (east lat lon) (north lat lon) = 0 /\ dot (east lat lon) (up lat lon) = 0 /\ dot (north lat lon) (up lat lon) = 0.
Proof.
  pose proof (sc2 lat) as H1. pose proof (sc2 lon) as H2. unfold dot, east, north, up; cbn.
  repeat split; try ring.
  - transitivity (sin lon * sin lon + cos lon * cos lon); [ring | rewrite H2; ring].
  - transitivity (sin lat * sin lat * (cos lon * cos lon + sin lon * sin lon) + cos lat * cos lat); [ring | rewrite H2, H1; ring].
  - transitivity (cos lat * cos lat * (cos lon * cos lon + sin lon * sin lon) + sin lat * sin lat); [ring | rewrite H2, H1; ring].
  - transitivity (sin lat * cos lat * (1 - (cos lon * cos lon + sin lon * sin lon))); [ring | rewrite H2; ring].
Qed.

Section P.
Context (lla : vec -> R * R * R) (xyz : R * R * R -> vec).

(** Every vector of get_ENU_bl_vecs is, in the place of the baseline, its components to the east, to the north and upwards at the telescope. *)
Theorem enu_components location bl_vecs lat lon alt : lla location = (lat, lon, alt) -> xyz (lat, lon, alt) = location ->
  enu_bl_vecs lla xyz location bl_vecs = map (fun v => mkvec (dot (east lat lon) v) (dot (north lat lon) v) (dot (up lat lon) v)) bl_vecs.
Proof.
  intros Hl Hx. unfold enu_bl_vecs. apply map_ext. intros v. unfold enu_from_ecef. rewrite Hl, Hx.
  apply vec_eq; unfold enu_rotation, dot, east, north, up, vsub, vadd; cbn; ring.
Qed.
(** Lengths and angles between baselines are those of the stored vectors; a baseline to the east lies along the first axis, one to the north
    along the second, one upwards along the third. *)
Theorem enu_isometry lat lon v w :
  dot (enu_rotation lat lon v) (enu_rotation lat lon w) = dot v w /\ norm (enu_rotation lat lon v) = norm v.
Proof.
  assert (H : forall v w, dot (enu_rotation lat lon v) (enu_rotation lat lon w) = dot v w).
  { clear. intros v w. pose proof (sc2 lat) as H1. pose proof (sc2 lon) as H2. destruct v as [a b c], w as [d e f]. unfold dot, enu_rotation; cbn.
    transitivity (a * d * (sin lon * sin lon + (sin lat * sin lat + cos lat * cos lat) * (cos lon * cos lon)) +
                  b * e * (cos lon * cos lon + (sin lat * sin lat + cos lat * cos lat) * (sin lon * sin lon)) +
                  (a * e + b * d) * (sin lon * cos lon * ((sin lat * sin lat + cos lat * cos lat) - 1)) +
                  c * f * (cos lat * cos lat + sin lat * sin lat)); [ring|]. rewrite H1, H2. ring. }
  split; [apply H|]. specialize (H v v). unfold dot in H. unfold norm. f_equal. lra.
Qed.
Theorem enu_axes lat lon c :
  enu_rotation lat lon (vscale c (east lat lon)) = mkvec c 0 0 /\ enu_rotation lat lon (vscale c (north lat lon)) = mkvec 0 c 0 /\
  enu_rotation lat lon (vscale c (up lat lon)) = mkvec 0 0 c.
Proof.
  destruct (frame_orthonormal lat lon) as (E & N & U & EN & EU & NU).
  assert (R : forall v, enu_rotation lat lon v = mkvec (dot (east lat lon) v) (dot (north lat lon) v) (dot (up lat lon) v)).
  { intros v. apply vec_eq; unfold enu_rotation, dot, east, north, up; cbn; ring. }
  assert (S : forall a b, dot a (vscale c b) = c * dot a b) by (intros; unfold dot, vscale; cbn; ring).
  assert (Y : forall a b, dot a b = dot b a) by (intros; unfold dot; ring).
  rewrite !R, !S, E, N, U, EN, EU, NU, (Y (north lat lon) (east lat lon)), (Y (up lat lon) (east lat lon)), (Y (up lat lon) (north lat lon)), EN, EU, NU.
  repeat split; apply vec_eq; cbn [vx vy vz]; ring.
Qed.
(** Equal baselines have equal vectors and different ones different vectors (so redundancy can be read off either), the reversed baseline has the
    opposite vector, and baselines add up. *)
Theorem enu_linear lat lon v w :
  (enu_rotation lat lon v = enu_rotation lat lon w <-> v = w) /\ enu_rotation lat lon (vneg v) = vneg (enu_rotation lat lon v) /\
  enu_rotation lat lon (vadd v w) = vadd (enu_rotation lat lon v) (enu_rotation lat lon w).
Proof.
  split; [|split; apply vec_eq; unfold enu_rotation, vneg, vadd; cbn; ring].
  split; [|now intros ->]. intros H.
  assert (D : dot (vsub v w) (vsub v w) = 0).
  { rewrite <- (proj1 (enu_isometry lat lon (vsub v w) (vsub v w))).
    assert (E : enu_rotation lat lon (vsub v w) = vsub (enu_rotation lat lon v) (enu_rotation lat lon w)) by (apply vec_eq; unfold enu_rotation, vsub; cbn; ring).
    rewrite E, H. unfold dot, vsub; cbn. ring. }
  unfold dot, vsub in D; cbn in D. destruct v as [a b c], w as [d e f]; cbn in D.
  assert (A : forall x y z, x * x + y * y + z * z = 0 -> x = 0 /\ y = 0 /\ z = 0).
  { intros x y z S. pose proof (Rle_0_sqr x). pose proof (Rle_0_sqr y). pose proof (Rle_0_sqr z). unfold Rsqr in *.
    repeat split; apply Rsqr_0_uniq; unfold Rsqr; lra. }
  destruct (A _ _ _ D) as (X & Y & Z). f_equal; lra.
Qed.

(** ** C370: separations *)
(** The separations of the baseline-pairs (get_blpair_seps) are, row by row, the mean of the lengths of the two stored vectors: they do not depend on
    the location of the telescope. *)
Theorem seps_from_stored_vectors location lat lon alt bls vecs ba out :
  lla location = (lat, lon, alt) -> xyz (lat, lon, alt) = location -> NoDup bls ->
  blpair_seps (fun v => enu_from_ecef xyz (lla location) (vadd v location)) bls vecs ba = Ok out ->
  List.length out = List.length ba /\ forall r b, nth_error ba r = Some b ->
    exists i j v w, nth_error bls i = Some (b / 1000000)%Z /\ nth_error bls j = Some (b mod 1000000)%Z /\ nth_error vecs i = Some v /\ nth_error vecs j = Some w /\
      nth_error out r = Some (Some ((norm v + norm w) / 2)).
Proof.
  intros Hl Hx Nd H. refine (blpair_seps_spec _ bls vecs ba out Nd _ H).
  intros v. unfold enu_from_ecef. rewrite Hl, Hx.
  replace (vsub (vadd v location) location) with v by (apply vec_eq; unfold vsub, vadd; cbn; ring). exact (proj2 (enu_isometry lat lon v v)).
Qed.
(** The east-west and north-south part of a baseline is never longer than the baseline, and as long exactly if it is horizontal. *)
Theorem horizontal_length lat lon v : let w := enu_rotation lat lon v in
  sqrt (vx w ^ 2 + vy w ^ 2) <= norm v /\ (sqrt (vx w ^ 2 + vy w ^ 2) = norm v <-> dot (up lat lon) v = 0).
Proof.
  cbn zeta. rewrite <- (proj2 (enu_isometry lat lon v v)). unfold norm.
  assert (E : vz (enu_rotation lat lon v) = dot (up lat lon) v) by (unfold enu_rotation, dot, up; cbn; ring).
  rewrite <- E. generalize (enu_rotation lat lon v) as w. intros [x y z]; cbn [vx vy vz].
  pose proof (pow2_ge_0 x). pose proof (pow2_ge_0 y). pose proof (pow2_ge_0 z).
  split; [apply sqrt_le_1; lra|]. split.
  - intros S. apply sqrt_inj in S; try lra. assert (Z : z ^ 2 = 0) by lra. apply Rsqr_0_uniq. unfold Rsqr. lra.
  - intros ->. f_equal. ring.
Qed.
End P.

(** at the north pole of a sphere of radius 1 the vertical is the axis *)
Definition ex_lla (v : vec) : R * R * R := (PI / 2, 0, vz v - 1).
Definition ex_xyz (c : R * R * R) : vec := let '(_, _, alt) := c in mkvec 0 0 (alt + 1).
Example ex_enu : enu_bl_vecs ex_lla ex_xyz (mkvec 0 0 7) [mkvec 3 4 5] = [mkvec 4 (-3) 5] /\ ex_xyz (ex_lla (mkvec 0 0 7)) = mkvec 0 0 7.
Proof.
  unfold enu_bl_vecs, ex_lla, ex_xyz, enu_from_ecef, enu_rotation, vsub, vadd; cbn [map vx vy vz].
  rewrite sin_0, cos_0, cos_PI2, sin_PI2. split; [f_equal|]; apply vec_eq; cbn; ring.
Qed.
