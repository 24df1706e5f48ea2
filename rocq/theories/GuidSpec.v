(** The way of a neutron in a guide, independent of the model's functions except for the reflectivity. *)
From Coq Require Import Reals.
From Verif Require Import Base RotModel ChanModel OptModel OptSpec GuidModel.
Open Scope R_scope.

(** half the width and height of the guide at z *)
Definition half_width (G : guide) (z : R) : R := g_w1 G / 2 + (g_w2 G - g_w1 G) / 2 * z / g_l G.
Definition half_height (G : guide) (z : R) : R := g_h1 G / 2 + (g_h2 G - g_h1 G) / 2 * z / g_l G.
Definition within (G : guide) (x y z : R) : Prop := Rabs x <= half_width G z /\ Rabs y <= half_height G z.
(** the place of a neutron after a flight of the time s *)
Definition place_within (G : guide) (r : ray) (s : R) : Prop :=
  within G (vx (r_pos r) + vx (r_vel r) * s) (vy (r_pos r) + vy (r_vel r) * s) (vz (r_pos r) + vz (r_vel r) * s).
(** points on the mirrors *)
Definition on_mirror (G : guide) (k : mirror) (x y z : R) : Prop :=
  match k with
  | MLeft => x = - half_width G z
  | MRight => x = half_width G z
  | MLower => y = - half_height G z
  | MUpper => y = half_height G z
  end.
(** two directions in the plane of a mirror: from entrance to exit, and across *)
Definition along (G : guide) (k : mirror) : vec3 :=
  match k with
  | MLeft => mkV (- (g_w2 G - g_w1 G) / 2) 0 (g_l G)
  | MRight => mkV ((g_w2 G - g_w1 G) / 2) 0 (g_l G)
  | MLower => mkV 0 (- (g_h2 G - g_h1 G) / 2) (g_l G)
  | MUpper => mkV 0 ((g_h2 G - g_h1 G) / 2) (g_l G)
  end.
Definition across (k : mirror) : vec3 := match k with MLeft | MRight => mkV 0 1 0 | MLower | MUpper => mkV 1 0 0 end.
Definition dot (a b : vec3) : R := vx a * vx b + vy a * vy b + vz a * vz b.
Definition change (v v' : vec3) : vec3 := mkV (vx v' - vx v) (vy v' - vy v) (vz v' - vz v).
(** v' is v after a reflection from the mirror: the change is not zero and normal to the mirror, the speed is the same *)
Definition mirrored (G : guide) (k : mirror) (v v' : vec3) : Prop :=
  v' <> v /\ dot (change v v') (along G k) = 0 /\ dot (change v v') (across k) = 0 /\ dot v' v' = dot v v.
(** r2 is r after a flight of the time s within the guide, not to its end, and a reflection with the momentum transfer q; the weight is not changed *)
Definition bounce (G : guide) (r : ray) (q : R) (r2 : ray) : Prop :=
  exists s k r1, 0 <= s /\ vz (r_pos r) + vz (r_vel r) * s < g_l G /\ (forall u, 0 <= u <= s -> place_within G r u) /\
    flown weightless r s r1 /\ on_mirror G k (vx (r_pos r1)) (vy (r_pos r1)) (vz (r_pos r1)) /\ mirrored G k (r_vel r1) (r_vel r2) /\
    q = 158801 / 100000000 * sqrt (dot (change (r_vel r1) (r_vel r2)) (change (r_vel r1) (r_vel r2))) /\
    r_pos r2 = r_pos r1 /\ r_t r2 = r_t r1 /\ r_s1 r2 = r_s1 r1 /\ r_s2 r2 = r_s2 r1 /\ r_p r2 = r_p r1.
(** the straight line ahead of a neutron stays within the guide up to its end *)
Definition free (G : guide) (r : ray) : Prop := forall u, 0 <= u -> vz (r_pos r) + vz (r_vel r) * u <= g_l G -> place_within G r u.
(** a journey: bounces, each with its factor for the weight, to a last part that is free or goes back, or to an absorption *)
Inductive journey (G : guide) : ray -> ray -> Prop :=
| j_free r : 0 <= vz (r_vel r) -> free G r -> journey G r r
| j_back r : vz (r_vel r) < 0 -> journey G r r
| j_lost r q r2 : 0 <= vz (r_vel r) -> bounce G r q r2 -> reflectivity G q = None -> journey G r (mkRay (r_pos r2) (r_vel r2) (r_t r2) (r_s1 r2) (r_s2 r2) (-1))
| j_bounce r q r2 f r' : 0 <= vz (r_vel r) -> bounce G r q r2 -> reflectivity G q = Some f ->
    journey G (mkRay (r_pos r2) (r_vel r2) (r_t r2) (r_s1 r2) (r_s2 r2) (r_p r2 * f)) r' -> journey G r r'.
