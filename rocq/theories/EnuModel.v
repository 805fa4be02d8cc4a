(** Model of UVPSpec.get_ENU_bl_vecs (uvpspec.py:1723-1741): rotation of the stored baseline vectors to the local frame of the array.
    pyuvdata's LatLonAlt_from_XYZ and XYZ_from_LatLonAlt are parameters of the model, of which the theorems assume that the second inverts the first
    at the telescope; its check that positions are near the surface of the Earth is not modelled. *)
From Coq Require Import Reals.
From Verif Require Import Prelude GeomModel.
Open Scope R_scope.

(** sum of vectors, [self.bl_vecs + self.telescope_location]; uvpspec.py:1737 *)
Definition vadd (a b : vec) : vec := mkvec (vx a + vx b) (vy a + vy b) (vz a + vz b).
(** the rotation of pyuvdata's ENU_from_ECEF, called at uvpspec.py:1736-1741 *)
Definition enu_rotation (lat lon : R) (v : vec) : vec :=
  mkvec (- sin lon * vx v + cos lon * vy v)
        (- sin lat * cos lon * vx v - sin lat * sin lon * vy v + cos lat * vz v)
        (cos lat * cos lon * vx v + cos lat * sin lon * vy v + sin lat * vz v).
Section Enu.
(** pyuvdata.utils.LatLonAlt_from_XYZ and its inverse; uvpspec.py:1733-1741 *)
Context (lla : vec -> R * R * R) (xyz : R * R * R -> vec).
(** ENU_from_ECEF: positions relative to the centre, rotated; uvpspec.py:1736-1741 *)
Definition enu_from_ecef (center : R * R * R) (v : vec) : vec :=
  let '(lat, lon, alt) := center in enu_rotation lat lon (vsub v (xyz (lat, lon, alt))).
(** uvpspec.py:1723-1741 *)
Definition enu_bl_vecs (location : vec) (bl_vecs : list vec) : list vec := map (fun v => enu_from_ecef (lla location) (vadd v location)) bl_vecs.
End Enu.
