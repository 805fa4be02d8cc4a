(** Model of the constructor of PSpecBeamUV (pspecbeam.py:438-480) with UVBeam objects as identities in a heap, since an E-field beam that is
    handed over is converted in place. pyuvdata is a parameter: reading a beamfits file, [efield_to_power] and [peak_normalize], each of which may
    fail. The integrals of the beam are those of pyuvdata (pspecbeam.py:547-596) and not modelled; [beam_normalized_response] is that of DlyModel.v. *)
From Coq Require Import Reals String.
From Verif Require Import Prelude DlyModel.
Open Scope nat_scope.

(** a path or a UVBeam object; pspecbeam.py:463-467 *)
Inductive uvbarg := BeamFile (p : string) | BeamObj (i : nat).
(** the attributes [primary_beam] (an identity), [cosmo] and [beam_freqs]; pspecbeam.py:470-477 *)
Record psbeam (C : Type) := mkpsbeam { pb_beam : nat; pb_cosmo : C; pb_freqs : list R }.
Arguments mkpsbeam {C} _ _ _. Arguments pb_beam {C} _. Arguments pb_cosmo {C} _. Arguments pb_freqs {C} _.

(** the UVBeam objects there are; a new one goes at the end; pspecbeam.py:463-467 *)
Definition beams (D : Type) := list D.
(** an object is changed in place; pspecbeam.py:477-480 *)
Fixpoint replace {D} (h : beams D) (i : nat) (d : D) : beams D :=
  match h, i with
  | [], _ => []
  | _ :: h', O => d :: h'
  | x :: h', S i' => x :: replace h' i' d
  end.

Section BeamObj.
(** a UVBeam's content, its frequencies, and whether [beam_type] is "efield" *)
Context {D C : Type} (freqs : D -> list R) (efield : D -> bool).
(** UVBeam.read_beamfits, efield_to_power, peak_normalize, and Cosmo_Conversions() *)
Context (read : string -> result D) (to_power normalize : D -> result D) (default : C).

(** what is left of the heap, and the object or the error; pspecbeam.py:462-480 *)
Definition beam_uv (h : beams D) (arg : uvbarg) (cosmo : option C) : beams D * result (psbeam C) :=
  match (match arg with
         | BeamFile p => match read p with Ok d => (h ++ [d], Ok (List.length h)) | Err e => (h, Err e) end
         | BeamObj i => (h, Ok i)
         end) with
  | (h, Err e) => (h, Err e)
  | (h, Ok i) =>
      match nth_error h i with
      | None => (h, Err NameError)
      | Some d =>
          let c := match cosmo with Some c => c | None => default end in
          if efield d then
            match to_power d with
            | Err e => (h, Err e)
            | Ok d1 =>
                let h := replace h i d1 in
                match normalize d1 with
                | Err e => (h, Err e)
                | Ok d2 => (replace h i d2, Ok (mkpsbeam i c (freqs d)))
                end
            end
          else (h, Ok (mkpsbeam i c (freqs d)))
      end
  end.
End BeamObj.
