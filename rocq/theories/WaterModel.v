(** Model of [plot_uvdata_waterfalls] (plot.py:1333-1425): which pictures are saved under which names. A UVData object is its list of antenna
    pairs and polarizations with, for each, its data, flags and nsamples; [basename.format(bl=..., pol=...)] is any function of the two texts.
    A picture is what [uvtools.plot.waterfall] is given, whose drawing is not modelled; [colour_range] is how it reads [mx] and [drng]. *)
From Coq Require Import Reals String Ascii ZArith.
From Verif Require Import Prelude PyStr PlotModel.
Open Scope nat_scope.

Section Water.
(** arrays, and what else uvtools is given (mode, recenter, keywords) *)
Context {A K : Type}.
(** a key of the object and its arrays; plot.py:1402-1412 *)
Record wkey := mkwkey { w_ant1 : Z; w_ant2 : Z; w_pol : pystr }.
(** plot.py:1402-1412 *)
Record warrays := mkwarr { w_data : A; w_flags : A; w_nsamples : A }.
(** the arguments of uvtools.plot.waterfall; plot.py:1415-1417 *)
Record picture := mkpic { pic_data : A; pic_mx : option R; pic_drng : option R; pic_other : K }.
(** plot.py:1386-1388, 1404-1412 *)
Definition choose_array (which : string) : option (warrays -> A) :=
  (if String.eqb which "data" then Some w_data
   else if String.eqb which "flags" then Some w_flags
   else if String.eqb which "nsamples" then Some w_nsamples else None)%string.
(** [drng]; plot.py:1391-1394 *)
Definition colour_drng (vmin vmax : option R) : result (option R) :=
  match vmin, vmax with
  | None, _ => Ok None
  | Some lo, Some hi => Ok (Some (hi - lo)%R)
  | Some _, None => Err AssertionError
  end.
(** plot.py:1420-1424; format=None leaves the name as it is *)
Definition file_name (name : pystr -> pystr -> pystr) (format : option pystr) (k : wkey) : result pystr :=
  let out := name (bl_id (w_ant1 k) (w_ant2 k)) (w_pol k) in match format with None => Ok out | Some f => with_format out f end.
(** the loop: the files saved, in order, and the error that ends it, if any; plot.py:1400-1427 *)
Fixpoint save_all (name : pystr -> pystr -> pystr) (format : option pystr) (pic : warrays -> picture) (uvd : list (wkey * warrays)) : list (pystr * picture) * option pyerr :=
  match uvd with
  | [] => ([], None)
  | (k, a) :: uvd' =>
      match file_name name format k with
      | Err e => ([], Some e)
      | Ok n => let (l, e) := save_all name format pic uvd' in ((n, pic a) :: l, e)
      end
  end.
(** plot.py:1384-1427 *)
Definition waterfalls (is_uvdata : bool) (which : string) (vmin vmax : option R) (other : K) (name : pystr -> pystr -> pystr) (format : option pystr)
    (uvd : list (wkey * warrays)) : list (pystr * picture) * option pyerr :=
  if is_uvdata then
    match choose_array which with
    | None => ([], Some AssertionError)
    | Some arr =>
        match colour_drng vmin vmax with
        | Err e => ([], Some e)
        | Ok d => save_all name format (fun a => mkpic (arr a) vmax d other) uvd
        end
    end
  else ([], Some AssertionError).
(** what is in a file afterwards: what was saved last, else what was there; plot.py:1426 *)
Fixpoint on_disk (before : pystr -> option picture) (saved : list (pystr * picture)) (n : pystr) : option picture :=
  match saved with [] => before n | (m, p) :: l => on_disk (fun x => if str_eqb x m then Some p else before x) l n end.
End Water.
Arguments mkwarr {A} _ _ _. Arguments w_data {A} _. Arguments w_flags {A} _. Arguments w_nsamples {A} _. Arguments warrays A : clear implicits.
Arguments mkpic {A K} _ _ _ _. Arguments pic_data {A K} _. Arguments pic_mx {A K} _. Arguments pic_drng {A K} _. Arguments pic_other {A K} _. Arguments picture A K : clear implicits.
(** uvtools.plot.waterfall (not in the repository): colours run up to [mx], or the largest value, and down from there by [drng], or to the smallest
    value; plot.py:1415-1417 *)
Definition colour_range {A K} (lo hi : A -> R) (p : picture A K) : R * R :=
  let top := match pic_mx p with Some m => m | None => hi (pic_data p) end in
  let rng := match pic_drng p with Some d => d | None => top - lo (pic_data p) end%R in
  ((top - rng)%R, top).
