(** Model of the counters of rows when a file is read (uvpspec.py:1796-1902, uvpspec_utils.py:622-692), for files of the present format (Nbltpairs) and of
    the one before (Nblpairts). Everything else that is read is that of H5Model.v. Of the rows only the baseline-pair and the times are kept; a
    selection is given by the rows that its parts match (their forms, and their errors, are those of SelModel.v); the masks are taken to have as many
    entries as there are rows, also if Nbltpairs of the file says otherwise. The check at the end looks at types only (CheckModel.v) and is left out. *)
From Coq Require Import Reals.
From Verif Require Import Prelude.
Open Scope nat_scope.

(** a row; uvpspec_utils.py:682-688 *)
Record frow := mkfrow { f_blp : Z; f_t1 : R; f_t2 : R; f_tavg : R }.
(** the attributes of a file; a file of the old format has [f_old]; uvpspec.py:1799-1806 *)
Record ffile := mkffile { f_rows : list frow; f_new : option nat; f_old : option nat; f_tpairs : nat; f_times : nat }.
(** the attributes of an object, None if there is none; uvpspec.py:1799-1889 *)
Record fobj := mkfobj { o_rows : list frow; o_Nbltpairs : option nat; o_Nblpairts : option nat; o_Ntpairs : option nat; o_Ntimes : option nat }.
(** the rows that [bls], [blpairs], and [times] or [lsts] match, None if not given; uvpspec_utils.py:622-664 *)
Record fsel := mkfsel { s_bls : option (frow -> bool); s_blpairs : option (frow -> bool); s_times : option (frow -> bool) }.

(** uvpspec_utils.py:622-664 *)
Definition keeps (s : fsel) (r : frow) : bool :=
  (match s_bls s, s_blpairs s with
   | None, None => true
   | Some b, None => b r
   | None, Some p => p r
   | Some b, Some p => b r || p r
   end && match s_times s with None => true | Some t => t r end)%bool.
(** a mask is made from [uvp.Nbltpairs]; uvpspec_utils.py:631-632, 648-649, 657-658 *)
Definition needs_count (s : fsel) : bool :=
  match s_bls s with Some _ => false | None => match s_blpairs s, s_times s with None, None => false | _, _ => true end end.
(** uvpspec_utils.py:666-667 *)
Definition no_rows_asked (s : fsel) : bool := match s_bls s, s_blpairs s, s_times s with None, None, None => true | _, _, _ => false end.
(** [len(np.unique(x))], [len(set(x))]; uvpspec_utils.py:689, uvpspec.py:1875-1877 *)
Definition pair_dec (a b : R * R) : {a = b} + {a <> b}.
Proof. destruct a as [a1 a2], b as [b1 b2]. destruct (Req_EM_T a1 b1) as [->|N]; [destruct (Req_EM_T a2 b2) as [->|N]; [left; reflexivity|]|]; right; congruence. Defined.
(** uvpspec_utils.py:689 *)
Definition count_times (rows : list frow) : nat := List.length (nodup Req_EM_T (map f_tavg rows)).
(** uvpspec.py:1875-1877 *)
Definition count_pairs (rows : list frow) : nat := List.length (nodup pair_dec (map (fun r => (f_t1 r, f_t2 r)) rows)).

(** [_clear] leaves Nblpairts, which is no parameter, and then the attributes of the file are set; uvpspec.py:1797-1806, 2431-2437 *)
Definition load (o : fobj) (f : ffile) : fobj :=
  mkfobj (f_rows f) (f_new f) (match f_old f with Some n => Some n | None => o_Nblpairts o end) (Some (f_tpairs f)) (Some (f_times f)).
(** uvpspec_utils.py:622-692 *)
Definition select_rows (s : fsel) (o : fobj) : result fobj :=
  if no_rows_asked s then Ok o
  else if (needs_count s && match o_Nbltpairs o with None => true | Some _ => false end)%bool then Err AttributeError
  else match filter (keeps s) (o_rows o) with
       | [] => Err AssertionError
       | rows => Ok (mkfobj rows (Some (List.length rows)) (o_Nblpairts o) (Some (count_times rows)) (Some (count_times rows)))
       end.
(** uvpspec.py:1863-1889 *)
Definition convert_old (o : fobj) : fobj :=
  match o_Nblpairts o with
  | None => o
  | Some n => mkfobj (o_rows o) (Some n) None (Some (count_pairs (o_rows o))) (Some (count_pairs (o_rows o)))
  end.
(** [read_from_group] into the object [o]: what the object is afterwards, and the error; uvpspec.py:1796-1902 *)
Definition read_file (o : fobj) (f : ffile) (s : fsel) : fobj * option pyerr :=
  match select_rows s (load o f) with
  | Ok o' => (convert_old o', None)
  | Err e => (load o f, Some e)
  end.
