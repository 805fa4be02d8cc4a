(** Model of plot.delay_spectrum (plot.py:159-548) from the object that is plotted to the artists that are drawn: averaging,
    the series, blanked integrations, error bars, lines and markers on either scale, and explicit labels. The titles and
    labels of label_type="auto" are those of PlotModel.v.
    An object is what one window and polarization pair of it holds. Not modelled: colours, fonts, axis labels (PlotModel.v),
    folding and the conversion to Delta^2 (FoldModel.v, CosmoModel.v), and the figure itself; [None] is nan; statistics are
    finite. *)
From Coq Require Import String Reals Lra.
From Verif Require Import Prelude CNum.
Open Scope nat_scope.
Open Scope R_scope.

(** one integration of a baseline-pair: time, LST, integration time and spectrum; plot.py:376-400 *)
Record prow := mkprow { r_time : R; r_lst : R; r_int : R; r_val : list C }.
(** one window and polarization pair of a UVPSpec object: its baseline-pairs, and its statistics, if it has a [stats_array]; plot.py:373-396 *)
Record pobj := mkpobj { p_rows : Z -> option (list prow); p_stats : option (list (string * (Z -> list (list C)))) }.

(** plot.py:366-371; with any other component [cast] has no value: an UnboundLocalError when it is called *)
Definition cast_of (component : string) : option (C -> R) :=
  if String.eqb component "real" then Some re else if String.eqb component "imag" then Some im else if String.eqb component "abs" then Some (fun z => sqrt (Cabs2 z)) else None.
(** [np.isclose(integration, 0.0)]: atol 1e-8; plot.py:380 *)
Definition no_data (i : R) : bool := if Rle_dec (Rabs i) (/ 10 ^ 8) then true else false.
(** [data[flags] = np.nan], one integration; plot.py:380-381, 387-388 *)
Definition blank (flag : bool) (l : list R) : list (option R) := map (fun x => if flag then None else Some x) l.

(** [errs[flags] = np.nan] is done before the cast and on complex numbers: nan + 0j, whose imaginary part is 0; plot.py:388, 411 *)
Definition blank_errs (component : string) (flag : bool) (l : list R) : list (option R) :=
  map (fun x => if flag then (if String.eqb component "imag" then Some 0 else None) else Some x) l.

(** one spectrum to draw; plot.py:402-414 *)
Record item := mkitem { i_y : list (option R); i_t : R; i_lst : R; i_group : list Z; i_errs : option (list (option R)) }.

(** [uvp_plt.stats_array[name]] for a baseline-pair; plot.py:377, 384-387 *)
Definition stat_rows (u : pobj) (name : string) (b : Z) : option (list (list C)) :=
  match p_stats u with
  | None => None
  | Some st => match find (fun e => String.eqb name (fst e)) st with Some e => Some (snd e b) | None => None end
  end.

(** the spectra of one baseline-pair; plot.py:364-414. [cast] is looked up before its argument is computed *)
Definition blp_series (component : string) (plot_stats error : option string) (u : pobj) (g : list Z) (b : Z) : result (list item) :=
  match cast_of component with
  | None => Err UnboundLocalError
  | Some cast =>
      match p_rows u b with
      | None => Err KeyError
      | Some rows =>
          bind (match plot_stats with
                | None => Ok (map r_val rows)
                | Some s => match stat_rows u s b with Some l => Ok l | None => Err KeyError end
                end) (fun vals =>
          bind (match error with
                | None => Ok None
                | Some e => match stat_rows u e b with Some l => Ok (Some l) | None => Err KeyError end
                end) (fun errs =>
          Ok (map (fun irv => let '(i, rv) := irv in let '(r, v) := rv in
                 mkitem (blank (no_data (r_int r)) (map cast v)) (r_time r) (r_lst r) g
                        (option_map (fun es => blank_errs component (no_data (r_int r)) (map cast (nth i es []))) errs))
               (combine (seq 0 (List.length rows)) (combine rows vals)))))
      end
  end.

(** the loops over groups and baseline-pairs; of an averaged group only the first baseline-pair exists; plot.py:358-419 *)
Fixpoint group_series (component : string) (plot_stats error : option string) (u : pobj) (g : list Z) (bs : list Z) : result (list item) :=
  match bs with
  | [] => Ok []
  | b :: bs' => bind (blp_series component plot_stats error u g b) (fun l => bind (group_series component plot_stats error u g bs') (fun l' => Ok (l ++ l')))
  end.
(** plot.py:358-419 *)
Definition members (avg : bool) (g : list Z) : list Z := if avg then firstn 1 g else g.
(** plot.py:355-419 *)
Fixpoint all_series (avg : bool) (component : string) (plot_stats error : option string) (u : pobj) (groups : list (list Z)) : result (list item) :=
  match groups with
  | [] => Ok []
  | g :: gs => bind (group_series component plot_stats error u g (members avg g)) (fun l => bind (all_series avg component plot_stats error u gs) (fun l' => Ok (l ++ l')))
  end.

(** -- what is drawn of one spectrum -- *)

(** a line, markers (filled or not) and error bars, each with its points and its entry in the legend; plot.py:440-513 *)
Inductive artist :=
| Line (pts : list (R * option R)) (label : option string)
| Marks (filled : bool) (pts : list (R * R)) (label : option string)
| Bars (pts : list (R * option R)) (errs : list (option R)).
(** plot.py:440-447, 505-508 *)
Definition height (logscale : bool) (y : option R) : option R := if logscale then option_map Rabs y else y.
(** [x[y >= 0], np.abs(y[y >= 0])]; a comparison with nan is False; plot.py:459-486 *)
Fixpoint select_pts (keep : R -> bool) (x : list R) (y : list (option R)) : list (R * R) :=
  match x, y with
  | a :: x', Some v :: y' => if keep v then (a, Rabs v) :: select_pts keep x' y' else select_pts keep x' y'
  | _ :: x', None :: y' => select_pts keep x' y'
  | _, _ => []
  end.
(** plot.py:460 *)
Definition nonneg (v : R) : bool := if Rle_dec 0 v then true else false.
(** plot.py:474 *)
Definition negative (v : R) : bool := if Rlt_dec v 0 then true else false.
(** points of markers on a linear scale; nan is not drawn; plot.py:487-498 *)
Fixpoint all_pts (x : list R) (y : list (option R)) : list (R * R) :=
  match x, y with
  | a :: x', Some v :: y' => (a, v) :: all_pts x' y'
  | _ :: x', None :: y' => all_pts x' y'
  | _, _ => []
  end.
(** the artists of one spectrum, in the order in which they are added; plot.py:436-513 *)
Definition draw (lines markers logscale : bool) (x : list R) (it : item) (label : option string) : list artist :=
  (if lines then [Line (combine x (map (height logscale) (i_y it))) label] else []) ++
  (if markers then
     let ml := if lines then None else label in
     if logscale then [Marks true (select_pts nonneg x (i_y it)) ml; Marks false (select_pts negative x (i_y it)) None]
     else [Marks true (all_pts x (i_y it)) ml]
   else []) ++
  (match i_errs it with Some e => [Bars (combine x (map (height logscale) (i_y it))) e] | None => [] end).

(** -- labels that are asked for -- *)

(** label_type other than "auto" (given as the texts of the metadata); plot.py:95-104, 116-125 *)
Definition manual_label (label_type : string) (key blpair blpairt : string) : result string :=
  if String.eqb label_type "key" then Ok key else if String.eqb label_type "blpair" then Ok blpair else if String.eqb label_type "blpairt" then Ok blpairt else Err ValueError.

(** the labels of the series when label_type is not "auto": none at all without [title_legend], before label_type is looked at; plot.py:117-125 *)
Fixpoint manual_labels (title_legend : bool) (label_type : string) (metas : list (string * string * string)) : result (list (option string)) :=
  match metas with
  | [] => Ok []
  | (k, b, bt) :: ms =>
      if title_legend then bind (manual_label label_type k b bt) (fun l => bind (manual_labels title_legend label_type ms) (fun ls => Ok (Some l :: ls)))
      else bind (manual_labels title_legend label_type ms) (fun ls => Ok (None :: ls))
  end.

Section Whole.
(** [average_spectra] of the baseline-pairs or times, for the data; plot.py:311-322 *)
Context (average : pobj -> option (list (list Z)) -> bool -> result pobj).
(** an average has no statistics unless [error_field] is given, which is not done here; grouping.py:352, 693-696, plot.py:313-322 *)
Definition drop_stats (u : pobj) : pobj := mkpobj (p_rows u) None.
(** the object that is plotted; plot.py:309-322 *)
Definition plotted (avg_blpairs avg_times : bool) (u : pobj) (groups : list (list Z)) : result pobj :=
  if avg_blpairs then bind (average u (Some groups) avg_times) (fun v => Ok (drop_stats v))
  else if avg_times then bind (average u None true) (fun v => Ok (drop_stats v))
  else Ok u.
(** the check of [plot_stats]: an AttributeError without statistics; plot.py:349-352 *)
Definition check_plot_stats (u : pobj) (plot_stats : option string) : result unit :=
  match plot_stats with
  | None => Ok tt
  | Some s => match p_stats u with
              | None => Err AttributeError
              | Some st => require (existsb (fun e => String.eqb s (fst e)) st) AssertionError (Ok tt)
              end
  end.
(** [delay_spectrum] up to the labels: the series; plot.py:309-419 *)
Definition spectrum_series (avg_blpairs avg_times : bool) (component : string) (plot_stats error : option string) (u : pobj) (groups : list (list Z)) : result (list item) :=
  bind (plotted avg_blpairs avg_times u groups) (fun v =>
  bind (check_plot_stats v plot_stats) (fun _ => all_series avg_blpairs component plot_stats error v groups)).
(** all artists, with one label per spectrum; plot.py:421-513 *)
Definition draw_all (lines markers logscale : bool) (x : list R) (its : list item) (labels : list (option string)) : list artist :=
  concat (map (fun il => draw lines markers logscale x (fst il) (snd il)) (combine its labels)).
End Whole.
