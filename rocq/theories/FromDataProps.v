(** uvpspec_from_data and check_key_in_dset (C371-C374). *)
From Coq Require Import String.
From Verif Require Import Prelude PyDict PyStr UtilsModel UtilsProofs SimModel SimProps ScriptModel ScriptProps AddModel FromDataModel.
Open Scope nat_scope.
Open Scope string_scope.

Lemma pair_eqb_ok a b : pair_eqb a b = true <-> a = b.
Proof. destruct a, b. unfold pair_eqb. cbn. rewrite andb_true_iff, !Z.eqb_eq. split; [intros [-> ->]; reflexivity | intros [= -> ->]; auto]. Qed.
Lemma pspec_names : NoDup (map fst pspec_sig).
Proof. cbn. repeat (constructor; [cbn; intros H; repeat (destruct H as [H|H]; [discriminate|]); exact H|]). constructor. Qed.
Lemma in_own k weight spws taper verbose ndlys rp std : In k (map fst (own_kw weight spws taper verbose ndlys rp std)) <->
  In k ["input_data_weight"; "spw_ranges"; "taper"; "verbose"; "store_cov"; "n_dlys"; "r_params"; "cov_model"].
Proof. reflexivity. Qed.
Lemma dget_app {V} (l m : list (string * V)) k : dget string_dec (l ++ m)%list k = match dget string_dec l k with Some v => Some v | None => dget string_dec m k end.
Proof. induction l as [|[k' v] l IH]; [reflexivity|]. cbn. destruct (string_dec k k'); [reflexivity | exact IH]. Qed.
Lemma dget_none {V} (l : list (string * V)) k : dget string_dec l k = None <-> ~ In k (map fst l).
Proof.
  induction l as [|[k' v] l IH]; cbn; [tauto|]. destruct (string_dec k k') as [->|n]; [split; [discriminate | tauto]|].
  rewrite IH. split; [intros H [E|E]; [congruence|auto] | tauto].
Qed.

Section P.
Context {U B Cosmo H C : Type} (read : string -> result U) (pols : U -> list Z)
  (load : string -> option Cosmo -> result B) (with_cosmo : B -> Cosmo -> B).
Notation from_data := (@from_data U B Cosmo C read pols load with_cosmo).

(** the object that an argument means, if it means one *)
Definition means (a : visarg U) (o : option U) : Prop :=
  match a with VPath p => exists u, read p = Ok u /\ o = Some u | VObj u => o = Some u | VElse => o = None end.
Lemma data_means a o : data_of read a = Ok o <-> means a o.
Proof.
  destruct a as [p|u|]; cbn; [|split; congruence..]. destruct (read p) as [u|e]; cbn.
  - split; [intros [= <-]; eauto | intros (u' & [= <-] & ->); reflexivity].
  - split; [discriminate | intros (u' & E & _); discriminate].
Qed.

(** ** C371: what pspec is called with *)

(** A call that succeeds passes to pspec: two copies of the data as datasets (with the same error set, if one is given, and no weights), the pairs of
    baselines within the groups, the first polarization of the data with itself, the options of the caller, covariances exactly if there is an error
    set (then from it), and pspec's defaults for all else. *)
Theorem from_data_call data std groups beam cosmo weight spws taper verbose ndlys rp extra r :
  from_data data std groups beam cosmo weight spws taper verbose ndlys rp extra = Ok r ->
  exists u s p ps b1 b2, means data (Some u) /\ means std s /\ pols u = (p :: ps)%list /\ from_data_bls pair_eqb groups = Ok (b1, b2) /\
    fd_call r = mkac (ASeq false [EIs u; EIs u]) (ASeq false [ENone; ENone]) (LSeq [s_ "d1"; s_ "d2"])
                     (ASeq false (match s with Some e => [EIs e; EIs e] | None => [ENone; ENone] end)) ANone true /\
    beam_of load with_cosmo beam cosmo = Ok (fd_beam r) /\
    map fst (fd_args r) = map fst pspec_sig /\
    (let arg := dget string_dec (fd_args r) in
     arg "bls1" = Some (VList (map (fun b => VList [VInt (fst b); VInt (snd b)]) b1)) /\ arg "bls2" = Some (VList (map (fun b => VList [VInt (fst b); VInt (snd b)]) b2)) /\ arg "dsets" = Some (VList [VInt 0; VInt 1]) /\
     arg "pols" = Some (VList [VInt p; VInt p]) /\
     arg "input_data_weight" = Some weight /\ arg "spw_ranges" = Some spws /\ arg "taper" = Some taper /\ arg "verbose" = Some verbose /\
     arg "n_dlys" = Some ndlys /\ arg "r_params" = Some rp /\
     arg "store_cov" = Some (VBool (match s with Some _ => true | None => false end)) /\
     arg "cov_model" = Some (VStr (match s with Some _ => "dsets" | None => "empirical" end)) /\
     (forall k d, In (k, d) pspec_sig ->
        ~ In k ["bls1"; "bls2"; "dsets"; "pols"; "input_data_weight"; "spw_ranges"; "taper"; "verbose"; "store_cov"; "n_dlys"; "r_params"; "cov_model"] ->
        arg k = match dget string_dec extra k with Some v => Some v | None => d end)).
Proof.
  unfold FromDataModel.from_data. destruct (data_of read data) as [ud|] eqn:Ed; [|discriminate]. cbn [bind].
  destruct (data_of read std) as [us|] eqn:Es; [|discriminate]. cbn [bind]. destruct ud as [u|]; [|discriminate].
  destruct (pols u) as [|p ps] eqn:Ep; [discriminate|].
  destruct (beam_of load with_cosmo beam cosmo) as [b|] eqn:Eb; [|discriminate]. cbn [bind].
  destruct (from_data_bls pair_eqb groups) as [[b1 b2]|] eqn:Eg; [|discriminate]. cbn [bind fst snd].
  unfold call_pspec. set (own := own_kw weight spws taper verbose ndlys rp _). destruct (existsb _ extra) eqn:Ex; [discriminate|].
  destruct (py_call pspec_sig _ _) as [kw|] eqn:Ec; [|discriminate]. cbn [bind]. intros [= <-]. cbn [fd_call fd_beam fd_args].
  destruct (call_arguments pspec_sig [val_bls b1; val_bls b2; VList [VInt 0; VInt 1]; VList [VInt p; VInt p]] (own ++ extra)%list pspec_names) as [_ [Q _]]. destruct (Q _ Ec) as [Q1 Q2].
  exists u, us, p, ps, b1, b2. split; [now apply data_means|]. split; [now apply data_means|]. split; [exact Ep|]. split; [reflexivity|].
  split; [destruct us; reflexivity|]. split; [reflexivity|]. split; [exact Q1|]. cbn zeta.
  split; [exact (Q2 0 _ _ eq_refl)|]. split; [exact (Q2 1 _ _ eq_refl)|]. split; [exact (Q2 2 _ _ eq_refl)|]. split; [exact (Q2 3 _ _ eq_refl)|].
  split; [exact (Q2 5 _ _ eq_refl)|]. split; [exact (Q2 10 _ _ eq_refl)|]. split; [exact (Q2 7 _ _ eq_refl)|]. split; [exact (Q2 19 _ _ eq_refl)|].
  split; [exact (Q2 4 _ _ eq_refl)|]. split; [exact (Q2 23 _ _ eq_refl)|].
  split; [rewrite (Q2 13 _ _ eq_refl); destruct us; reflexivity|]. split; [rewrite (Q2 24 _ _ eq_refl); destruct us; reflexivity|].
  intros k d Hk Hn. apply In_nth_error in Hk. destruct Hk as [i Hi]. rewrite (Q2 i k d Hi).
  destruct i as [|[|[|[|i]]]]; [exfalso; injection Hi as <- _; apply Hn; cbn; tauto..|].
  cbn [nth_error]. replace (nth_error [] i) with (@None pyval) by (destruct i; reflexivity).
  rewrite dget_app. assert (Ho : dget string_dec own k = None); [|rewrite Ho; reflexivity].
  apply dget_none. unfold own. rewrite in_own. intros I. apply Hn. cbn in I |- *. tauto.
Qed.
(** What these pairs of baselines are: of groups without repeated baselines, each two baselines of a group, the one listed first first. *)
Theorem from_data_group_pairs : forall gs : list (list (Z * Z)), gs <> []%list -> Forall (fun g => g <> []%list /\ NoDup g) gs ->
  exists b1 b2, from_data_bls pair_eqb (as_groups gs) = Ok (b1, b2) /\ List.length b1 = List.length b2 /\
    forall a b, In (a, b) (combine b1 b2) <-> exists g, In g gs /\ before a b g.
Proof. exact (SimProps.from_data_pairs pair_eqb pair_eqb_ok). Qed.
(** Data without polarizations are an IndexError, before the beam is loaded and the groups are looked at. *)
Theorem from_data_no_pols data std groups beam cosmo weight spws taper verbose ndlys rp extra u s : means data (Some u) -> means std s -> pols u = []%list ->
  from_data data std groups beam cosmo weight spws taper verbose ndlys rp extra = Err IndexError.
Proof. intros Hd Hs Hp. apply data_means in Hd. apply data_means in Hs. unfold FromDataModel.from_data. rewrite Hd, Hs. cbn [bind]. rewrite Hp. reflexivity. Qed.
(** Keywords that pspec knows, other than those that are in the call already, are accepted and reach it. *)
Theorem from_data_accepts data std groups beam cosmo weight spws taper verbose ndlys rp extra u s p ps b bls :
  means data (Some u) -> means std s -> pols u = (p :: ps)%list -> beam_of load with_cosmo beam cosmo = Ok b -> from_data_bls pair_eqb groups = Ok bls ->
  (forall k, In k (map fst extra) -> In k (map fst pspec_sig) /\
     ~ In k ["bls1"; "bls2"; "dsets"; "pols"; "input_data_weight"; "spw_ranges"; "taper"; "verbose"; "store_cov"; "n_dlys"; "r_params"; "cov_model"]) ->
  exists r, from_data data std groups beam cosmo weight spws taper verbose ndlys rp extra = Ok r.
Proof.
  intros Hd Hs Hp Hb Hg Hx. apply data_means in Hd. apply data_means in Hs. unfold FromDataModel.from_data. rewrite Hd, Hs. cbn [bind]. rewrite Hp, Hb. cbn [bind].
  rewrite Hg. cbn [bind]. unfold call_pspec. set (own := own_kw weight spws taper verbose ndlys rp _).
  assert (Ex : existsb (fun e => existsb (String.eqb (fst e)) (map fst own)) extra = false).
  { apply Bool.not_true_iff_false. intros X. apply existsb_exists in X. destruct X as (e & He & X). apply existsb_exists in X. destruct X as (k & Hk & X).
    apply String.eqb_eq in X. subst k. unfold own in Hk. rewrite in_own in Hk. apply (Hx (fst e)); [now apply in_map|]. cbn in Hk |- *. tauto. }
  rewrite Ex. destruct (call_arguments pspec_sig [val_bls (fst bls); val_bls (snd bls); VList [VInt 0; VInt 1]; VList [VInt p; VInt p]] (own ++ extra)%list pspec_names) as [[_ A] _].
  destruct A as [r Hr]; [|rewrite Hr; cbn; eauto].
  split; [cbn; lia|]. split; [|split].
  - intros k Hk. rewrite map_app in Hk. apply in_app_or in Hk. destruct Hk as [Hk|Hk]; [|now apply Hx].
    unfold own in Hk. rewrite in_own in Hk. cbn in Hk |- *. tauto.
  - intros i k Hi Hk Hin. rewrite map_app in Hin. apply in_app_or in Hin.
    assert (In k ["bls1"; "bls2"; "dsets"; "pols"]).
    { destruct i as [|[|[|[|i]]]]; cbn in Hk; [injection Hk as <-; cbn; tauto..|cbn in Hi; lia]. }
    destruct Hin as [Hin|Hin].
    + unfold own in Hin. rewrite in_own in Hin. cbn in H0, Hin. repeat (destruct H0 as [<-|H0]; [repeat (destruct Hin as [Hin|Hin]; [discriminate|]); exact Hin|]). exact H0.
    + destruct (Hx k Hin) as [_ X]. apply X. cbn in H0 |- *. tauto.
  - intros i k Hi Hk. exfalso. destruct i as [|[|[|[|i]]]]; cbn in Hi; try lia.
    do 23 (destruct i as [|i]; [discriminate Hk|]). destruct i; discriminate Hk.
Qed.

(** ** C372: keyword arguments *)

(** "Additional kwargs to pass to PSpecData.pspec()": store_cov, cov_model and input_data_weight cannot be passed, although pspec has them, nor can the
    first four parameters. *)
Theorem from_data_kwargs_refuted data std groups beam cosmo weight spws taper verbose ndlys rp extra u s p ps b bls k v :
  means data (Some u) -> means std s -> pols u = (p :: ps)%list -> beam_of load with_cosmo beam cosmo = Ok b -> from_data_bls pair_eqb groups = Ok bls ->
  In (k, v) extra -> In k ["store_cov"; "cov_model"; "input_data_weight"; "bls1"; "bls2"; "dsets"; "pols"] ->
  from_data data std groups beam cosmo weight spws taper verbose ndlys rp extra = Err TypeError /\ In k (map fst pspec_sig).
Proof.
  intros Hd Hs Hp Hb Hg He Hk. split; [|cbn in Hk |- *; tauto].
  apply data_means in Hd. apply data_means in Hs. unfold FromDataModel.from_data. rewrite Hd, Hs. cbn [bind]. rewrite Hp, Hb. cbn [bind].
  rewrite Hg. cbn [bind]. unfold call_pspec. set (own := own_kw weight spws taper verbose ndlys rp _). destruct (existsb _ extra) eqn:Ex; [reflexivity|].
  assert (Hin : In k ["bls1"; "bls2"; "dsets"; "pols"]).
  { assert (~ In k (map fst own)).
    { intros I. apply Bool.not_true_iff_false in Ex. apply Ex. apply existsb_exists. exists (k, v). split; [exact He|]. apply existsb_exists. exists k.
      split; [exact I | apply String.eqb_refl]. }
    unfold own in H0. rewrite in_own in H0. cbn in Hk, H0 |- *. tauto. }
  destruct (call_arguments pspec_sig [val_bls (fst bls); val_bls (snd bls); VList [VInt 0; VInt 1]; VList [VInt p; VInt p]] (own ++ extra)%list pspec_names) as [[A _] [_ T]].
  destruct (py_call _ _ _) as [r|e] eqn:Ec; [|cbn; now rewrite (T e eq_refl)]. exfalso.
  destruct A as (_ & _ & A & _); [eauto|].
  assert (Hm : In k (map fst (own ++ extra)%list)) by (rewrite map_app; apply in_or_app; right; change k with (fst (k, v)); now apply in_map).
  cbn in Hin. destruct Hin as [<-|[<-|[<-|[<-|[]]]]]; [exact (A 0 _ ltac:(cbn; lia) eq_refl Hm)|exact (A 1 _ ltac:(cbn; lia) eq_refl Hm)|
    exact (A 2 _ ltac:(cbn; lia) eq_refl Hm)|exact (A 3 _ ltac:(cbn; lia) eq_refl Hm)].
Qed.

(** ** C373: refused data *)

(** Data that are neither a path nor a UVData object are refused, with an UnboundLocalError (unless reading the error set fails first); an error set that
    is neither is taken for none. *)
Theorem from_data_other std groups beam cosmo weight spws taper verbose ndlys rp extra s : means std s ->
  from_data VElse std groups beam cosmo weight spws taper verbose ndlys rp extra = Err UnboundLocalError.
Proof. intros Hs. apply data_means in Hs. unfold FromDataModel.from_data. cbn [data_of bind]. rewrite Hs. reflexivity. Qed.
(** The constructor of PSpecData accepts the datasets in every case: both datasets are the data, both error sets the error set, with unique labels. *)
Theorem from_data_constructs (nfreqs ntimes : U -> nat) (calib : H -> U -> C -> bool -> H * option pyerr) h u s :
  exists st, construct nfreqs ntimes calib h (ds_call u s) = (h, inl st) /\ p_dsets st = [u; u] /\ p_wgts st = [None; None] /\ p_stds st = [s; s] /\
    List.length (p_labels st) = 2.
Proof. destruct s; eexists; (split; [reflexivity|]); repeat split; vm_compute; reflexivity. Qed.
(** The cosmology is given to a beam that is loaded or passed, and ignored without a beam. *)
Theorem from_data_beam beam cosmo : beam_of load with_cosmo beam cosmo =
  match beam, cosmo with
  | BNone, _ => Ok None
  | BObj b, Some c => Ok (Some (with_cosmo b c))
  | BObj b, None => Ok (Some b)
  | BPath p, c => match load p c with Ok b => Ok (Some b) | Err e => Err e end
  end.
Proof. destruct beam as [|p|b], cosmo; cbn; try reflexivity; destruct (load p _); reflexivity. Qed.
End P.

(** ** C374: check_key_in_dset *)
Section K.
Context {U : Type} (key2inds : U -> list kitem -> result unit).

(** For the index of a dataset and a number, a text or a tuple of one to three items the answer is whether the dataset finds the key (a number or text: the
    tuple of it); errors of other kinds are passed on. *)
Theorem check_key_spec other dsets k i d : nth_error dsets i = Some d ->
  match k with DStr _ | DInt _ => True | DTup l => 1 <= List.length l <= 3 | _ => False end ->
  let items := match k with DStr s => [KS s] | DInt z => [KI z] | DTup l => l | _ => [] end in
  check_key key2inds other dsets k (DPos (Z.of_nat i)) =
    match key2inds d items with Ok _ => Ok true | Err KeyError => Ok false | Err e => Err e end.
Proof.
  intros Hd Hk. cbn zeta.
  assert (L : i < List.length dsets) by (apply nth_error_Some; congruence).
  assert (E : py_item dsets (Z.of_nat i) = Ok d).
  { unfold py_item. cbn zeta. replace (Z.of_nat i <? 0)%Z with false by (symmetry; apply Z.ltb_ge; lia).
    replace ((0 <=? Z.of_nat i) && (Z.of_nat i <? Z.of_nat (List.length dsets)))%Z%bool with true by (symmetry; apply andb_true_iff; split; [apply Z.leb_le | apply Z.ltb_lt]; lia).
    rewrite Nat2Z.id, Hd. reflexivity. }
  unfold check_key. destruct k as [t|z|l| |]; try contradiction; cbn [norm_key bind]; rewrite ?E; try reflexivity.
  replace (existsb (Nat.eqb (List.length l)) [1; 2; 3]) with true by (destruct l as [|? [|? [|? [|? l]]]]; cbn in Hk |- *; try lia; reflexivity).
  cbn [bind]. reflexivity.
Qed.
(** Other keys are a KeyError, whatever the index; an index out of range is an IndexError, indices from -1 downwards count from the end. Labels, which other
    methods accept, are a TypeError. *)
Theorem check_key_refuses other dsets k i :
  (k = DIter \/ exists l, k = DTup l /\ ~ 1 <= List.length l <= 3) -> check_key key2inds other dsets k i = Err KeyError.
Proof.
  intros [->|(l & -> & Hl)]; [reflexivity|]. unfold check_key, norm_key. replace (existsb (Nat.eqb (List.length l)) [1; 2; 3]) with false; [reflexivity|].
  destruct l as [|? [|? [|? [|? l]]]]; cbn in Hl |- *; try lia; reflexivity.
Qed.
Theorem check_key_index other dsets s z : let n := Z.of_nat (List.length dsets) in
  ((z < - n \/ n <= z)%Z -> check_key key2inds other dsets (DStr s) (DPos z) = Err IndexError) /\
  ((- n <= z < 0)%Z -> check_key key2inds other dsets (DStr s) (DPos z) = check_key key2inds other dsets (DStr s) (DPos (z + n))) /\
  (forall l, check_key key2inds other dsets (DStr s) (DLab l) = Err TypeError).
Proof.
  cbn zeta. set (n := Z.of_nat (List.length dsets)). assert (0 <= n)%Z by lia. split; [|split; [|reflexivity]]; intros Hz; unfold check_key, norm_key; cbn [bind].
  - unfold py_item. fold n. cbn zeta. replace ((0 <=? _) && _)%Z%bool with false; [reflexivity|].
    symmetry. apply andb_false_iff. destruct (Z.ltb_spec z 0); [left; apply Z.leb_gt | right; apply Z.ltb_ge]; lia.
  - unfold py_item. fold n. cbn zeta. replace (z <? 0)%Z with true by (symmetry; apply Z.ltb_lt; lia).
    replace (z + n <? 0)%Z with false by (symmetry; apply Z.ltb_ge; lia). reflexivity.
Qed.
End K.

(** ** Instances *)
Definition ex_read (p : string) : result nat := if String.eqb p "f" then Ok 7 else Err OSError.
Definition ex_groups : blarg (Z * Z) := AGroup (map ATuple [(1, 2); (2, 3); (3, 4)]%Z).
Example ex_from_data_std : exists r, from_data (C := unit) ex_read (fun _ => [-5; -6]%Z) (fun _ (_ : option unit) => Ok tt) (fun b _ => b) (VPath "f") (VObj 8) ex_groups BNone None
    (VStr "identity") VNone (VStr "none") (VBool false) VNone VNone [("norm", VStr "V^-1/2")] = Ok r /\
  dget string_dec (fd_args r) "norm" = Some (VStr "V^-1/2") /\ dget string_dec (fd_args r) "store_cov" = Some (VBool true) /\
  dget string_dec (fd_args r) "bls2" = Some (val_bls [(2, 3); (3, 4); (3, 4)]%Z) /\ dget string_dec (fd_args r) "pols" = Some (VList [VInt (-5); VInt (-5)]).
Proof. eexists. split; [reflexivity|]. repeat split. Qed.
Example ex_from_data_kw : from_data (C := unit) ex_read (fun _ => [-5; -6]%Z) (fun _ (_ : option unit) => Ok tt) (fun b _ => b) (VPath "f") VElse ex_groups BNone None
    (VStr "identity") VNone (VStr "none") (VBool false) VNone VNone [("store_cov", VBool true)] = Err TypeError.
Proof. reflexivity. Qed.
Example ex_check : check_key (fun (d : nat) k => match k with [KS "xx"] => Ok tt | _ => Err KeyError end) [] [3; 4] (DStr "xx") (DPos (-1)) = Ok true /\
  check_key (fun (d : nat) k => match k with [KS "xx"] => Ok tt | _ => Err KeyError end) [] [3; 4] (DTup [KI 1; KI 2]) (DPos 1) = Ok false.
Proof. split; reflexivity. Qed.
