(** * Model of the rain maps of the notebooks

    /repo/docs/notebooks/Basic CML processing workflow.ipynb, lines 844 and
    1869-2008 of the JSON file (the same steps: "Compare interpolation
    methods.ipynb" 607, 1189-1290, 1344).  Modelled of xarray: [resample.mean]
    and [sum] with skipna.  Simplified: the rain of one channel is
    mapped ([isel(channel_id=1)]), of the others only the wet flags are kept; the
    hour of every sample is given by its number; sums from left to right; the grid is given (grid
    generation: Grid_model.v). *)
From Coq Require Import List ZArith Bool.
From Verif Require Import Base Num NumList Libm Idw_model Chain_model Workflow_model.
Import ListNotations.
Local Open Scope nat_scope.

Section RainMap.
Context {O : numops} (L : libm O).
Variable cubic : list O -> list O -> O -> O.
Variable std : list O -> O.

(** 1869: [R.resample(time='1h', label='right').mean()]; [hours] holds the
    number of the hour of every sample *)
Definition not_missing (l : list O) : list O := filter (fun v => negb (n_isnan v)) l.
Definition in_hour (hours : list nat) (h : nat) (r : list O) : list O :=
  map snd (filter (fun e => Nat.eqb (fst e) h) (combine hours r)).
Definition hourly (hours : list nat) (count : nat) (r : list O) : list O :=
  map (fun h => n_mean (not_missing (in_hour hours h r))) (seq 0 count).

(** 1948: [.sum(dim='time')], which skips missing values *)
Definition rain_total (r : list O) : O := n_sum (not_missing r).

(** one link: levels of the mapped channel, levels of the other channels that
    enter the wet fraction, coordinates of the centre (1886-1887), settings of
    [calc_R_from_A] *)
Record link := mk_link { lk_tsl : list O; lk_rsl : list O; lk_others : list (list O * list O); lk_lon : O; lk_lat : O; lk_kr : kr_args O }.
Record map_par := mk_map_par { mp_raw : raw_par O; mp_n : nat; mp_waa_max : O; mp_delta_t : O; mp_tau : O; mp_limit : O;
  mp_hours : list nat; mp_count : nat }.

(** 844: [(cml.wet==1).sum() / len(cml.time)], the sum being over all channels.
    ("Compare interpolation methods.ipynb" 607 has [sum(dim='time')]: this is
    the case of a link without other channels.) *)
Definition wet_fraction (steps : nat) (channels : list (list O)) : O :=
  n_div (n_ofZ (Z.of_nat (length (filter (fun v => n_eqb v one) (concat channels))))) (n_ofZ (Z.of_nat steps)).
Definition wet_channels (q : map_par) (times : list O) (k : link) : list (list O) :=
  map (fun c => wet_flags std (rp_window (mp_raw q)) (rp_threshold (mp_raw q)) (prepared (mp_raw q) times (fst c) (snd c)))
    ((lk_tsl k, lk_rsl k) :: lk_others k).
(** 1948, 2006: [.where(wet_fraction < 0.3)] *)
Definition where_reliable (q : map_par) (times : list O) (k : link) (v : O) : O :=
  if n_ltb (wet_fraction (length (lk_tsl k)) (wet_channels q times k)) (mp_limit q) then v else n_nan.
Definition link_hours (q : map_par) (times : list O) (k : link) : res (list O) :=
  do r <- workflow L cubic std (mp_raw q) times (lk_tsl k) (lk_rsl k) (mp_n q) (mp_waa_max q) (mp_delta_t q) (mp_tau q) (lk_kr k);
  Ok (hourly (mp_hours q) (mp_count q) r).
(** 1948 *)
Definition link_total (q : map_par) (times : list O) (k : link) : res O :=
  do h <- link_hours q times k; Ok (where_reliable q times k (rain_total h)).
(** 2006 *)
Definition link_hour (q : map_par) (times : list O) (i : nat) (k : link) : res O :=
  do h <- link_hours q times k; Ok (where_reliable q times k (nget h i)).

Fixpoint all_links (f : link -> res O) (links : list link) : res (list O) :=
  match links with
  | [] => Ok []
  | k :: t => do v <- f k; do l <- all_links f t; Ok (v :: l)
  end.

Variable query : list (O * O) -> O * O -> nat -> O -> option O -> list (O * nat).
(** 1945-1950 and 2003-2008; [value] is [link_total] or [link_hour] *)
Definition rain_map (value : link -> res O) (c : settings O) (links : list link) (rows cols : nat) (xgrid ygrid : list (list O)) :
  res (list (list O)) :=
  do z <- all_links value links;
  snd (interp_call L query (new_interp c) (map lk_lon links) (map lk_lat links) z rows cols xgrid ygrid).
End RainMap.
Arguments link : clear implicits.
Arguments mk_link {O}.
Arguments map_par : clear implicits.
Arguments mk_map_par {O}.
