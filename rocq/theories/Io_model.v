(** * Model of /repo/pycomlink/io/cmlh5_to_xarray.py

    A cmlh5 file is the list of its top-level groups in key order, each with its
    attributes and its channel groups in key order.
    Oracle: [as_ns] converts a float to datetime64[ns] (truncation).
    xr.concat(dim="channel_id") is modelled with its defaults: join="outer" on the
    time index, every data variable stacked, coordinates stacked only if they differ.
    Simplified: the file has the layout of cmlh5 (no missing attributes or
    datasets); joining an unsorted time index with an empty one, which pandas leaves
    unsorted, sorts here; progress bars are left out. *)
From Coq Require Import List ZArith Bool String.
From Verif Require Import Base Num NumList Libm Haversine_model NearbyWetdry_model Validator_model.
Import ListNotations.
Local Open Scope nat_scope.
Local Notation length := List.length.

Section Io.
Context {O : numops} (L : libm O) (as_ns : O -> Z).

Record channel_group := { g_tx : list O; g_rx : list O; g_time : list O; g_frequency : O; g_polarization : string }.
Record link_group := { g_cml_id : string; g_lat_a : O; g_lat_b : O; g_lon_a : O; g_lon_b : O; g_channels : list (string * channel_group) }.

(** one channel's dataset (scalar coordinates) *)
Record ch_dataset := { s_tsl : list O; s_rsl : list O; s_time : list Z; s_channel_id : string; s_cml_id : string;
  s_lat_a : O; s_lat_b : O; s_lon_a : O; s_lon_b : O; s_frequency : O; s_polarization : string; s_length : O }.

(** a coordinate of the concatenated dataset: one value, or one per channel *)
Inductive coord (A : Type) := CScalar (v : A) | CPer (l : list A).
Record dataset := { d_channel_id : list string; d_time : list Z; d_tsl : list (list O); d_rsl : list (list O); d_cml_id : coord string;
  d_lat_a : coord O; d_lat_b : coord O; d_lon_a : coord O; d_lon_b : coord O; d_frequency : coord O; d_polarization : coord string; d_length : coord O }.

(** cmlh5_to_xarray.py:35-58; xr.Dataset checks the sizes along time *)
Definition channel_dataset (cml_g : link_group) (channel_name : string) (g : channel_group) : res ch_dataset :=
  if (length (g_tx g) =? length (g_time g)) && (length (g_rx g) =? length (g_time g)) then
    Ok {| s_tsl := g_tx g; s_rsl := g_rx g;
          s_time := map (fun t => as_ns (n_mul t (n_ofZ 1000000000))) (g_time g);
          s_channel_id := channel_name; s_cml_id := g_cml_id cml_g;
          s_lat_a := g_lat_a cml_g; s_lat_b := g_lat_b cml_g; s_lon_a := g_lon_a cml_g; s_lon_b := g_lon_b cml_g;
          s_frequency := n_div (g_frequency g) (n_ofZ 1000000000); s_polarization := g_polarization g;
          s_length := haversine L (g_lon_a cml_g) (g_lat_a cml_g) (g_lon_b cml_g) (g_lat_b cml_g) |}
  else Err ValueError.

(** equality as used by xarray: NaN equals NaN *)
Definition n_same (x y : O) : bool := n_eqb x y || (n_isnan x && n_isnan y).
Definition merge_coord {A} (same : A -> A -> bool) (l : list A) : coord A :=
  match l with
  | [] => CPer A []
  | x :: t => if forallb (same x) t then CScalar A x else CPer A l
  end.

Definition z_list_eqb (a b : list Z) : bool := (length a =? length b) && forallb (fun p => Z.eqb (fst p) (snd p)) (combine a b).
Fixpoint has_dup (l : list Z) : bool := match l with [] => false | x :: t => existsb (Z.eqb x) t || has_dup t end.
Fixpoint lookup (times : list Z) (vals : list O) (t : Z) : O :=
  match times, vals with k :: times, v :: vals => if Z.eqb k t then v else lookup times vals t | _, _ => n_nan end.

(** [xr.concat(ds_channel_list, dim="channel_id")] *)
Definition concat_channels (l : list ch_dataset) : res dataset :=
  match l with
  | [] => Err ValueError
  | first :: rest =>
      let equal := forallb (fun s => z_list_eqb (s_time first) (s_time s)) rest in
      if negb equal && existsb (fun s => has_dup (s_time s)) l then Err ValueError
      else
        let time := if equal then s_time first else sort_unique (List.concat (map s_time l)) in
        let align s vals := if equal then vals else map (lookup (s_time s) vals) time in
        Ok {| d_channel_id := map s_channel_id l; d_time := time;
              d_tsl := map (fun s => align s (s_tsl s)) l; d_rsl := map (fun s => align s (s_rsl s)) l;
              d_cml_id := merge_coord String.eqb (map s_cml_id l);
              d_lat_a := merge_coord n_same (map s_lat_a l); d_lat_b := merge_coord n_same (map s_lat_b l);
              d_lon_a := merge_coord n_same (map s_lon_a l); d_lon_b := merge_coord n_same (map s_lon_b l);
              d_frequency := merge_coord n_same (map s_frequency l);
              d_polarization := merge_coord String.eqb (map s_polarization l);
              d_length := merge_coord n_same (map s_length l) |}
  end.

(** cmlh5_to_xarray.py:7-61 *)
Definition read_cmlh5_file_to_xarray (fh : list (string * link_group)) : res (list dataset) :=
  match fh with
  | [] => Err IndexError
  | _ => mapM (fun e => do ds_channel_list <- mapM (fun c => channel_dataset (snd e) (fst c) (snd c)) (g_channels (snd e));
                        concat_channels ds_channel_list) fh
  end.
End Io.
Arguments channel_group : clear implicits.
Arguments link_group : clear implicits.
Arguments ch_dataset : clear implicits.
Arguments dataset : clear implicits.
Arguments CScalar {_} _.
Arguments CPer {_} _.
