(** * What reading a cmlh5 file should give *)
From Coq Require Import List ZArith Bool String.
From Verif Require Import Base Num NumList Libm Haversine_model Io_model.
Import ListNotations.
Local Open Scope nat_scope.
Local Notation length := List.length.

Section Spec.
Context {O : numops} (L : libm O) (as_ns : O -> Z).

(** channel [i]'s value of a coordinate *)
Definition coord_at {A} (d : A) (c : coord A) (i : nat) : A := match c with CScalar v => v | CPer l => get d l i end.
(** the same number, or both NaN *)
Definition alike (x y : O) : Prop := n_eqb x y = true \/ (n_isnan x = true /\ n_isnan y = true).
(** the channel's time axis in ns *)
Definition axis (g : channel_group O) : list Z := map (fun t => as_ns (n_mul t (n_ofZ 1000000000))) (g_time g).
Definition channel_ok (g : channel_group O) : Prop := length (g_tx g) = length (g_time g) /\ length (g_rx g) = length (g_time g).
Definition link_ok (k : link_group O) : Prop :=
  g_channels k <> [] /\ (forall c, In c (g_channels k) -> channel_ok (snd c)) /\
  (Forall (fun c => NoDup (axis (snd c))) (g_channels k) \/ exists a, Forall (fun c => axis (snd c) = a) (g_channels k)).

(** no channels, a channel with series of different lengths, or different time axes one
    of which has a repeated time *)
Definition bad_link (k : link_group O) : Prop :=
  g_channels k = [] \/ (exists c, In c (g_channels k) /\ ~ channel_ok (snd c)) \/
  ((exists c c', In c (g_channels k) /\ In c' (g_channels k) /\ axis (snd c) <> axis (snd c')) /\
   exists c, In c (g_channels k) /\ ~ NoDup (axis (snd c))).

(** [ds] holds the data of [k]: per channel its own series and coordinates on the
    joint time axis *)
Definition holds (k : link_group O) (ds : dataset O) : Prop :=
  d_channel_id ds = map fst (g_channels k) /\
  (forall t, In t (d_time ds) <-> exists c, In c (g_channels k) /\ In t (axis (snd c))) /\
  forall i d, i < length (g_channels k) ->
    let g := snd (get d (g_channels k) i) in
    length (get [] (d_tsl ds) i) = length (d_time ds) /\ length (get [] (d_rsl ds) i) = length (d_time ds) /\
    (forall p, p < length (d_time ds) ->
       let t := get 0%Z (d_time ds) p in
       (In t (axis g) -> exists q, q < length (g_time g) /\ get 0%Z (axis g) q = t /\
          nget (get [] (d_tsl ds) i) p = nget (g_tx g) q /\ nget (get [] (d_rsl ds) i) p = nget (g_rx g) q) /\
       (~ In t (axis g) -> nget (get [] (d_tsl ds) i) p = n_nan /\ nget (get [] (d_rsl ds) i) p = n_nan)) /\
    alike (coord_at n_nan (d_frequency ds) i) (n_div (g_frequency g) (n_ofZ 1000000000)) /\
    coord_at EmptyString (d_polarization ds) i = g_polarization g /\
    d_cml_id ds = CScalar (g_cml_id k) /\
    d_lat_a ds = CScalar (g_lat_a k) /\ d_lat_b ds = CScalar (g_lat_b k) /\
    d_lon_a ds = CScalar (g_lon_a k) /\ d_lon_b ds = CScalar (g_lon_b k) /\
    d_length ds = CScalar (haversine L (g_lon_a k) (g_lat_a k) (g_lon_b k) (g_lat_b k)).
End Spec.
