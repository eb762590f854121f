(** * Model of the fill value rule of the radar notebook

    /repo/docs/notebooks/Get radar rainfall along CML paths.ipynb, lines
    1084-1087 of the JSON file.  [where_above], [where_below] are those of
    NearbyNb_model.v.  Simplified: one channel.  The other cells of that
    notebook call poligrain (another library) and plot. *)
From Coq Require Import List.
From Verif Require Import Base Num NumList NearbyNb_model.

Section Model.
Context {O : numops}.
(** 1084-1087: [tsl.where(tsl < hi) - rsl.where(rsl > lo)] *)
Definition radar_loss (hi lo : O) (tsl rsl : list O) : list O := map2 n_sub (where_below hi tsl) (where_above lo rsl).
End Model.
