(** * Model of the shaded wet periods in the notebooks

    docs/notebooks/Basic CML processing workflow.ipynb, lines 664-673 of the JSON
    file, and Wet-dry classification methods.ipynb, 188-195 (and the same for the
    other classifications). *)
From Coq Require Import List ZArith Bool.
From Verif Require Import Base Blackout_model.
Import ListNotations.
Local Open Scope nat_scope.

(** [np.roll(wet, shift) & ~wet] *)
Definition rolled_and_dry (shift : Z) (wet : list bool) : list bool := map2 (fun r w => r && negb w) (np_roll shift wet) wet.
(** [l.nonzero()[0]] *)
Definition nonzero (l : list bool) : list nat := filter (fun i => get false l i) (seq 0 (length l)).
(** one record: the pairs of [zip(wet_start.nonzero()[0], wet_end.nonzero()[0])],
    the limits of the shaded areas *)
Definition shaded (wet : list bool) : list (nat * nat) :=
  combine (nonzero (rolled_and_dry (-1) wet)) (nonzero (rolled_and_dry 1 wet)).
(** Wet-dry classification methods 188-189: [wet[0] = 0; wet[-1] = 0] *)
Definition clear_ends (wet : list bool) : list bool := upd 0 false (upd (length wet - 1) false wet).
(** Basic CML processing workflow 665-671: [np.roll] of an array with several
    channels rolls the flattened array; then channel 0 is selected *)
Definition shaded_channel (steps : nat) (channels : list (list bool)) : list (nat * nat) :=
  combine (nonzero (firstn steps (rolled_and_dry (-1) (concat channels))))
          (nonzero (firstn steps (rolled_and_dry 1 (concat channels)))).
