(** Dispersion delays and what it means for a trial DM to be good enough for a true DM. *)
From Coq Require Import List ZArith Reals.
Local Open Scope R_scope.

(** dispersion delay in seconds between the frequencies [f1 < f2] (MHz) at dispersion measure
    [dm] *)
Definition delay (f1 f2 dm : R) : R := dm / (241 / 1000000) * (/ f1 ^ 2 - / f2 ^ 2).

(** smearing inside a channel of width [(fmax - fmin) / nchans] in the middle of the band *)
Definition smearing (fmin fmax : R) (nchans : Z) (dm : R) : R :=
  let cw := (fmax - fmin) / IZR nchans in
  let mid := (fmin + fmax) / 2 in
  delay (mid - cw / 2) (mid + cw / 2) dm.

(** searching trial [d] is enough for a source of DM [x]: the broadening due to the DM error over
    the whole band is not larger than the larger of [wmin] and the smearing at [d] *)
Definition tolerable (fmin fmax : R) (nchans : Z) (wmin d x : R) : Prop :=
  delay fmin fmax (Rabs (x - d)) <= Rmax wmin (smearing fmin fmax nchans d).

Definition covered (fmin fmax : R) (nchans : Z) (wmin : R) (trials : list R) (x : R) : Prop :=
  exists d, In d trials /\ tolerable fmin fmax nchans wmin d x.
