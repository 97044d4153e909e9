(** Model of the message made of a distribution: go/tricorder/metric.go:1118-1127 asRanges and the Dist case of
    updateJsonOrRpcMetric (1137-1149). *)
From Verif Require Import GoBase GoVal UnitsModel FloatBase.
From stdpp Require Import list.
From Verif Require Import DistModel.

Definition asRanges (l : list (piece num64 * N)) : list range_msg :=
  map (λ x : piece num64 * N, MkRange (p_start x.1) (p_end x.1) x.2) l.
Definition distMessage (s : snapshot num64) : dist_msg :=
  MkDist (s_min s) (s_max s) (s_average s) (s_median s) (s_sum s) (s_count s) (s_generation s) (s_notcum s) (asRanges (s_breakdown s)).
