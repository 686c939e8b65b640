(** Example of the loaded MIO models. *)

From Coq Require Import Bool List ZArith Reals Lra Lia.
From Verif Require Import Ord CoefModel ArrModel ShEvalModel SparseSpec FourierModel FourierSpec FourierExamples ComposedSpec MioModel MioSpec MioLoadModel.
Import ListNotations.
Open Scope R_scope.

(** three series of the degrees 1 and 2, an ionosphere at the height of 110 km *)
Definition ex_data : mio_data := {|
  d_lat_ngp := 80; d_lon_ngp := -70; d_height := 110; d_wolf_ratio := 0.01485;
  d_degree_max := 2; d_nm := fs_nm ex_set; d_qs := fs_ab ex_set; d_gh := fs_ab ex_set;
  d_pmin := (-1); d_pmax := 1; d_smin := 0; d_smax := 1 |}.

Lemma ex_loaded : exists below above : @mio Zx,
  load_external (fun _ => 0.5) (fun _ => (10, 20)) (zf 0, zf 10) ex_data = Ok (below, above) /\
  distinct_series (mio_set below) 2 /\ 0 < MIO_EARTH_RADIUS + d_height ex_data /\ in_range (zf 5) (zf 0, zf 10) /\
  mio_internal below = false /\ mio_internal above = true /\ length (fs_ab (mio_set above)) = 3%nat.
Proof.
  eexists. eexists. split; [reflexivity|]. split; [|split; [|split; [|repeat split]]].
  - destruct ex_set_ok as ((A1 & A2 & A3) & B & C & _).
    split; [split; [exact A1|split; [exact A2|left; cbn; lia]]|split; [exact B|split; [exact C|lia]]].
  - unfold MIO_EARTH_RADIUS. cbn [ex_data d_height]. lra.
  - split; apply leb_le; reflexivity.
Qed.

Lemma ex_degrees : (d_pmin ex_data <= d_pmax ex_data)%Z /\ (d_smin ex_data <= d_smax ex_data)%Z /\
  List.Forall (fun p => (- (d_degree_max ex_data + 1) <= fst p <= d_degree_max ex_data)%Z /\ (0 <= d_degree_max ex_data)%Z) (d_nm ex_data).
Proof. split; [cbn; lia|]. split; [cbn; lia|]. cbn. repeat (constructor; [cbn; lia|]). constructor. Qed.
