From Coq Require Import List ZArith Reals Lra Lia Bool.
From Verif Require Import CoefModel GeoModel ShEvalModel CoordModel CoordSpec FrameProofs CoordProofs ConvertProofs TraceModel TraceSpec TraceProofs.
Import ListNotations.
Open Scope R_scope.

Lemma trace_start F start co radius lo hi step max_steps :
  unique_coordinates co start -> beyond_evolute (position co start) ->
  exists cs fs, trace_field_line F start co co radius lo hi step max_steps = Ok (cs, fs) /\ In (Some start) cs.
Proof.
  intros Hu Hb. destruct (trace_structure F start co co radius lo hi step max_steps) as (line & k & cs & fs & E & _ & _ & Hn & _ & _ & Hk & _).
  exists cs, fs. split; [exact E|]. destruct (Hn k _ Hk) as [Hc _]. cbn [option_map] in Hc.
  rewrite <- cart_position, (convert_compose co CT_GEOCENTRIC_CARTESIAN co start Hu Hb), convert_same in Hc.
  exact (nth_error_In cs k Hc).
Qed.

(** a uniform field along the z axis *)
Definition uniform : option vec -> option vec := fun _ => Some (0, 0, 2).
Lemma vnorm_z z : 0 <= z -> vnorm (0, 0, z) = z.
Proof. intro H. unfold vnorm. replace (0 * 0 + 0 * 0 + z * z) with (z * z) by ring. now apply sqrt_square. Qed.
Lemma uniform_down z : 0 <= z -> nan_add (Some (0, 0, z)) (nan_scale (Some 1) (fst (model_function uniform false 10 (Some (0, 0, z))))) = Some (0, 0, z + z / 10).
Proof.
  intro H. unfold model_function, uniform. cbn [fst]. rewrite !vnorm_z by lra. destruct (Rlt_dec 0 2); [|lra].
  cbn [nan_scale nan_add]. f_equal. apply triple_eq; field.
Qed.
Lemma uniform_up z : 0 <= z -> nan_add (Some (0, 0, z)) (nan_scale (Some 1) (fst (model_function uniform true 10 (Some (0, 0, z))))) = Some (0, 0, z - z / 10).
Proof.
  intro H. unfold model_function, uniform. cbn [fst]. rewrite !vnorm_z by lra. destruct (Rlt_dec 0 2); [|lra].
  cbn [nan_scale nan_add]. f_equal. apply triple_eq; field.
Qed.
Lemma conv_z z : 0 <= z -> did_converge 85 105 (Some (0, 0, z)) = (if Rle_dec z 85 then true else false) || (if Rle_dec 105 z then true else false).
Proof. intro H. unfold did_converge. now rewrite vnorm_z. Qed.
Lemma ex_trace : trace_field_line uniform (0, 0, 100) CT_GEOCENTRIC_CARTESIAN CT_GEOCENTRIC_CARTESIAN 10 85 105 1 2
  = Ok ([Some (0, 0, 81); Some (0, 0, 90); Some (0, 0, 100); Some (0, 0, 110)],
        [Some (0, 0, 2); Some (0, 0, 2); Some (0, 0, 2); Some (0, 0, 2)]).
Proof.
  unfold trace_field_line. cbv zeta. rewrite convert_same, !segment_walk. change (Z.to_nat 2) with 2%nat.
  assert (Ed : walk (model_function uniform false 10) (did_converge 85 105) 1 2 (@Some vec (0, 0, 100)) = [Some (0, 0, 110)]).
  { cbn [walk]. rewrite uniform_down by lra. replace (100 + 100 / 10) with 110 by field. rewrite conv_z by lra.
    destruct (Rle_dec 110 85); [lra|]. destruct (Rle_dec 105 110); [|lra]. reflexivity. }
  assert (Eu : walk (model_function uniform true 10) (did_converge 85 105) 1 2 (@Some vec (0, 0, 100)) = [Some (0, 0, 90); Some (0, 0, 81)]).
  { cbn [walk]. rewrite uniform_up by lra. replace (100 - 100 / 10) with 90 by field. rewrite conv_z by lra.
    destruct (Rle_dec 90 85); [lra|]. destruct (Rle_dec 105 90); [lra|]. cbn [orb]. rewrite uniform_up by lra.
    replace (90 - 90 / 10) with 81 by field. rewrite conv_z by lra. destruct (Rle_dec 81 85); [|lra]. reflexivity. }
  rewrite Ed, Eu. reflexivity.
Qed.
