(** Proofs about the Python interface of the quasi-dipole library. *)

From Coq Require Import Bool List String Reals Arith ZArith Lia Lra.
From Coquelicot Require Import Coquelicot.
From Verif Require Import SunSpec QdTimeModel QdSunModel QdSunSpec QdSunProofs.
From Verif Require Import QdMltModel QdMltSpec QdMltProofs QdMltCacheProofs.
From Verif Require Import CoordSpec QdApexModel QdApexSpec QdApexMainProofs.
From Verif Require Import QdPyModel QdPySpec.
Import ListNotations.
Open Scope nat_scope.

Lemma int_of_small : forall n, (0 <= n < 2 ^ 31)%Z -> int_of_size n = n.
Proof. intros n H. unfold int_of_size. rewrite Z.mod_small; lia. Qed.

(** The number of the elements of a number or of a one-dimensional array *)
Definition count (dims : list nat) : nat := match dims with [] => 1 | d :: _ => d end.

Lemma full_count : forall A (a : ndarray A), full a -> at_most_1d a ->
  List.length (nd_values a) = count (nd_shape a).
Proof.
  intros A a H D. unfold full in H. unfold at_most_1d in D. rewrite H.
  destruct (nd_shape a) as [|d [|d' r]]; cbn in *; lia.
Qed.

Lemma count_full : forall A (a : ndarray A), List.length (nd_shape a) <= 1 ->
  List.length (nd_values a) = count (nd_shape a) -> full a.
Proof.
  intros A a D H. unfold full. rewrite H.
  destruct (nd_shape a) as [|d [|d' r]]; cbn in *; lia.
Qed.

Lemma passes_count : forall A (a : ndarray A), full a -> at_most_1d a -> countable a ->
  passes (nd_shape a) = List.length (nd_values a).
Proof.
  intros A a F D C. unfold countable in C. rewrite (full_count _ _ F D) in *.
  unfold passes, n_data.
  replace (match nd_shape a with [] => 1%Z | d :: _ => Z.of_nat d end) with (Z.of_nat (count (nd_shape a)))
    by (destruct (nd_shape a); reflexivity).
  rewrite int_of_small by lia. apply Nat2Z.id.
Qed.

Lemma nth_seq_self : forall A (values : list A) (junk : nat -> A) k,
  map (fun i => nth (i - k) values (junk i)) (seq k (List.length values)) = values.
Proof.
  induction values as [|v values IH]; intros junk k; [reflexivity|].
  cbn [List.length seq map]. f_equal; [rewrite Nat.sub_diag; reflexivity|].
  rewrite <- (IH junk (S k)) at 2. apply map_ext_in. intros i H. apply in_seq in H.
  replace (i - k) with (S (i - S k)) by lia. reflexivity.
Qed.

Lemma output_values : forall A (junk : nat -> A) dims values, List.length values = count dims ->
  nd_values (output junk dims values) = values.
Proof.
  intros A junk dims values H. unfold output. cbn [nd_values]. fold (count dims). rewrite <- H.
  rewrite <- (nth_seq_self A values junk 0) at 2. apply map_ext. intros i. rewrite Nat.sub_0_r. reflexivity.
Qed.

Lemma output_same : forall A B (junk : nat -> A) (a : ndarray B) values, at_most_1d a ->
  List.length values = count (nd_shape a) -> same_shape (output junk (nd_shape a) values) a.
Proof.
  intros A B junk a values D H. split; [|reflexivity].
  apply count_full; [exact D|]. rewrite output_values by exact H. exact H.
Qed.

Lemma cast_ok : forall A (a : ndarray A), at_most_1d a -> as_double_array a = Value a.
Proof.
  intros A a D. unfold as_double_array, at_most_1d in *. destruct (Nat.ltb_spec 1 (List.length (nd_shape a))); [lia|reflexivity].
Qed.

Lemma cast_error : forall A (a : ndarray A), ~ at_most_1d a -> as_double_array a = Raises ValueError.
Proof.
  intros A a D. unfold as_double_array, at_most_1d in *. destruct (Nat.ltb_spec 1 (List.length (nd_shape a))); [reflexivity|lia].
Qed.

Lemma dims_differ_iff : forall ds dims, List.length ds = List.length dims ->
  dims_differ ds dims = false <-> ds = dims.
Proof.
  induction ds as [|d ds IH]; intros [|r dims] H; try discriminate; cbn [dims_differ]; [tauto|].
  destruct (Nat.eqb_spec d r) as [->|N].
  - rewrite IH by (cbn in H; lia). split; [intros ->; reflexivity|congruence].
  - split; [discriminate|congruence].
Qed.

Lemma check_dec : forall A (a : ndarray A) dims,
  (nd_shape a = dims /\ check_arr_dims_all_eq a dims = Value tt) \/
  (nd_shape a <> dims /\ check_arr_dims_all_eq a dims = Raises ValueError).
Proof.
  intros A a dims. unfold check_arr_dims_all_eq.
  destruct (Nat.eqb_spec (List.length (nd_shape a)) (List.length dims)) as [E|E]; cbn [negb].
  - pose proof (dims_differ_iff _ _ E) as I. destruct (dims_differ (nd_shape a) dims).
    + right. split; [|reflexivity]. intros N. apply I in N. discriminate.
    + left. split; [apply I; reflexivity|reflexivity].
  - right. split; [congruence|reflexivity].
Qed.

Lemma check_ok : forall A (a : ndarray A) dims, nd_shape a = dims -> check_arr_dims_all_eq a dims = Value tt.
Proof. intros A a dims H. destruct (check_dec A a dims) as [[_ E]|[N _]]; [exact E|contradiction]. Qed.

Lemma zip_length : forall n time rad lat lon,
  List.length time = n -> List.length rad = n -> List.length lat = n -> List.length lon = n ->
  List.length (zip_points time rad lat lon) = n.
Proof.
  induction n as [|n IH]; intros [|t time] [|r rad] [|la lat] [|lo lon] H1 H2 H3 H4; try discriminate; [reflexivity|].
  cbn in *. f_equal. apply IH; lia.
Qed.

Lemma zip_nth : forall time rad lat lon i p,
  nth_error (zip_points time rad lat lon) i = Some p <->
  nth_error lat i = Some (gclat p) /\ nth_error lon i = Some (gclon p) /\
  nth_error rad i = Some (gcrad p) /\ nth_error time i = Some (t_dy p).
Proof.
  assert (E : forall i A, nth_error (@nil A) i = None) by (intros [|i] A; reflexivity).
  induction time as [|t time IH]; intros rad lat lon i p;
    [cbn [zip_points]; rewrite !E; split; [discriminate|intros (?&?&?&?); discriminate]|].
  destruct rad as [|r rad]; [cbn [zip_points]; rewrite !E; split; [discriminate|intros (?&?&?&?); discriminate]|].
  destruct lat as [|la lat]; [cbn [zip_points]; rewrite !E; split; [discriminate|intros (?&?&?&?); discriminate]|].
  destruct lon as [|lo lon]; [cbn [zip_points]; rewrite !E; split; [discriminate|intros (?&?&?&?); discriminate]|].
  destruct i as [|i]; cbn [zip_points nth_error]; [|apply IH].
  split.
  - intros H. injection H as <-. auto.
  - intros (H1 & H2 & H3 & H4). destruct p as [pt pr pa po]. cbn in *. congruence.
Qed.

Section Inputs.
Variables (lat lon rad : ndarray R) (time : ndarray (option R)).
Hypothesis Hin : inputs lat lon rad time.

Lemma lengths : let n := List.length (nd_values lat) in
  n = count (nd_shape lat) /\ List.length (nd_values lon) = n /\ List.length (nd_values rad) = n /\
  List.length (nd_values time) = n.
Proof.
  destruct Hin as (F1 & F2 & F3 & F4 & D & S1 & S2 & S3). cbn zeta.
  rewrite (full_count _ _ F1 D). split; [reflexivity|].
  assert (D2 : at_most_1d lon) by (unfold at_most_1d; rewrite S1; exact D).
  assert (D3 : at_most_1d rad) by (unfold at_most_1d; rewrite S2; exact D).
  assert (D4 : at_most_1d time) by (unfold at_most_1d; rewrite S3; exact D).
  rewrite (full_count _ _ F2 D2), (full_count _ _ F3 D3), (full_count _ _ F4 D4), S1, S2, S3. auto.
Qed.

Definition points : list point := zip_points (nd_values time) (nd_values rad) (nd_values lat) (nd_values lon).

Lemma points_length : List.length points = List.length (nd_values lat).
Proof. destruct lengths as (_ & L2 & L3 & L4). apply zip_length; auto. Qed.

Lemma points_nth : forall i p, nth_error points i = Some p <-> point_of lat lon rad time i p.
Proof. intros i p. apply zip_nth. Qed.

Lemma call_eq : forall any junk junk_base fs name base st x,
  fs name = Some x -> String.length name <= 1023 -> countable lat ->
  py_eval_qdlatlon any junk junk_base fs lat lon rad time name base st =
  match eval_qdlatlon any base fs name points st with
  | Terminated => Terminated
  | Returns (values, st') =>
      Returns (Value (output junk (nd_shape lat) (map (fun v => fst (fst v)) values),
                      output junk (nd_shape lat) (map (fun v => snd (fst v)) values),
                      if base then Some (output junk_base (nd_shape lat) (map snd values)) else None),
               Some st')
  end.
Proof.
  intros any junk junk_base fs name base st x Hfs Hn Hc.
  destruct Hin as (F1 & F2 & F3 & F4 & D & S1 & S2 & S3).
  unfold py_eval_qdlatlon. rewrite Hfs. unfold c_eval_qdlatlon, max_fname_length.
  destruct (Nat.ltb_spec 1023 (String.length name)) as [L|_]; [exfalso; lia|].
  rewrite !cast_ok; try (unfold at_most_1d in *; congruence).
  unfold bind_py. rewrite (check_ok _ _ _ S1), (check_ok _ _ _ S2), (check_ok _ _ _ S3).
  rewrite (passes_count _ _ F1 D Hc), <- points_length. fold points. rewrite firstn_all. reflexivity.
Qed.
End Inputs.

Lemma loop_length : forall vecflag fs name ps any st e out values st',
  qd_loop any vecflag fs name ps st e out = Returns (values, st') -> List.length values = List.length ps.
Proof.
  intros vecflag fs name. induction ps as [|p ps IH]; intros any st e out values st' H; cbn [qd_loop] in H.
  - injection H as <- _. reflexivity.
  - destruct (match t_dy p with Some _ => _ | None => _ end) as [[s e']|]; [|discriminate].
    destruct (convrt4 (gclat p) (gcrad p)) as [gdlat gdalt].
    destruct (apxg2q vecflag gdlat (gclon p) gdalt out s) as [[o b] s'].
    destruct (qd_loop _ vecflag fs name ps s' e' o) as [[v s'']|] eqn:E; [|discriminate].
    injection H as <- _. cbn [List.length]. f_equal. eapply IH. exact E.
Qed.

Lemma nth_map : forall A B (f : A -> B) l i b, nth_error (map f l) i = Some b ->
  exists a, nth_error l i = Some a /\ f a = b.
Proof.
  intros A B f l i b H. rewrite nth_error_map in H. destruct (nth_error l i) as [a|]; [|discriminate].
  cbn in H. injection H as <-. exists a. auto.
Qed.

(** The call of the library *)
Lemma calls_library : forall any junk junk_base fs name x base st lat lon rad time,
  fs name = Some x -> String.length name <= 1023 -> inputs lat lon rad time -> countable lat ->
  exists ps, List.length ps = List.length (nd_values lat) /\
    (forall i p, nth_error ps i = Some p <-> point_of lat lon rad time i p) /\
    (eval_qdlatlon any base fs name ps st = Terminated ->
     py_eval_qdlatlon any junk junk_base fs lat lon rad time name base st = Terminated) /\
    (forall values st', eval_qdlatlon any base fs name ps st = Returns (values, st') ->
     exists qlat qlon vectors,
       py_eval_qdlatlon any junk junk_base fs lat lon rad time name base st
         = Returns (Value (qlat, qlon, if base then Some vectors else None), Some st') /\
       same_shape qlat lat /\ same_shape qlon lat /\ same_shape vectors lat /\
       nd_values qlat = map (fun v => fst (fst v)) values /\
       nd_values qlon = map (fun v => snd (fst v)) values /\
       nd_values vectors = map snd values).
Proof.
  intros any junk junk_base fs name x base st lat lon rad time Hfs Hn Hin Hc.
  exists (points lat lon rad time). split; [apply points_length; exact Hin|].
  split; [apply points_nth|].
  pose proof (call_eq lat lon rad time Hin any junk junk_base fs name base st x Hfs Hn Hc) as E.
  split; [intros H; rewrite E, H; reflexivity|].
  intros values st' H. rewrite H in E.
  assert (L : List.length values = count (nd_shape lat)).
  { unfold eval_qdlatlon in H. apply loop_length in H. rewrite H, points_length by exact Hin.
    apply (lengths lat lon rad time Hin). }
  assert (D : at_most_1d lat) by apply Hin.
  exists (output junk (nd_shape lat) (map (fun v => fst (fst v)) values)),
         (output junk (nd_shape lat) (map (fun v => snd (fst v)) values)),
         (output junk_base (nd_shape lat) (map snd values)).
  split; [exact E|].
  repeat (split; [first [apply output_same; [exact D|rewrite map_length; exact L]
                        |apply output_values; rewrite map_length; exact L]|]).
  apply output_values; rewrite map_length; exact L.
Qed.

Lemma usual_points : forall lat lon rad time ps,
  (forall i p, nth_error ps i = Some p <-> point_of lat lon rad time i p) ->
  (forall i p, point_of lat lon rad time i p -> usual_point p) -> forall p, In p ps -> usual_point p.
Proof.
  intros lat lon rad time ps H U p I. apply In_nth_error in I as [i I]. apply (U i). apply H. exact I.
Qed.

(** The coordinates *)
Lemma py_coordinates : forall fs any0 calls results st any junk junk_base base name f lat lon rad time,
  qd_session fs calls (initial_apex any0) = Returns (results, st) ->
  fs name = Some (Some f) -> well_formed f -> String.length name <= 1023 ->
  inputs lat lon rad time -> countable lat ->
  (forall i p, point_of lat lon rad time i p -> usual_point p) ->
  exists qlat qlon vectors st',
    py_eval_qdlatlon any junk junk_base fs lat lon rad time name base st
      = Returns (Value (qlat, qlon, if base then Some vectors else None), Some st') /\
    same_shape qlat lat /\ same_shape qlon lat /\
    forall i p t qla qlo, point_of lat lon rad time i p -> t_dy p = Some t ->
      element qlat i qla -> element qlon i qlo ->
      exists j t' c gdlat alt,
        j <= i /\ element time j (Some t') /\ (Rabs (t - t') <= 1 / 365.25)%R /\
        coefficients_at f t' c /\ geodetic_position (gclat p) (gcrad p) gdlat alt /\
        pointed (apex_vector f c alt gdlat (gclon p)) qla qlo /\ (-180 <= qlo <= 180)%R.
Proof.
  intros fs any0 calls results st any junk junk_base base name f lat lon rad time Hs Hfs W Hn Hin Hc U.
  destruct (calls_library any junk junk_base fs name _ base st lat lon rad time Hfs Hn Hin Hc)
    as (ps & Lp & Np & _ & Hr).
  destruct (coordinates fs any0 calls results st any base name f ps Hs Hfs W (usual_points _ _ _ _ _ Np U))
    as (values & st' & He & Lv & Hv).
  destruct (Hr values st' He) as (qlat & qlon & vectors & E & S1 & S2 & _ & V1 & V2 & _).
  exists qlat, qlon, vectors, st'. split; [exact E|]. split; [exact S1|]. split; [exact S2|].
  intros i p t qla qlo Hp Ht H1 H2. unfold element in H1, H2. rewrite V1 in H1. rewrite V2 in H2.
  apply nth_map in H1 as (v & Hi & <-). apply nth_map in H2 as (v' & Hi' & <-).
  rewrite Hi in Hi'. injection Hi' as <-. destruct v as [[qla qlo] b]. cbn [fst snd].
  apply Np in Hp. destruct (Hv i p t qla qlo b Hp Ht Hi) as (j & p' & t' & c & gdlat & alt & Hj & Hp' & Ht' & Hd & H).
  exists j, t', c, gdlat, alt. split; [exact Hj|]. split; [|split; [exact Hd|exact H]].
  apply Np in Hp'. destruct Hp' as (_ & _ & _ & T). rewrite Ht' in T. exact T.
Qed.

(** A file which cannot be read *)
Lemma py_unreadable : forall fs any0 calls results st any junk junk_base base name lat lon rad time,
  qd_session fs calls (initial_apex any0) = Returns (results, st) ->
  fs name = Some None -> String.length name <= 1023 ->
  inputs lat lon rad time -> countable lat -> nd_shape lat <> [0] ->
  (forall i p, point_of lat lon rad time i p -> usual_point p) ->
  py_eval_qdlatlon any junk junk_base fs lat lon rad time name base st = Terminated.
Proof.
  intros fs any0 calls results st any junk junk_base base name lat lon rad time Hs Hfs Hn Hin Hc Hne U.
  destruct (calls_library any junk junk_base fs name _ base st lat lon rad time Hfs Hn Hin Hc)
    as (ps & Lp & Np & Ht & _).
  apply Ht. apply (unreadable fs any0 calls results st any base name ps Hs).
  - intros f. rewrite Hfs. discriminate.
  - intros ->. cbn in Lp. destruct Hin as (F & _ & _ & _ & D & _).
    rewrite (full_count _ _ F D) in Lp. unfold at_most_1d in D.
    destruct (nd_shape lat) as [|d [|d' r]]; cbn in *; try lia. subst d. contradiction.
  - exact (usual_points _ _ _ _ _ Np U).
Qed.

(** Without elements no file is read. *)
Lemma py_empty : forall fs st any junk junk_base base name x lat lon rad time,
  fs name = Some x -> String.length name <= 1023 -> inputs lat lon rad time -> nd_shape lat = [0] ->
  exists empty_vectors, nd_shape empty_vectors = [0] /\ nd_values empty_vectors = [] /\
  py_eval_qdlatlon any junk junk_base fs lat lon rad time name base st =
  Returns (Value ({| nd_shape := [0]; nd_values := [] |}, {| nd_shape := [0]; nd_values := [] |},
                  if base then Some empty_vectors else None), Some st).
Proof.
  intros fs st any junk junk_base base name x lat lon rad time Hfs Hn Hin S0.
  assert (L : List.length (nd_values lat) = 0).
  { destruct Hin as (F & _ & _ & _ & D & _). rewrite (full_count _ _ F D), S0. reflexivity. }
  exists {| nd_shape := [0]; nd_values := [] |}. split; [reflexivity|]. split; [reflexivity|].
  rewrite (call_eq lat lon rad time Hin any junk junk_base fs name base st x Hfs Hn)
    by (unfold countable; rewrite L; cbn; lia).
  assert (P : points lat lon rad time = []).
  { apply length_zero_iff_nil. rewrite points_length by exact Hin. exact L. }
  rewrite P, S0. unfold eval_qdlatlon. cbn [qd_loop]. destruct base; reflexivity.
Qed.

(** The refused calls *)
Lemma py_errors : forall fs st any junk junk_base base name lat lon rad time,
  let call := py_eval_qdlatlon any junk junk_base fs lat lon rad time name base st in
  (fs name = None -> call = Returns (Raises IOError, None)) /\
  (fs name <> None -> 1023 < String.length name -> call = Returns (Raises RuntimeError, None)) /\
  (fs name <> None -> String.length name <= 1023 ->
   ~ at_most_1d lat \/ ~ at_most_1d lon \/ ~ at_most_1d rad \/ ~ at_most_1d time \/
   nd_shape lon <> nd_shape lat \/ nd_shape rad <> nd_shape lat \/ nd_shape time <> nd_shape lat ->
   call = Returns (Raises ValueError, None)).
Proof.
  intros fs st any junk junk_base base name lat lon rad time call. subst call. unfold py_eval_qdlatlon.
  split; [intros ->; reflexivity|].
  assert (Q : forall A (a : ndarray A), at_most_1d a \/ ~ at_most_1d a)
    by (intros A a; unfold at_most_1d; lia).
  split; intros Hfs Hn; destruct (fs name) as [x|]; try contradiction; unfold c_eval_qdlatlon, max_fname_length.
  - destruct (Nat.ltb_spec 1023 (String.length name)) as [_|L]; [reflexivity|exfalso; lia].
  - intros H. destruct (Nat.ltb_spec 1023 (String.length name)) as [L|_]; [exfalso; lia|].
    destruct (Q _ lat) as [D|D]; [rewrite (cast_ok _ _ D)|rewrite (cast_error _ _ D); reflexivity].
    destruct (Q _ lon) as [D1|D1]; [rewrite (cast_ok _ _ D1)|rewrite (cast_error _ _ D1); reflexivity].
    destruct (Q _ rad) as [D2|D2]; [rewrite (cast_ok _ _ D2)|rewrite (cast_error _ _ D2); reflexivity].
    destruct (Q _ time) as [D3|D3]; [rewrite (cast_ok _ _ D3)|rewrite (cast_error _ _ D3); reflexivity].
    unfold bind_py. cbv zeta.
    destruct (check_dec _ lon (nd_shape lat)) as [[S1 ->]|[S1 ->]]; [|reflexivity].
    destruct (check_dec _ rad (nd_shape lat)) as [[S2 ->]|[S2 ->]]; [|reflexivity].
    destruct (check_dec _ time (nd_shape lat)) as [[S3 ->]|[S3 ->]]; [|reflexivity].
    tauto.
Qed.

Lemma huge_passes : forall n, Z.of_nat n = (2 ^ 31)%Z -> passes [n] = 0.
Proof. intros n H. unfold passes, n_data. rewrite H. reflexivity. Qed.

Lemma huge_exists : exists n, Z.of_nat n = (2 ^ 31)%Z.
Proof. exists (Z.to_nat (2 ^ 31)). apply Z2Nat.id. lia. Qed.

Lemma huge_output : forall A (junk : nat -> A) n, Z.of_nat n = (2 ^ 31)%Z ->
  nth_error (nd_values (output junk [n] [])) 0 = Some (junk 0).
Proof.
  intros A junk n H. destruct n as [|n]; [cbn in H; lia|]. reflexivity.
Qed.

Lemma full_repeat : forall A (v : A) n, full {| nd_shape := [n]; nd_values := repeat v n |}.
Proof. intros A v n. unfold full. cbn [nd_shape nd_values fold_right]. rewrite repeat_length. lia. Qed.

(** 2^31 points: none of them is evaluated *)
Lemma py_huge : forall fs name f t r la lo,
  fs name = Some (Some f) -> String.length name <= 1023 ->
  exists lat lon rad time, inputs lat lon rad time /\
    (forall i p, point_of lat lon rad time i p -> p = {| t_dy := Some t; gcrad := r; gclat := la; gclon := lo |}) /\
    forall any junk junk_base st, exists qlat qlon,
      py_eval_qdlatlon any junk junk_base fs lat lon rad time name false st = Returns (Value (qlat, qlon, None), Some st) /\
      element qlat 0 (junk 0) /\ element qlon 0 (junk 0).
Proof.
  intros fs name f t r la lo Hfs Hn. destruct huge_exists as [n E].
  exists {| nd_shape := [n]; nd_values := repeat la n |}, {| nd_shape := [n]; nd_values := repeat lo n |},
         {| nd_shape := [n]; nd_values := repeat r n |}, {| nd_shape := [n]; nd_values := repeat (Some t) n |}.
  split.
  { unfold inputs. repeat (split; [apply full_repeat|]). unfold at_most_1d. cbn [nd_shape List.length]. auto. }
  split.
  { intros i p (H1 & H2 & H3 & H4). unfold element in *. cbn [nd_values] in *.
    assert (Q : forall A (v w : A), nth_error (repeat v n) i = Some w -> w = v).
    { intros A v w H. apply nth_error_In in H. apply repeat_spec in H. exact H. }
    apply Q in H1, H2, H3, H4. destruct p. cbn in *. congruence. }
  intros any junk junk_base st. unfold py_eval_qdlatlon. rewrite Hfs. unfold c_eval_qdlatlon, max_fname_length.
  destruct (Nat.ltb_spec 1023 (String.length name)) as [L|_]; [exfalso; lia|].
  rewrite !cast_ok by (unfold at_most_1d; cbn [nd_shape List.length]; lia).
  unfold bind_py. rewrite !check_ok by reflexivity. cbn [nd_shape nd_values]. rewrite (huge_passes n E).
  cbn [firstn]. unfold eval_qdlatlon. cbn [qd_loop map].
  do 2 eexists. split; [reflexivity|]. split; apply huge_output; exact E.
Qed.

(** The sub-solar points *)
Lemma subsol_eq : forall junk time, full time -> at_most_1d time -> countable time ->
  py_eval_subsol junk time =
  match eval_subsol (nd_values time) with
  | Terminated => Terminated
  | Returns ps => Returns (Value (output junk (nd_shape time) (map fst ps), output junk (nd_shape time) (map snd ps)))
  end.
Proof.
  intros junk time F D C. unfold py_eval_subsol. rewrite (cast_ok _ _ D), (passes_count _ _ F D C), firstn_all. reflexivity.
Qed.

Lemma forall2_nth : forall A B (Q : A -> B -> Prop) l l' i a b, Forall2 Q l l' ->
  nth_error l i = Some a -> nth_error l' i = Some b -> Q a b.
Proof.
  intros A B Q l l' i a b H. revert i. induction H as [|x y l l' Hxy H IH]; intros [|i] Ha Hb; try discriminate.
  - cbn in *. congruence.
  - exact (IH i Ha Hb).
Qed.

Lemma forall2_length : forall A B (Q : A -> B -> Prop) l l', Forall2 Q l l' -> List.length l = List.length l'.
Proof. intros A B Q l l' H. induction H; cbn; congruence. Qed.

Lemma py_subsol : forall junk time, full time -> at_most_1d time -> countable time ->
  (py_eval_subsol junk time = Terminated <-> exists i t, element time i t /\ (t < -145731 \/ 36890 <= t)%R) /\
  ((forall i t, element time i t -> -145731 <= t < 36890)%R ->
   exists lat lon, py_eval_subsol junk time = Returns (Value (lat, lon)) /\ same_shape lat time /\ same_shape lon time /\
   forall i t la lo, element time i t -> element lat i la -> element lon i lo ->
     (-90 <= la <= 90 /\ -180 <= lo <= 180 /\
      exists u, Rabs (u - t) <= time_tolerance /\
        (0 <= t \/ whole t -> under_the_sun implemented_longitude u la lo) /\
        (t < 0 -> ~ whole t -> under_the_sun implemented_longitude (u + 1) la lo))%R).
Proof.
  intros junk time F D C. rewrite (subsol_eq junk time F D C).
  pose proof (eval_terminated (nd_values time)) as T.
  split.
  - split.
    + intros H. assert (X : eval_subsol (nd_values time) = Terminated) by (destruct (eval_subsol (nd_values time)); [discriminate|reflexivity]).
      apply T in X as (t & I & X). apply In_nth_error in I as [i I]. exists i, t. auto.
    + intros (i & t & I & X). apply nth_error_In in I.
      rewrite (proj2 T); [reflexivity|]. exists t. auto.
  - intros H. destruct (eval_subsol (nd_values time)) as [ps|] eqn:E.
    + pose proof (subsol_position _ _ E) as P.
      assert (L : List.length ps = count (nd_shape time)).
      { rewrite <- (forall2_length _ _ _ _ _ P). apply full_count; assumption. }
      do 2 eexists. split; [reflexivity|].
      split; [apply output_same; [exact D|rewrite map_length; exact L]|].
      split; [apply output_same; [exact D|rewrite map_length; exact L]|].
      intros i t la lo Ht H1 H2. unfold element in H1, H2. rewrite output_values in H1, H2 by (rewrite map_length; exact L).
      apply nth_map in H1 as (v & Hi & <-). apply nth_map in H2 as (v' & Hi' & <-).
      rewrite Hi in Hi'. injection Hi' as <-.
      exact (forall2_nth _ _ _ _ _ _ _ _ P Ht Hi).
    + exfalso. destruct (proj1 T eq_refl) as (t & I & X). apply In_nth_error in I as [i I].
      specialize (H i t I). lra.
Qed.

Lemma subsol_error : forall junk time, ~ at_most_1d time -> py_eval_subsol junk time = Returns (Raises ValueError).
Proof. intros junk time D. unfold py_eval_subsol. rewrite (cast_error _ _ D). reflexivity. Qed.

(** The magnetic local times *)
Lemma mlt_eq : forall any junk qdlon time saved, full qdlon -> full time -> at_most_1d qdlon ->
  nd_shape time = nd_shape qdlon -> countable qdlon ->
  py_eval_mlt any junk qdlon time saved =
  match eval_mlt any (combine (nd_values qdlon) (nd_values time)) saved with
  | Terminated => Terminated
  | Returns (mlts, saved') => Returns (Value (output junk (nd_shape qdlon) mlts), Some saved')
  end.
Proof.
  intros any junk qdlon time saved F1 F2 D E C. unfold py_eval_mlt.
  rewrite (cast_ok _ _ D), (cast_ok _ time) by (unfold at_most_1d in *; congruence).
  unfold bind_py. cbv zeta. rewrite (check_ok _ _ _ E), (passes_count _ _ F1 D C).
  assert (L : List.length (combine (nd_values qdlon) (nd_values time)) = List.length (nd_values qdlon)).
  { rewrite combine_length. rewrite (full_count _ _ F1 D), (full_count _ time F2) by (unfold at_most_1d in *; congruence).
    rewrite E. lia. }
  rewrite <- L, firstn_all. reflexivity.
Qed.

Lemma combine_nth_error : forall A B (l : list A) (l' : list B) i a b,
  nth_error (combine l l') i = Some (a, b) <-> nth_error l i = Some a /\ nth_error l' i = Some b.
Proof.
  induction l as [|x l IH]; intros [|y l'] [|i] a b; cbn [combine nth_error];
    try (split; [discriminate|intros [? ?]; discriminate]); [|apply IH].
  split; [intros H; injection H as <- <-; auto|intros [H1 H2]; congruence].
Qed.

Lemma combine_snd : forall A B (l : list A) (l' : list B), List.length l = List.length l' ->
  map snd (combine l l') = l'.
Proof.
  induction l as [|x l IH]; intros [|y l'] H; try discriminate; [reflexivity|].
  cbn [combine map snd]. f_equal. apply IH. cbn in H. lia.
Qed.

Lemma py_mlt : forall b2 b3 b4 calls results saved any junk junk' qdlon time,
  mlt_session calls (initial_magcof b2 b3 b4) = Returns (results, saved) ->
  full qdlon -> full time -> at_most_1d qdlon -> nd_shape time = nd_shape qdlon -> countable qdlon ->
  ((exists i t, element time i t /\ (t < -36526 \/ 36890 <= t)%R) -> py_eval_mlt any junk qdlon time saved = Terminated) /\
  ((forall i t, element time i t -> -36525 <= t < 36890)%R ->
   exists mlts saved' lat lon,
     py_eval_mlt any junk qdlon time saved = Returns (Value mlts, Some saved') /\ same_shape mlts qdlon /\
     py_eval_subsol junk' time = Returns (Value (lat, lon)) /\
     forall i q t la lo mlt, element qdlon i q -> element time i t -> element lat i la -> element lon i lo ->
       element mlts i mlt ->
       exists j t' c, j <= i /\ element time j t' /\ (Rabs (t - t') <= 1)%R /\
         dipole_coefficients (2000 + t' / 365.25) c /\ magnetic_local_time (dipole_pole c) la lo q mlt).
Proof.
  intros b2 b3 b4 calls results saved any junk junk' qdlon time Hs F1 F2 D E C.
  assert (D2 : at_most_1d time) by (unfold at_most_1d in *; congruence).
  assert (L1 : List.length (nd_values qdlon) = count (nd_shape qdlon)) by (apply full_count; assumption).
  assert (L2 : List.length (nd_values time) = count (nd_shape qdlon)).
  { rewrite <- E. apply full_count; assumption. }
  assert (L : List.length (nd_values qdlon) = List.length (nd_values time)) by congruence.
  rewrite (mlt_eq any junk qdlon time saved F1 F2 D E C).
  set (ps := combine (nd_values qdlon) (nd_values time)).
  destruct (mlt_terminates b2 b3 b4 calls results saved any ps Hs) as [T1 T2].
  assert (In_ps : forall i q t, nth_error ps i = Some (q, t) <-> element qdlon i q /\ element time i t)
    by (intros; apply combine_nth_error).
  split.
  - intros (i & t & I & X). rewrite T2; [reflexivity|].
    assert (Hi : i < List.length (nd_values qdlon)).
    { rewrite L. apply nth_error_Some. unfold element in I. rewrite I. discriminate. }
    apply nth_error_Some in Hi. destruct (nth_error (nd_values qdlon) i) as [q|] eqn:Q; [|contradiction].
    exists q, t. split; [|exact X]. apply (nth_error_In ps i). apply In_ps. auto.
  - intros H. destruct T1 as (mlts & s' & T1).
    { intros q t I. apply In_nth_error in I as [i I]. apply In_ps in I as [_ I]. exact (H i t I). }
    rewrite T1. destruct (mlt_time b2 b3 b4 calls results saved any ps mlts s' Hs T1) as (sun & Hsun & Lm & Hm).
    assert (Lp : List.length ps = count (nd_shape qdlon)) by (unfold ps; rewrite combine_length; lia).
    unfold ps in Hsun. rewrite (combine_snd _ _ _ _ L) in Hsun.
    assert (C2 : countable time) by (unfold countable in *; rewrite <- L; exact C).
    rewrite (subsol_eq junk' time F2 D2 C2), Hsun.
    do 4 eexists. split; [reflexivity|].
    split; [apply output_same; [exact D|lia]|]. split; [reflexivity|].
    assert (Ls : List.length sun = count (nd_shape time)).
    { rewrite <- (forall2_length _ _ _ _ _ (subsol_position _ _ Hsun)), E. exact L2. }
    intros i q t la lo mlt Hq Ht H1 H2 H3. unfold element in H1, H2, H3.
    rewrite output_values in H1, H2 by (rewrite map_length; exact Ls). rewrite output_values in H3 by lia.
    apply nth_map in H1 as (v & Hi & <-). apply nth_map in H2 as (v' & Hi' & <-).
    rewrite Hi in Hi'. injection Hi' as <-. destruct v as [la lo]. cbn [fst snd].
    destruct (Hm i q t la lo mlt) as (j & q' & t' & c & Hj & Hp & R); [apply In_ps; auto|exact Hi|exact H3|].
    apply In_ps in Hp as [_ Hp]. exists j, t', c. auto.
Qed.

Lemma mlt_error : forall any junk qdlon time saved,
  ~ at_most_1d qdlon \/ ~ at_most_1d time \/ nd_shape time <> nd_shape qdlon ->
  py_eval_mlt any junk qdlon time saved = Returns (Raises ValueError, None).
Proof.
  intros any junk qdlon time saved H. unfold py_eval_mlt.
  assert (Q : forall A (a : ndarray A), at_most_1d a \/ ~ at_most_1d a)
    by (intros A a; unfold at_most_1d; lia).
  destruct (Q _ qdlon) as [D|D]; [rewrite (cast_ok _ _ D)|rewrite (cast_error _ _ D); reflexivity].
  destruct (Q _ time) as [D1|D1]; [rewrite (cast_ok _ _ D1)|rewrite (cast_error _ _ D1); reflexivity].
  unfold bind_py. cbv zeta.
  destruct (check_dec _ time (nd_shape qdlon)) as [[S1 ->]|[S1 ->]]; [|reflexivity].
  tauto.
Qed.

(** 2^31 times: the results are the content of the new arrays *)
Lemma mlt_huge : forall q t, exists qdlon time, full qdlon /\ full time /\ at_most_1d qdlon /\
  nd_shape time = nd_shape qdlon /\ (forall i v, element qdlon i v -> v = q) /\ (forall i v, element time i v -> v = t) /\
  forall any junk saved, exists mlts lat lon,
    py_eval_mlt any junk qdlon time saved = Returns (Value mlts, Some saved) /\ element mlts 0 (junk 0) /\
    py_eval_subsol junk time = Returns (Value (lat, lon)) /\ element lat 0 (junk 0) /\ element lon 0 (junk 0).
Proof.
  intros q t. destruct huge_exists as [n E].
  exists {| nd_shape := [n]; nd_values := repeat q n |}, {| nd_shape := [n]; nd_values := repeat t n |}.
  split; [apply full_repeat|]. split; [apply full_repeat|].
  split; [unfold at_most_1d; cbn [nd_shape List.length]; lia|]. split; [reflexivity|].
  split; [intros i v H; apply nth_error_In in H; apply repeat_spec in H; exact H|].
  split; [intros i v H; apply nth_error_In in H; apply repeat_spec in H; exact H|].
  intros any junk saved. unfold py_eval_mlt, py_eval_subsol.
  rewrite !cast_ok by (unfold at_most_1d; cbn [nd_shape List.length]; lia).
  unfold bind_py. rewrite !check_ok by reflexivity. cbn [nd_shape nd_values]. rewrite (huge_passes n E).
  cbn [firstn]. unfold eval_mlt. cbn [mlt_loop eval_subsol map].
  do 3 eexists. split; [reflexivity|]. split; [apply huge_output; exact E|].
  split; [reflexivity|]. split; apply huge_output; exact E.
Qed.

(** The state after a call is one of those after calls of the library. *)
Lemma session_app : forall fs calls c st results st1 values st2,
  qd_session fs calls st = Returns (results, st1) ->
  eval_qdlatlon (c_any c) (c_vecflag c) fs (c_file c) (c_points c) st1 = Returns (values, st2) ->
  qd_session fs (calls ++ [c]) st = Returns (results ++ [values], st2).
Proof.
  intros fs. induction calls as [|c0 calls IH]; intros c st results st1 values st2 H1 H2; cbn [qd_session app] in *.
  - injection H1 as <- <-. rewrite H2. reflexivity.
  - destruct (eval_qdlatlon (c_any c0) (c_vecflag c0) fs (c_file c0) (c_points c0) st) as [[v s]|]; [|discriminate].
    destruct (qd_session fs calls s) as [[r s']|] eqn:E; [|discriminate]. injection H1 as <- <-.
    rewrite (IH c s r s' values st2 E H2). reflexivity.
Qed.

Lemma py_state : forall fs any0 calls results st any junk junk_base base name lat lon rad time r st',
  qd_session fs calls (initial_apex any0) = Returns (results, st) ->
  py_eval_qdlatlon any junk junk_base fs lat lon rad time name base st = Returns (r, Some st') ->
  exists calls' results', qd_session fs calls' (initial_apex any0) = Returns (results', st').
Proof.
  intros fs any0 calls results st any junk junk_base base name lat lon rad time r st' Hs H.
  unfold py_eval_qdlatlon, c_eval_qdlatlon, bind_py in H.
  destruct (fs name); [|discriminate]. destruct (Nat.ltb max_fname_length (String.length name)); [discriminate|].
  destruct (as_double_array lat) as [lat'|]; [|discriminate].
  destruct (as_double_array lon) as [lon'|]; [|discriminate].
  destruct (as_double_array rad) as [rad'|]; [|discriminate].
  destruct (as_double_array time) as [time'|]; [|discriminate].
  destruct (check_arr_dims_all_eq lon' (nd_shape lat')); [|discriminate].
  destruct (check_arr_dims_all_eq rad' (nd_shape lat')); [|discriminate].
  destruct (check_arr_dims_all_eq time' (nd_shape lat')); [|discriminate].
  match type of H with context [eval_qdlatlon any base fs name ?ps st] => set (points := ps) in H end.
  destruct (eval_qdlatlon any base fs name points st) as [[values s]|] eqn:E; [|discriminate].
  injection H as _ <-.
  eexists (calls ++ [{| c_any := any; c_vecflag := base; c_file := name; c_points := points |}]), _.
  eapply session_app; [exact Hs|exact E].
Qed.
