(** Proofs about the MMA loaders. *)

From Coq Require Import Bool List ZArith Reals Lia Lra.
From Verif Require Import Ord ROrd CoefModel SparseModel SparseSpec SparseProofs SeriesModel InterpSpec SeriesSpec SeriesLineProofs
  CombineModel CombineProofs MmaModel MmaSpec.
Import ListNotations.
Open Scope R_scope.

Lemma nm_eqb_spec a : forall b, nm_eqb a b = true <-> a = b.
Proof.
  induction a as [|[n m] a IH]; intros [|[n' m'] b]; cbn [nm_eqb]; try (split; [discriminate|discriminate]); [tauto|].
  rewrite !andb_true_iff, IH, !Z.eqb_eq. split; [intros [[-> ->] ->]; reflexivity|]. intro E. injection E as -> -> ->. tauto.
Qed.

Lemma all_some_map {A B} (f : A -> option B) (g : A -> B) l : (forall a, In a l -> f a = Some (g a)) -> all_some (map f l) = Some (map g l).
Proof.
  induction l as [|a l IH]; intro H; [reflexivity|]. cbn [map all_some]. rewrite (H a (or_introl eq_refl)), IH; [reflexivity|].
  intros b Hb. apply H. now right.
Qed.

Definition col (f : cdf_set) (i : nat) : list R := map (fun row => nth i row 0) (cv_coeff f).

Lemma transpose_cols nm f : proper_mma nm f -> transpose (cv_ncoeff f) (cv_coeff f) = Some (map (col f) (seq 0 (length nm))).
Proof.
  intros (_ & _ & -> & _ & H). unfold transpose. apply all_some_map. intros j Hj. apply in_seq in Hj.
  unfold col. apply all_some_map. intros row Hr. apply nth_error_nth'. rewrite (H row Hr). lia.
Qed.

Lemma mma_times raw : map (fun x => (x - CDF_EPOCH_2000) * CDF_EPOCH_TO_DAYS) raw = map mma_time raw.
Proof. apply map_ext. intro x. unfold mma_time, CDF_EPOCH_2000, CDF_EPOCH_TO_DAYS. field. Qed.

Definition read_of (nm : list (Z * Z)) (f : cdf_set) : mma_data :=
  let n := hd 0%Z (map fst nm) in let ns := tl (map fst nm) in
  {| mma_degree_min := fold_left Z.min ns n; mma_degree_max := fold_left Z.max ns n;
     mma_t := file_times f; mma_nm := nm; mma_coeff := map (col f) (seq 0 (length nm)) |}.

Lemma read_ok nm f : nm <> [] -> proper_mma nm f -> read_swarm_mma_coefficients f = Ok (read_of nm f).
Proof.
  intros Hne P. pose proof (transpose_cols nm f P) as Tr. destruct P as (He & Hn & _).
  unfold read_swarm_mma_coefficients. destruct nm as [|p nm]; [congruence|].
  destruct Hn as [-> | ->]; cbn [map]; unfold cdf_rawtime_to_mjd2000; rewrite He; cbn [bind]; rewrite Tr, mma_times; reflexivity.
Qed.

Lemma read_all_ok nm files : nm <> [] -> (forall f, In f files -> proper_mma nm f) -> read_all files = Ok (map (read_of nm) files).
Proof.
  intros Hne H. induction files as [|f files IH]; [reflexivity|]. cbn [read_all map].
  rewrite (read_ok nm f Hne) by (apply H; now left). cbn [bind]. rewrite IH by (intros; apply H; now right). reflexivity.
Qed.

Lemma check_ok nm files : forall f, ordered_files (f :: files) -> check_sets (read_of nm f) (map (read_of nm) files) = Ok tt.
Proof.
  induction files as [|g files IH]; intros f H; [reflexivity|]. cbn [map check_sets].
  cbn [read_of mma_degree_min mma_degree_max mma_nm mma_t]. rewrite !Z.eqb_refl. cbn [negb orb].
  rewrite (proj2 (nm_eqb_spec nm nm) eq_refl). cbn [negb].
  destruct H as [(ts & t & u & us & Ea & Eb & Hle) H]. rewrite Ea, Eb, rev_app_distr. cbn [rev app].
  rewrite (proj2 (ltb_ge u t)) by (apply le_R; exact Hle). apply IH. exact H.
Qed.

Lemma combine_seq_map {A B} (f : nat -> A) (g : nat -> B) l : combine (map f l) (map g l) = map (fun i => (f i, g i)) l.
Proof. induction l as [|a l IH]; [reflexivity|]. cbn [map combine]. now rewrite IH. Qed.

Lemma concat_ok nm files : forall f, concatenate_columns (map mma_coeff (map (read_of nm) (f :: files))) =
  Ok (map (fun i => flat_map (fun f => col f i) (f :: files)) (seq 0 (length nm))).
Proof.
  induction files as [|g files IH]; intro f.
  - cbn [map concatenate_columns]. cbn [read_of mma_coeff]. f_equal. apply map_ext. intro i. cbn [flat_map]. symmetry. apply app_nil_r.
  - specialize (IH g). cbn [map] in *. cbn [concatenate_columns] in *. rewrite IH. cbn [bind]. cbn [read_of mma_coeff].
    rewrite !map_length, Nat.eqb_refl. f_equal. rewrite combine_seq_map, map_map. apply map_ext. intro i. reflexivity.
Qed.

Lemma concat_flat_map {A B} (f : A -> list B) l : concat (map f l) = flat_map f l.
Proof. symmetry. apply flat_map_concat_map. Qed.

Lemma flat_map_length_eq {A B C} (f : A -> list B) (g : A -> list C) l : (forall a, In a l -> length (f a) = length (g a)) -> length (flat_map f l) = length (flat_map g l).
Proof.
  induction l as [|a l IH]; intro H; [reflexivity|]. cbn [flat_map]. rewrite !app_length, IH, (H a (or_introl eq_refl)); [reflexivity|].
  intros b Hb. apply H. now right.
Qed.

Lemma flat_map_nth {A B C} (f : A -> list B) (g : A -> list C) l x k b c : (forall a, In a l -> length (f a) = length (g a)) ->
  In x l -> nth_error (f x) k = Some b -> nth_error (g x) k = Some c ->
  exists j, nth_error (flat_map f l) j = Some b /\ nth_error (flat_map g l) j = Some c.
Proof.
  induction l as [|a l IH]; intros H I Eb Ec; [destruct I|]. cbn [flat_map]. destruct I as [->|I].
  - exists k. rewrite !nth_error_app1; [split; assumption| |]; apply nth_error_Some; congruence.
  - destruct IH as (j & E1 & E2); try assumption; [intros; apply H; now right|].
    exists (length (f a) + j)%nat. rewrite !nth_error_app2 by (rewrite ?(H a (or_introl eq_refl)); lia).
    rewrite <- (H a (or_introl eq_refl)). replace (length (f a) + j - length (f a))%nat with j by lia. split; assumption.
Qed.

Lemma merged_ok nm f files : nm <> [] -> (forall g, In g (f :: files) -> proper_mma nm g) -> ordered_files (f :: files) ->
  bind (read_all (f :: files)) merge_coefficients = Ok {|
    mma_degree_min := mma_degree_min (read_of nm f); mma_degree_max := mma_degree_max (read_of nm f); mma_nm := nm;
    mma_t := all_times (f :: files); mma_coeff := map (fun i => flat_map (fun f => col f i) (f :: files)) (seq 0 (length nm)) |}.
Proof.
  intros Hne P O. rewrite (read_all_ok nm _ Hne P). cbn [bind]. unfold merge_coefficients. cbn [map].
  rewrite (check_ok nm files f O). cbn [bind]. pose proof (concat_ok nm files f) as C. cbn [map] in C. rewrite C. cbn [bind].
  f_equal. f_equal. unfold all_times. change (concat (map mma_t (map (read_of nm) (f :: files))) = flat_map file_times (f :: files)).
  rewrite map_map. rewrite <- concat_flat_map. reflexivity.
Qed.

Lemma mma_series_eq files : mma_series files = bind (bind (read_all files) merge_coefficients) (fun d =>
  match mk_time_dependent (mma_nm d) (mma_coeff d) (mma_t d) 2 None None (fun x => x) with Some td => Ok td | None => Err ValueError end).
Proof. unfold mma_series. destruct (read_all files); reflexivity. Qed.

Lemma mma_sized nm files : files <> [] -> proper_nm nm -> (forall f, In f files -> proper_mma nm f) -> ordered_files files ->
  distinct_times (all_times files) -> (2 <= length (all_times files))%nat ->
  exists td, mma_series files = Ok td /\
    (forall t1 t2, In t1 (all_times files) -> first_time (all_times files) t1 -> In t2 (all_times files) -> last_time (all_times files) t2 ->
       td_validity td = (t1, t2)) /\
    forall t lo hi, exists result, mma_call td t lo hi = Some result /\ sized result /\
      forall n m v, valid_nm n m -> mma_value nm files n m t v -> bounded_coefficient lo hi result n m v.
Proof.
  intros Hf (Hne & Hv & Hd) P O D L. destruct files as [|f files]; [congruence|].
  rewrite mma_series_eq, (merged_ok nm f files Hne P O). cbn [bind mma_nm mma_coeff mma_t].
  set (fs := f :: files) in *. set (cs := map (fun i => flat_map (fun f => col f i) fs) (seq 0 (length nm))).
  assert (Lc : length nm = length cs) by (unfold cs; now rewrite map_length, seq_length).
  assert (Lt : forall i g, In g fs -> length (file_times g) = length (col g i)).
  { intros i g Hg. unfold file_times, col. rewrite !map_length. destruct (P g Hg) as (_ & _ & _ & E & _). symmetry. exact E. }
  destruct (mk_time_dependent_ok nm cs (all_times fs) None None (fun x => x) Hne Lc) as [td Etd].
  { intros c Hc. unfold cs in Hc. apply in_map_iff in Hc as (i & <- & _). unfold all_times. symmetry. apply flat_map_length_eq. apply Lt. }
  { intro E. rewrite E in L. cbn [length] in L. lia. }
  exists td. rewrite Etd. split; [reflexivity|]. split.
  - intros t1 t2 I1 F1 I2 F2. exact (series_validity nm cs (all_times fs) 2 (fun x => x) td t1 t2 D Etd I1 F1 I2 F2).
  - intros t lo hi.
    destruct (series_array nm cs (all_times fs) None None (fun x => x) (fun x => x) td t lo hi Hv Hd D (fun a b _ _ H => H) L Etd) as (res & Er & Sz & A & B).
    exists res. split; [exact Er|]. split; [exact Sz|].
    intros n m v Vn [(ta & ca & tb & cb & Pa & Pb & N & H1 & H2 & ->)|[Hn ->]].
    + destruct Pa as (g & i & k & raw & row & Ig & Ei & Ek & -> & Er1 & Er2).
      destruct Pb as (g' & i' & k' & raw' & row' & Ig' & Ei' & Ek' & -> & Er1' & Er2').
      assert (i' = i) as -> by exact (Hd i' i (n, m) Ei' Ei).
      assert (Hi : (i < length nm)%nat) by (apply nth_error_Some; congruence).
      assert (Ecs : nth_error cs i = Some (flat_map (fun f => col f i) fs)).
      { unfold cs. exact (map_nth_error (fun i => flat_map (fun f => col f i) fs) i (seq 0 (length nm)) (eq_trans (nth_error_nth' _ 0%nat ltac:(rewrite seq_length; exact Hi)) (f_equal Some (seq_nth _ 0 Hi)))). }
      assert (Hcol : forall h k r w, In h fs -> nth_error (cv_coeff h) k = Some r -> nth_error r i = Some w -> nth_error (col h i) k = Some w).
      { intros h k0 r w _ E1 E2. unfold col. rewrite (map_nth_error _ _ _ E1). f_equal. exact (nth_error_nth _ _ _ E2). }
      destruct (flat_map_nth file_times (fun f => col f i) fs g k (mma_time raw) ca (Lt i) Ig (map_nth_error mma_time _ _ Ek) (Hcol g k row ca Ig Er1 Er2)) as (j & J1 & J2).
      destruct (flat_map_nth file_times (fun f => col f i) fs g' k' (mma_time raw') cb (Lt i) Ig' (map_nth_error mma_time _ _ Ek') (Hcol g' k' row' cb Ig' Er1' Er2')) as (j' & J1' & J2').
      exact (A i n m _ j j' _ ca _ cb Ei Ecs J1 J2 J1' J2' N H1 H2).
    + split; intros _; exact (B n m Vn Hn).
Qed.

Lemma mma_values nm files : files <> [] -> proper_files nm files ->
  exists td, load_coeff_mma_single_set files = Ok td /\
    (forall t1 t2, In t1 (all_times files) -> first_time (all_times files) t1 -> In t2 (all_times files) -> last_time (all_times files) t2 ->
       td_validity td = (t1, t2)) /\
    forall t lo hi, exists result, mma_call td t lo hi = Some result /\
      forall n m v, valid_nm n m -> mma_value nm files n m t v -> bounded_coefficient lo hi result n m v.
Proof.
  intros A (B & C & D & E & F). destruct (mma_sized nm files A B C D E F) as (td & E1 & E2 & E3). exists td. split; [exact E1|split; [exact E2|]].
  intros t lo hi. destruct (E3 t lo hi) as (r & R1 & _ & R2). now exists r.
Qed.

Lemma mma_2c_values nm1 nm2 files : files <> [] -> proper_files nm1 (map fst files) -> proper_files nm2 (map snd files) ->
  exists s, load_coeff_mma_multi_set files = Ok s /\
    (forall a b c d, In a (all_times (map fst files)) -> first_time (all_times (map fst files)) a ->
       In b (all_times (map fst files)) -> last_time (all_times (map fst files)) b ->
       In c (all_times (map snd files)) -> first_time (all_times (map snd files)) c ->
       In d (all_times (map snd files)) -> last_time (all_times (map snd files)) d ->
       forall t, fst (mma_2c_validity s) <= t <= snd (mma_2c_validity s) <-> a <= t <= b /\ c <= t <= d) /\
    forall t lo hi, exists result, mma_2c_call s t lo hi = Some result /\
      forall n m v1 v2, valid_nm n m -> mma_value nm1 (map fst files) n m t v1 -> mma_value nm2 (map snd files) n m t v2 ->
        bounded_coefficient lo hi result n m (v1 + v2).
Proof.
  intros Hne (A1 & B1 & C1 & D1 & E1) (A2 & B2 & C2 & D2 & E2).
  assert (N1 : map fst files <> []) by (destruct files; [congruence|discriminate]).
  assert (N2 : map snd files <> []) by (destruct files; [congruence|discriminate]).
  destruct (mma_sized nm1 _ N1 A1 B1 C1 D1 E1) as (s1 & F1 & V1 & G1). destruct (mma_sized nm2 _ N2 A2 B2 C2 D2 E2) as (s2 & F2 & V2 & G2).
  exists (s1, s2). unfold load_coeff_mma_multi_set. rewrite F1. cbn [bind]. rewrite F2. cbn [bind]. split; [reflexivity|]. split.
  - intros a b c d Ia Fa Ib Fb Ic Fc Id Fd t. unfold mma_2c_validity. cbn [fst snd].
    rewrite (V1 a b Ia Fa Ib Fb), (V2 c d Ic Fc Id Fd). cbn [fst snd]. rewrite <- !le_R, le_tmax, tmin_le. tauto.
  - intros t lo hi. destruct (G1 t lo hi) as (r1 & R1 & S1 & H1). destruct (G2 t lo hi) as (r2 & R2 & S2 & H2).
    exists (combine_cells [r1; r2]). unfold mma_2c_call. cbn [fst snd]. rewrite R1, R2. split; [reflexivity|].
    intros n m v1 v2 Vn M1 M2. replace (v1 + v2) with (fold_right Rplus 0 [v1; v2]) by (cbn [fold_right]; ring).
    apply combine_bounded; [exact Vn|constructor; [exact S1|constructor; [exact S2|constructor]]|]. constructor; [now apply H1|constructor; [now apply H2|constructor]].
Qed.

(** ** The files which are refused *)
Lemma read_nm f d nm : read_swarm_mma_coefficients f = Ok d -> file_nm f nm -> mma_nm d = nm /\ mma_t d = file_times f.
Proof.
  unfold read_swarm_mma_coefficients. intros E [H|H]; rewrite H in E;
    (destruct (map fst nm) as [|n ns]; [discriminate|]; unfold cdf_rawtime_to_mjd2000 in E; destruct (cv_epoch_type f); [|discriminate];
     cbn [bind] in E; destruct (transpose _ _); [|discriminate]; assert (E' : d = d) by reflexivity; injection E as <-; cbn [mma_nm mma_t];
     split; [reflexivity|apply mma_times]).
Qed.

Lemma read_all_app l1 : forall l2 ds, read_all (l1 ++ l2) = Ok ds -> exists d1 d2, ds = d1 ++ d2 /\ read_all l1 = Ok d1 /\ read_all l2 = Ok d2.
Proof.
  induction l1 as [|f l1 IH]; intros l2 ds E; [exists [], ds; repeat split; exact E|]. cbn [app read_all] in E.
  destruct (read_swarm_mma_coefficients f) as [d|] eqn:Ef; [|discriminate]. cbn [bind] in E.
  destruct (read_all (l1 ++ l2)) as [ds'|] eqn:E'; [|discriminate]. cbn [bind] in E. destruct (IH l2 ds' E') as (d1 & d2 & -> & E1 & E2).
  assert (ds = d :: d1 ++ d2) as -> by congruence. exists (d :: d1), d2. split; [reflexivity|]. split; [|exact E2].
  cbn [read_all]. rewrite Ef, E1. reflexivity.
Qed.

Lemma check_refused a b post : (mma_nm a <> mma_nm b \/ exists ts t u us, mma_t a = ts ++ [t] /\ mma_t b = u :: us /\ u < t) ->
  forall pre h, hd_error (pre ++ a :: b :: post) = Some h -> exists e, check_sets h (tl (pre ++ a :: b :: post)) = Err e.
Proof.
  intros H. induction pre as [|p pre IH]; intros h Eh; cbn [app hd_error tl] in *.
  - injection Eh as <-. cbn [check_sets]. destruct (_ || _); [eauto|]. destruct (nm_eqb (mma_nm a) (mma_nm b)) eqn:En; cbn [negb]; [|eauto].
    apply nm_eqb_spec in En. destruct H as [H|(ts & t & u & us & Ea & Eb & Hlt)]; [contradiction|].
    rewrite Ea, Eb, rev_app_distr. cbn [rev app]. rewrite (proj2 (ltb_lt u t)) by (now apply lt_R). eauto.
  - injection Eh as <-. destruct (pre ++ a :: b :: post) as [|q rest] eqn:Eq; [destruct pre; discriminate|]. cbn [check_sets].
    destruct (_ || _); [eauto|]. destruct (negb _); [eauto|]. destruct (rev (mma_t p)); [eauto|]. destruct (mma_t q); [eauto|]. destruct (ltb _ _); [eauto|].
    apply IH. reflexivity.
Qed.

Lemma mma_refused pre a b post na nb : file_nm a na -> file_nm b nb ->
  (na <> nb \/ exists ts t u us, file_times a = ts ++ [t] /\ file_times b = u :: us /\ u < t) ->
  exists e, load_coeff_mma_single_set (pre ++ a :: b :: post) = Err e.
Proof.
  intros Ha Hb H. unfold load_coeff_mma_single_set. rewrite mma_series_eq.
  destruct (read_all (pre ++ a :: b :: post)) as [ds|e] eqn:E; [|now exists e].
  destruct (read_all_app _ _ _ E) as (d1 & d2 & -> & E1 & E2). cbn [read_all] in E2.
  destruct (read_swarm_mma_coefficients a) as [da|] eqn:Ea; [|discriminate]. cbn [bind] in E2.
  destruct (read_swarm_mma_coefficients b) as [db|] eqn:Eb; [|discriminate]. cbn [bind] in E2.
  destruct (read_all post) as [dp|]; [|discriminate]. cbn [bind] in E2. assert (d2 = da :: db :: dp) as -> by congruence.
  destruct (read_nm _ _ _ Ea Ha) as [Na Ta]. destruct (read_nm _ _ _ Eb Hb) as [Nb Tb]. rewrite <- Na, <- Nb, <- Ta, <- Tb in H.
  cbn [bind]. unfold merge_coefficients. destruct (d1 ++ da :: db :: dp) as [|h rest] eqn:El; [destruct d1; discriminate|].
  destruct (check_refused da db dp H d1 h) as [e Ee]; [now rewrite El|]. rewrite El in Ee. cbn [tl] in Ee. rewrite Ee. cbn [bind]. now exists e.
Qed.
