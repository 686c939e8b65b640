(** Proofs about the field of a SHC file. *)
From Coq Require Import Bool List Arith ZArith Reals Lia Lra.
From Coquelicot Require Import Coquelicot.
From Verif Require Import Ord ROrd RbarOrd BisectModel BisectProofs InterpModel InterpSpec SnapshotProofs EmmProofs ArrModel CoefModel LegendreModel LegendreSpec GeoModel ShEvalModel ShEvalSpec ShEvalProofs ShEvalLinProofs ShEvalExamples
  SparseModel SparseSpec SparseProofs SeriesModel SeriesSpec SeriesProofs SeriesLineProofs TimeModel TempModel TempSpec TempProofs TempEquivProofs YearSetModel
  TextModel ShcModel ShcSpec ShcProofs ShcLoadModel ShcLoadSpec ShcLoadProofs FieldModel FieldSpec GradientProofs.
Import ListNotations.
Open Scope R_scope.
Set Bullet Behavior "Strict Subproofs".

(** ** The expansion *)
Lemma sum_zeros (T : nat -> R) N : (forall k, (N < k)%nat -> T k = 0) -> forall j, sum_f_R0 T (N + j) = sum_f_R0 T N.
Proof.
  intros H. induction j as [|j IH]; [now rewrite Nat.add_0_r|]. rewrite <- plus_n_Sm. cbn [sum_f_R0].
  rewrite IH, (H (S (N + j))) by lia. ring.
Qed.

Lemma potential_ext internal ref c gh D N r th ph :
  (forall n m, (m <= n)%nat -> (n <= D)%nat -> fst (c n m) = fst (gh n m) /\ ((0 < m)%nat -> snd (c n m) = snd (gh n m))) ->
  (forall n m, (m <= n)%nat -> (D < n)%nat -> fst (gh n m) = 0 /\ ((0 < m)%nat -> snd (gh n m) = 0)) ->
  (forall n m, (m <= n)%nat -> (N < n)%nat -> fst (gh n m) = 0 /\ ((0 < m)%nat -> snd (gh n m) = 0)) ->
  potential internal ref c D r th ph = potential internal ref gh N r th ph.
Proof.
  intros H HD HN. unfold potential. f_equal.
  assert (Z0 : forall n, (forall m, (m <= n)%nat -> fst (gh n m) = 0 /\ ((0 < m)%nat -> snd (gh n m) = 0)) ->
    radial internal ref n r * sum_f_R0 (fun m => (fst (gh n m) * cos (INR m * ph) + snd (gh n m) * sin (INR m * ph)) * schmidt n m th) n = 0).
  { intros n Hn. rewrite (sum_eq _ (fun _ => 0)).
    - rewrite sum_cte. ring.
    - intros m Hm. destruct (Hn m Hm) as [-> Hs]. destruct m as [|m].
      + change (INR 0) with 0. rewrite (Rmult_0_l ph), sin_0. ring.
      + rewrite Hs by lia. ring. }
  set (T := fun n => radial internal ref n r * sum_f_R0 (fun m => (fst (gh n m) * cos (INR m * ph) + snd (gh n m) * sin (INR m * ph)) * schmidt n m th) n) in *.
  transitivity (sum_f_R0 T D).
  - apply sum_eq. intros n Hn. unfold T. f_equal. apply sum_eq. intros m Hm. destruct (H n m Hm Hn) as [-> Hs]. destruct m as [|m].
    + change (INR 0) with 0. rewrite (Rmult_0_l ph), sin_0. ring.
    + rewrite Hs by lia. reflexivity.
  - rewrite <- (sum_zeros T D (fun k Hk => Z0 k (fun m Hm => HD k m Hm Hk)) N).
    rewrite <- (sum_zeros T N (fun k Hk => Z0 k (fun m Hm => HN k m Hm Hk)) D). f_equal. lia.
Qed.

(** ** One set *)
Lemma add_zeros r : forall n, length r = n -> add_rows (repeat (0, 0) n) r = r.
Proof.
  induction r as [|[a b] r IH]; intros n <-; [reflexivity|]. cbn [length repeat add_rows]. rewrite !Rplus_0_l. f_equal. now apply IH.
Qed.

Lemma plain_nth rows : forall r, plain_cells rows = Some r ->
  length r = length rows /\
  forall k, (k < length rows)%nat -> nth_error rows k = Some (Some (Some (fst (nth k r (0, 0)))), Some (Some (snd (nth k r (0, 0))))).
Proof.
  unfold plain_cells. induction rows as [|row rows IH]; intros r; cbn [map all_some].
  - intros [= <-]. split; [reflexivity|]. intros k L. cbn in L. lia.
  - destruct row as [[[a|]|] [[b|]|]]; try discriminate. destruct (all_some _) as [r'|]; [|discriminate]. intros [= <-].
    destruct (IH r' eq_refl) as [L H]. split; [cbn [length]; now rewrite L|]. intros [|k] Hk; [reflexivity|].
    cbn [nth_error nth]. apply H. cbn [length] in Hk. lia.
Qed.

(** the place of a coefficient in the rows *)
Definition place (n m : Z) : nat * bool := (Z.to_nat (n * (n + 1) / 2 + Z.abs m), (m <? 0)%Z).

Lemma half_even n : (2 * (n * (n + 1) / 2) = n * (n + 1))%Z.
Proof.
  pose proof (Z.div_mod (n * (n + 1)) 2 ltac:(lia)) as Dm. assert (((n * (n + 1)) mod 2 = 0)%Z); [|lia].
  destruct (Z.Even_or_Odd n) as [[k ->]|[k ->]].
  - replace (2 * k * (2 * k + 1))%Z with ((k * (2 * k + 1)) * 2)%Z by ring. apply Z.mod_mul. lia.
  - replace ((2 * k + 1) * (2 * k + 1 + 1))%Z with (((2 * k + 1) * (k + 1)) * 2)%Z by ring. apply Z.mod_mul. lia.
Qed.
Lemma size_twice d : (2 * coeff_size_z d = (d + 1) * (d + 2))%Z.
Proof. unfold coeff_size_z. pose proof (half_even (d + 1)). replace ((d + 2) * (d + 1))%Z with ((d + 1) * (d + 1 + 1))%Z by ring. lia. Qed.

Lemma leaf_value l u lo hi result r deg n m v :
  leaf_rows l u lo hi = Some (r, deg) -> Z.of_nat (length r) = coeff_size_z deg -> (0 <= deg)%Z ->
  td_call (fst l) (apply_convert (snd l)) (Some u) lo hi = Some result -> valid_nm n m -> coefficient result n m v ->
  cell (rows_coefs r) (place n m) = v.
Proof.
  intros El L D Ec V Hv. unfold leaf_rows in El. rewrite Ec in El. destruct result as [cells degree].
  destruct (plain_cells cells) as [r'|] eqn:Ep; [|discriminate El].
  assert (r' = r) by congruence. assert (degree = deg) by congruence. subst r' degree. clear El Ec.
  destruct (plain_nth cells r Ep) as [Lc Hn]. pose proof (half_even n) as Hh. pose proof (size_twice deg) as Ht. unfold valid_nm in V.
  unfold cell, place, rows_coefs. cbn [fst snd]. set (k := Z.to_nat (n * (n + 1) / 2 + Z.abs m)).
  destruct Hv as [(Ln & row & col & Pr & Pc & Cv)|[Ln ->]].
  - assert (Ek : row = Z.of_nat k) by (unfold packed_row in Pr; unfold k; nia). subst row.
    assert (Kl : (k < length cells)%nat) by (rewrite <- Lc; unfold k; nia).
    specialize (Hn k Kl). unfold cell_value in Cv. destruct (Z.ltb_spec (Z.of_nat k) 0); [lia|]. rewrite Nat2Z.id, Hn in Cv.
    destruct Pc as [[B ->]|[B ->]]; cbn [Z.eqb fst snd Pos.eqb] in Cv; injection Cv as Cv.
    + destruct (Z.ltb_spec m 0); [exact Cv|lia].
    + destruct (Z.ltb_spec m 0); [lia|exact Cv].
  - rewrite nth_overflow by (unfold k; nia). now destruct (m <? 0)%Z.
Qed.

Lemma combined_rows items u lo hi : List.Forall leaf_ok items ->
  exists r deg, combined_call items u lo hi = Some (r, deg) /\ Z.of_nat (length r) = coeff_size_z deg /\ (0 <= deg < 2 ^ 24)%Z /\
    forall n m vs, valid_nm n m ->
      Forall2 (fun (l : leaf_set) v => exists result, td_call (fst l) (apply_convert (snd l)) (Some u) lo hi = Some result /\ coefficient result n m v) items vs ->
      cell (rows_coefs r) (place n m) = fold_right Rplus 0 vs.
Proof.
  intros K. destruct (leaves_res lo hi u items K) as [ps F]. pose proof (rows_items lo hi u items ps F) as Er.
  unfold combined_call. rewrite Er. rewrite !map_map. cbn [fst snd]. set (N := fold_left Z.max (map (fun p => cs_degree (fst p)) ps) 0%Z).
  assert (Pos : (0 <= N < 2 ^ 24)%Z /\ forall p, In p ps -> (0 <= cs_degree (fst p) <= N)%Z).
  { destruct (fold_max_spec (fun z : Z => z) (map (fun p => cs_degree (fst p)) ps) 0%Z) as (M1 & M2 & M3).
    change (fold_left (fun d x => Z.max d x) (map (fun p => cs_degree (fst p)) ps) 0%Z) with N in *.
    assert (B : forall p, In p ps -> (0 <= cs_degree (fst p) < 2 ^ 24)%Z).
    { intros p Hp. clear - F Hp. induction F as [|l q items ps P F IH]; [destruct Hp|]. destruct Hp as [->|Hp]; [apply P|now apply IH]. }
    split.
    - split; [exact M2|]. destruct M1 as [->|(z & Hz & <-)]; [lia|]. apply in_map_iff in Hz as (p & <- & Hp). apply (B p Hp).
    - intros p Hp. split; [apply (B p Hp)|]. apply M3. apply in_map_iff. eauto. }
  destruct Pos as [PN Pp]. set (base := repeat (0, 0)%R (Z.to_nat (coeff_size_z N))). pose proof (size_twice N) as S2.
  change (map (fun x : coefset * list (R * R) => snd x) ps) with (map snd ps).
  assert (Lr : forall r, In r (map snd ps) -> (length r <= length base)%nat).
  { intros r Hr. apply in_map_iff in Hr as (p & <- & Hp). unfold base. rewrite repeat_length.
    assert (Lp : Z.of_nat (length (snd p)) = coeff_size_z (cs_degree (fst p))).
    { clear - F Hp. induction F as [|l q items ps P F IH]; [destruct Hp|]. destruct Hp as [->|Hp]; [apply P|now apply IH]. }
    pose proof (size_mono (cs_degree (fst p)) N (Pp p Hp)). lia. }
  exists (fold_left add_rows (map snd ps) base), N. split; [reflexivity|]. split; [|split; [exact PN|]].
  { destruct (fold_rows_cell (map snd ps) (0%nat, false) base Lr) as [_ ->]. unfold base. rewrite repeat_length. nia. }
  intros n m vs V Hv. destruct (fold_rows_cell (map snd ps) (place n m) base Lr) as [-> _]. unfold base. rewrite repeat_cell, Rplus_0_l.
  clear - F V Hv. revert vs Hv. induction F as [|l p items ps P F IH]; intros vs Hv; inversion Hv as [|? v ? vs' (result & Ec & Hc) Hv']; subst; [reflexivity|].
  cbn [map sum_cells fold_right]. fold (sum_cells (map snd ps) (place n m)). rewrite (IH _ Hv'). f_equal.
  destruct P as (_ & P1 & P2 & P3 & _). exact (leaf_value l _ lo hi result _ _ n m v P1 P2 (proj1 P3) Ec V Hc).
Qed.

Lemma deg_pos : 0 < PI / 180.
Proof. pose proof PI_RGT_0. lra. Qed.

Lemma in_degrees f (c th : R) dv : c <> 0 -> is_derive (fun x => f (x * c)) th (c * dv) -> is_derive f (th * c) dv.
Proof.
  intros C H. apply (is_derive_ext (fun y => f (y / c * c))).
  { intros y. f_equal. field. exact C. }
  assert (E : th = th * c / c) by (field; exact C). rewrite E in H.
  pose proof (is_derive_comp (fun x => f (x * c)) (fun y => y / c) (th * c) (c * dv) (/ c) H) as K.
  replace dv with (scal (/ c) (c * dv)) by (unfold scal; cbn; unfold mult; cbn; field; exact C).
  apply K. auto_derive; [exact I|]. field. exact C.
Qed.

Lemma near_lat lat : -90 < lat < 90 -> locally lat (fun l => -90 <= l <= 90).
Proof.
  intros H. apply (filter_imp (fun l => -90 < l /\ l < 90)); [intros l [A B]; lra|].
  apply filter_and; [apply (open_gt (-90) lat); lra|apply (open_lt 90 lat); lra].
Qed.

Lemma near_rad rad : rad <> 0 -> locally rad (fun r => r <> 0).
Proof. intro H. exact (open_neq 0 rad H). Qed.

(** ** The gradient *)
Lemma low_orders_ext c gh D N : 
  (forall n m, (m <= n)%nat -> (n <= D)%nat -> fst (c n m) = fst (gh n m) /\ ((0 < m)%nat -> snd (c n m) = snd (gh n m))) ->
  (forall n m, (m <= n)%nat -> (D < n)%nat -> fst (gh n m) = 0 /\ ((0 < m)%nat -> snd (gh n m) = 0)) ->
  (forall n m, (m <= n)%nat -> (N < n)%nat -> fst (gh n m) = 0 /\ ((0 < m)%nat -> snd (gh n m) = 0)) ->
  forall internal r th ph, potential internal 6371.2 (low_orders c) D r th ph = potential internal 6371.2 (low_orders gh) N r th ph.
Proof.
  intros H HD HN internal r th ph. apply potential_ext; intros n m Hm Hn; unfold low_orders; destruct (Nat.leb m 1); cbn [fst snd]; auto.
Qed.

Lemma field_of_ext internal c gh D N lat lon rad field :
  (forall n m, (m <= n)%nat -> (n <= D)%nat -> fst (c n m) = fst (gh n m) /\ ((0 < m)%nat -> snd (c n m) = snd (gh n m))) ->
  (forall n m, (m <= n)%nat -> (D < n)%nat -> fst (gh n m) = 0 /\ ((0 < m)%nat -> snd (gh n m) = 0)) ->
  (forall n m, (m <= n)%nat -> (N < n)%nat -> fst (gh n m) = 0 /\ ((0 < m)%nat -> snd (gh n m) = 0)) ->
  field_of internal c D lat lon rad field -> field_of internal gh N lat lon rad field.
Proof.
  intros H HD HN. destruct field as [[north east] up]. unfold field_of. cbv zeta.
  pose proof (fun r t p => potential_ext internal 6371.2 c gh D N r t p H HD HN) as E.
  pose proof (fun r t p => low_orders_ext c gh D N H HD HN internal r t p) as E1.
  intros (F1 & F2 & F3 & F4 & F5). split; [|split; [|split; [|split]]].
  - revert F1. apply is_derive_ext. intro t. apply E.
  - revert F2. apply is_derive_ext. intro t. apply E.
  - intro K. generalize (F3 K). apply is_derive_ext. intro t. apply E.
  - intro K. generalize (F4 K). apply is_derive_ext. intro t. apply E1.
  - intro K. generalize (F5 K). apply is_lim_ext. intro t. do 2 f_equal. apply Derive_ext. intro p. apply E.
Qed.

Lemma items_field items internal lo hi u gh N r deg :
  combined_call items u lo hi = Some (r, deg) -> Z.of_nat (length r) = coeff_size_z deg -> (0 <= deg < 2 ^ 24)%Z ->
  (forall n m, (m <= n)%nat -> cell (rows_coefs r) (place (Z.of_nat n) (Z.of_nat m)) = fst (gh n m) /\
     ((0 < m)%nat -> cell (rows_coefs r) (place (Z.of_nat n) (- Z.of_nat m)) = snd (gh n m))) ->
  (forall n m, (m <= n)%nat -> (N < n)%nat -> fst (gh n m) = 0 /\ ((0 < m)%nat -> snd (gh n m) = 0)) ->
  forall lat lon rad mem, -90 <= lat <= 90 -> rad <> 0 ->
  exists field, eval_single_time items internal lo hi u (nd0 (lat, lon, rad)) CT_GEOCENTRIC_SPHERICAL CT_GEOCENTRIC_SPHERICAL (1, 1, 1) mem
      = Some (Ok ([], [(None, Some field)])) /\
    field_of internal gh N lat lon rad field.
Proof.
  intros Ec Lr Dr Hc HN lat lon rad mem Hl Hr.
  unfold eval_single_time. rewrite Ec. set (csize := Z.of_nat (length r)) in *.
  assert (Rw : (2 * csize = (deg + 1) * (deg + 2))%Z) by (rewrite Lr; apply size_twice).
  assert (Cs : (1 <= csize < 2 ^ 50)%Z).
  { change (2 ^ 24)%Z with 16777216%Z in Dr. change (2 ^ 50)%Z with 1125899906842624%Z. nia. }
  set (D := Z.to_nat deg).
  assert (Ex : expansion_degree csize deg D).
  { exists D. unfold D. rewrite Z2Nat.id by lia. split; [nia|]. destruct (Z.ltb_spec deg 0); [lia|]. symmetry. apply Nat.min_id. }
  set (coef := fun k => nth k r (0, 0)).
  set (c := fun n m => coef (n * (n + 1) / 2 + m)%nat).
  (* the rows *)
  assert (Cell : forall n m, (m <= n)%nat -> fst (c n m) = fst (gh n m) /\ ((0 < m)%nat -> snd (c n m) = snd (gh n m))).
  { intros n m Hm. destruct (Hc n m Hm) as [Hg Hh].
    assert (Ek : forall z, Z.abs z = Z.of_nat m -> fst (place (Z.of_nat n) z) = (n * (n + 1) / 2 + m)%nat).
    { intros z Hz. unfold place. cbn [fst]. rewrite Hz. change 1%Z with (Z.of_nat 1). change 2%Z with (Z.of_nat 2).
      rewrite <- Nat2Z.inj_add, <- Nat2Z.inj_mul, <- Nat2Z.inj_div, <- Nat2Z.inj_add, Nat2Z.id. reflexivity. }
    unfold c, coef. split.
    - rewrite <- Hg. unfold cell, rows_coefs. rewrite Ek by lia. cbn [place snd]. destruct (Z.ltb_spec (Z.of_nat m) 0); [lia|reflexivity].
    - intro Pm. rewrite <- (Hh Pm). unfold cell, rows_coefs. rewrite Ek by lia. cbn [place snd].
      destruct (Z.ltb_spec (- Z.of_nat m) 0); [reflexivity|lia]. }
  assert (Row : forall n m, (m <= n)%nat -> (n <= D)%nat -> fst (c n m) = fst (gh n m) /\ ((0 < m)%nat -> snd (c n m) = snd (gh n m)))
    by (intros; now apply Cell).
  assert (Above : forall n m, (m <= n)%nat -> (D < n)%nat -> fst (gh n m) = 0 /\ ((0 < m)%nat -> snd (gh n m) = 0)).
  { intros n m Hm Hd. destruct (Cell n m Hm) as [<- Hs].
    assert (Z0 : c n m = (0, 0)).
    { unfold c, coef. apply nth_overflow. pose proof (half_even (Z.of_nat n)) as He.
      assert (Hq : Z.of_nat (n * (n + 1) / 2) = (Z.of_nat n * (Z.of_nat n + 1) / 2)%Z).
      { rewrite Nat2Z.inj_div, Nat2Z.inj_mul, Nat2Z.inj_add. reflexivity. }
      unfold csize in Rw. unfold D in Hd. nia. }
    split; [now rewrite Z0|]. intro Pm. rewrite <- (Hs Pm). now rewrite Z0. }
  destruct (sheval_field csize deg D coef internal lat lon rad mem Cs Ex Hl Hr) as (north & east & up & Hg & F).
  exists (- north, - east, - up). split.
  - f_equal. change (scalar_array coef) with (nd0 coef).
    pose proof (sheval_scaled _ _ _ _ _ _ _ _ 1 (- (1), - (1), - (1)) _ _ _ Hg) as Es. etransitivity; [exact Es|].
    cbn [map scaled fst snd]. repeat f_equal; ring.
  - exact (field_of_ext internal c gh D N lat lon rad _ Row Above HN F).
Qed.

(** ** The set of a file *)
Lemma mk_sparse_map {A B} (f : A -> B) (l : list (@entry A)) s : mk_sparse l = Some s ->
  mk_sparse (map (fun e => {| e_n := e_n e; e_m := e_m e; e_c := f (e_c e) |}) l)
    = Some {| s_entries := map (fun e => {| e_n := e_n e; e_m := e_m e; e_c := f (e_c e) |}) (s_entries s);
              s_degree := s_degree s; s_min_degree := s_min_degree s |}.
Proof.
  destruct l as [|e l]; [discriminate|]. unfold mk_sparse. intros [= <-]. cbn [map s_entries s_degree s_min_degree e_n]. f_equal. f_equal.
  - generalize (e_n e). induction l as [|x l IH]; intro d; [reflexivity|]. cbn [map fold_left e_n]. apply IH.
  - generalize (e_n e). induction l as [|x l IH]; intro d; [reflexivity|]. cbn [map fold_left e_n]. apply IH.
Qed.

Lemma constant_sets (ps : list (Z * Z)) (cs : list R) s e conv td :
  mk_constant (OI := TInf_Rbar) ps (map Some cs) s e conv = Some td ->
  exists td0, mk_time_dependent ps (map (fun v => [v]) cs) [0] 1 None None (fun x => x) = Some td0 /\
    td_sparse (constant_leaf td) = td_sparse td0 /\ td_times (constant_leaf td) = td_times td0 /\ td_order (constant_leaf td) = td_order td0.
Proof.
  unfold mk_constant, mk_time_dependent. rewrite !map_length. destruct (length ps =? length cs)%nat eqn:L; [|discriminate].
  rewrite !(proj2 (forallb_forall _ _)) by (intros c H; apply in_map_iff in H as (x & <- & _); reflexivity). cbn [andb].
  change (argsort [ninf]) with [0%nat]. change (argsort [0]) with [0%nat].
  assert (E : forall (V : Type) (l : list V), all_some (map (fun c => gather c [0%nat]) (map (fun v => [v]) l)) = Some (map (fun v => [v]) l)).
  { intros V l. induction l as [|c l IH]; [reflexivity|]. cbn [map gather nth_error all_some] in *. now rewrite IH. }
  rewrite !E. cbn [gather nth_error].
  destruct (mk_sparse (map _ (combine ps (map (fun v => [v]) (map Some cs))))) as [sp|] eqn:Es; [|discriminate].
  pose proof (mk_sparse_map (map (fun v : option R => match v with Some x => x | None => 0 end)) _ _ Es) as Em.
  rewrite map_map in Em. cbn [e_n e_m e_c] in Em.
  assert (Ec : map (fun x : Z * Z * list (option R) =>
      {| e_n := fst (fst x); e_m := snd (fst x); e_c := map (fun v : option R => match v with Some x => x | None => 0 end) (snd x) |})
      (combine ps (map (fun v => [v]) (map Some cs)))
    = map (fun x => {| e_n := fst (fst x); e_m := snd (fst x); e_c := snd x |}) (combine ps (map (fun v => [v]) cs))).
  { clear. revert cs. induction ps as [|p ps IH]; intros [|c cs]; try reflexivity. cbn [map combine fst snd]. now rewrite IH. }
  rewrite Ec in Em. rewrite Em. change ((1 =? 1) || (1 =? 2))%Z with true. cbn iota. intros [= <-].
  eexists. split; [reflexivity|]. repeat split.
Qed.

Lemma constant_leaf_values (ps : list (Z * Z)) (cs : list R) s e conv td (f : R -> R) t lo hi :
  mk_constant (OI := TInf_Rbar) ps (map Some cs) s e conv = Some td ->
  (forall i n m, nth_error ps i = Some (n, m) -> valid_nm n m) ->
  (forall i j p, nth_error ps i = Some p -> nth_error ps j = Some p -> i = j) ->
  exists result, td_call (constant_leaf td) f (Some t) lo hi = Some result /\
    (forall i n m v, nth_error ps i = Some (n, m) -> nth_error cs i = Some v -> bounded_coefficient lo hi result n m v) /\
    (forall n m, valid_nm n m -> ~ In (n, m) ps -> coefficient result n m 0).
Proof.
  intros Em Hv Hd. destruct (constant_sets ps cs _ _ _ td Em) as (td0 & E0 & E1 & E2 & E3).
  unfold td_call. rewrite E1, E2, E3.
  destruct (indices_entries _ _ _ _ _ _ _ td0 Hv Hd E0) as (Es & Ev & Ed & _ & Eo & cs' & Lcs & Een).
  destruct (snapshot_sorted _ _ _ _ _ _ _ td0 E0) as (times' & Pm & _ & Ett & _ & _ & _ & _ & G).
  apply Permutation.Permutation_sym, Permutation.Permutation_length_1_inv in Pm. subst times'.
  assert (Od : td_order td0 = 1%Z).
  { clear - E0. unfold mk_time_dependent in E0. destruct (_ && _)%bool; [|discriminate]. destruct (gather [0] _) as [[|? ?]|]; try discriminate;
    destruct (all_some _); try discriminate. destruct (mk_sparse _); [|discriminate]. cbn [Z.eqb orb Pos.eqb] in E0. now injection E0 as <-. }
  rewrite Od. change (td_kind 1) with INTERP_C0. rewrite Ett. cbn [map length min_nt Nat.leb].
  destruct (sparse_array (td_sparse td0) (fun c => interp_one [0] c INTERP_C0 true (nmap f (Some t))) lo hi Es Ev Ed)
    as (result & Er & _ & A & Z0).
  exists result. split; [exact Er|]. split.
  - intros i n m v Hi Ex. destruct (G i n m [v] Hi) as (c' & He & Lc & Pc); [exact (map_nth_error (fun v => [v]) i cs Ex)|].
    destruct c' as [|v' [|? ?]]; try discriminate. cbn [combine] in Pc.
    apply Permutation.Permutation_sym, Permutation.Permutation_length_1_inv in Pc. injection Pc as ->.
    apply (A {| e_n := n; e_m := m; e_c := [v] |} v (nth_error_In _ _ He)). cbn [e_c nmap]. unfold interp_one. cbn [get_interp_basis]. unfold get_interp0_basis.
    destruct (bisect_right_total (Some (f t)) [0]) as (j & -> & B). cbn [length] in *.
    change (is_last (Some (f t)) [0]) with (Some (Reqb (f t) 0)). cbn [orb interp_eval]. unfold interp0_eval. cbn [b_i].
    replace (clip j 0 (Z.of_nat 1 - 1)) with 0%Z; [reflexivity|].
    unfold clip. destruct (Z.ltb_spec j 0); auto. destruct (Z.ltb_spec (Z.of_nat 1 - 1) j); lia.
  - intros n m V Hno. apply Z0; [exact V|]. intros e' He [<- <-]. apply Hno.
    rewrite Een in He. apply in_map_iff in He as ([[n' m'] c'] & <- & Hin). cbn [e_n e_m fst snd]. exact (in_combine_l _ _ _ _ Hin).
Qed.

(** ** The neighbours of a time *)
Lemma greatest (P : R -> Prop) (Pdec : forall x, {P x} + {~ P x}) l : (exists y, In y l /\ P y) ->
  exists y, In y l /\ P y /\ forall z, In z l -> P z -> z <= y.
Proof.
  induction l as [|a l IH]; intros (y & Hy & Py); [destruct Hy|].
  assert (D : (exists y, In y l /\ P y) \/ forall z, In z l -> ~ P z).
  { clear - Pdec. induction l as [|b l IH]; [right; intros z []|]. destruct (Pdec b) as [Pb|Nb]; [left; exists b; split; [now left|exact Pb]|].
    destruct IH as [(y & Hy & Py)|N]; [left; exists y; split; [now right|exact Py]|right; intros z [<-|Hz]; auto]. }
  destruct D as [D|N].
  - destruct (IH D) as (w & Hw & Pw & Mw). destruct (Pdec a) as [Pa|Na].
    + destruct (Rle_dec a w) as [L|L].
      * exists w. split; [now right|]. split; [exact Pw|]. intros z [<-|Hz] Pz; [exact L|now apply Mw].
      * exists a. split; [now left|]. split; [exact Pa|]. intros z [<-|Hz] Pz; [lra|]. specialize (Mw z Hz Pz). lra.
    + exists w. split; [now right|]. split; [exact Pw|]. intros z [<-|Hz] Pz; [contradiction|now apply Mw].
  - destruct Hy as [<-|Hy]; [|now apply N in Py]. exists a. split; [now left|]. split; [exact Py|].
    intros z [<-|Hz] Pz; [lra|now apply N in Pz].
Qed.
Lemma least (P : R -> Prop) (Pdec : forall x, {P x} + {~ P x}) l : (exists y, In y l /\ P y) ->
  exists y, In y l /\ P y /\ forall z, In z l -> P z -> y <= z.
Proof.
  intros (y & Hy & Py). destruct (greatest (fun x => P (- x)) (fun x => Pdec (- x)) (map Ropp l)) as (w & Hw & Pw & Mw).
  { exists (- y). rewrite Ropp_involutive. split; [now apply in_map|exact Py]. }
  exists (- w). apply in_map_iff in Hw as (v & <- & Hv). rewrite Ropp_involutive in *. split; [exact Hv|]. split; [exact Pw|].
  intros z Hz Pz. specialize (Mw (- z) (in_map Ropp _ _ Hz)). rewrite Ropp_involutive in Mw. specialize (Mw Pz). lra.
Qed.

Lemma around (f : R -> R) times t : (exists a b, In a times /\ In b times /\ a < b) ->
  (forall a b, In a times -> In b times -> a < b -> f a < f b) ->
  exists ta tb, In ta times /\ In tb times /\ neighbours times ta tb /\
    (f ta <= t \/ first_time times ta) /\ (t <= f tb \/ last_time times tb).
Proof.
  intros (a & b & Ha & Hb & Hab) Hf.
  assert (Up : forall ta, In ta times -> (exists x, In x times /\ ta < x) ->
    exists tb, In tb times /\ neighbours times ta tb).
  { intros ta Hta Hx. destruct (least (fun x => ta < x) (Rlt_dec ta) times Hx) as (tb & H1 & H2 & H3). exists tb. split; [exact H1|].
    split; [exact H2|]. intros x Hxx [L1 L2]. specialize (H3 x Hxx L1). lra. }
  destruct (Rle_dec (f a) t) as [La|La].
  - destruct (greatest (fun x => f x <= t) (fun x => Rle_dec (f x) t) times) as (ta & H1 & H2 & H3); [now exists a|].
    destruct (Rlt_dec ta b) as [Lb|Lb].
    + destruct (Up ta H1 (ex_intro _ b (conj Hb Lb))) as (tb & T1 & T2). exists ta, tb.
      split; [exact H1|split; [exact T1|split; [exact T2|split; [now left|]]]].
      left. destruct (Rle_dec t (f tb)) as [|L]; [assumption|]. exfalso. assert (tb <= ta) by (apply H3; [exact T1|lra]). destruct T2 as [T2 _]. lra.
    + destruct (greatest (fun _ => True) (fun _ => left I) times) as (m & M1 & _ & M3); [now exists a|].
      destruct (Rlt_dec ta m) as [Lm|Lm].
      * destruct (Up ta H1 (ex_intro _ m (conj M1 Lm))) as (tb & T1 & T2). exists ta, tb.
        split; [exact H1|split; [exact T1|split; [exact T2|split; [now left|]]]].
        left. destruct (Rle_dec t (f tb)) as [|L]; [assumption|]. exfalso. assert (tb <= ta) by (apply H3; [exact T1|lra]). destruct T2 as [T2 _]. lra.
      * destruct (greatest (fun x => x < ta) (fun x => Rlt_dec x ta) times) as (tp & P1 & P2 & P3); [exists a; split; [exact Ha|lra]|].
        exists tp, ta. split; [exact P1|split; [exact H1|split]].
        -- split; [exact P2|]. intros x Hx [L1 L2]. specialize (P3 x Hx L2). lra.
        -- split; [left; specialize (Hf tp ta P1 H1 P2); lra|]. right. intros x Hx. specialize (M3 x Hx I). lra.
  - destruct (least (fun _ => True) (fun _ => left I) times) as (ta & H1 & _ & H3); [now exists a|].
    assert (Ma : ta <= a) by (apply H3; [exact Ha|exact I]).
    destruct (Rle_dec (f ta) t) as [Lt|Lt].
    + (* the greatest one below the time *)
      destruct (greatest (fun x => f x <= t) (fun x => Rle_dec (f x) t) times) as (tc & C1 & C2 & C3); [now exists ta|].
      assert (Lc : tc < a).
      { destruct (Rlt_dec tc a) as [|L]; [assumption|]. exfalso. apply La. destruct (Rle_lt_or_eq_dec a tc ltac:(lra)) as [L'| ->]; [|exact C2].
        specialize (Hf a tc Ha C1 L'). lra. }
      destruct (Up tc C1 (ex_intro _ a (conj Ha Lc))) as (tb & T1 & T2). exists tc, tb.
      split; [exact C1|split; [exact T1|split; [exact T2|split; [now left|]]]].
      left. destruct (Rle_dec t (f tb)) as [|L]; [assumption|]. exfalso. assert (tb <= tc) by (apply C3; [exact T1|lra]). destruct T2 as [T2 _]. lra.
    + assert (Lb : ta < b) by lra. destruct (Up ta H1 (ex_intro _ b (conj Hb Lb))) as (tb & T1 & T2). exists ta, tb.
      split; [exact H1|split; [exact T1|split; [exact T2|split]]].
      * right. intros x Hx. now apply H3.
      * left. destruct T2 as [T2 _]. specialize (Hf ta tb H1 T1 T2). lra.
Qed.

(** a table up to the degree *)
Lemma finite_table (Q : nat -> nat -> R * R -> Prop) N : (forall n m, exists p, Q n m p) -> (forall n m, (m <= n)%nat -> (N < n)%nat -> Q n m (0, 0)) ->
  exists gh, forall n m, (m <= n)%nat -> Q n m (gh n m).
Proof.
  intros He Hz.
  assert (One : forall (P : nat -> R * R -> Prop), (forall k, exists p, P k p) -> forall K, exists g, forall k, (k <= K)%nat -> P k (g k)).
  { intros P HP. induction K as [|K [g Hg]].
    - destruct (HP 0%nat) as [p Hp]. exists (fun _ => p). intros k L. now replace k with 0%nat by lia.
    - destruct (HP (S K)) as [p Hp]. exists (fun k => if (k <=? K)%nat then g k else p). intros k L.
      destruct (Nat.leb_spec k K) as [Lk|Lk]; [now apply Hg|now replace k with (S K) by lia]. }
  assert (Two : forall K, exists gh, forall n m, (n <= K)%nat -> (m <= n)%nat -> Q n m (gh n m)).
  { induction K as [|K [gh Hg]].
    - destruct (One (Q 0%nat) (He 0%nat) 0%nat) as [g Hg]. exists (fun _ => g). intros n m L1 L2. replace n with 0%nat in * by lia. now apply Hg.
    - destruct (One (Q (S K)) (He (S K)) (S K)) as [g Hg']. exists (fun n => if (n <=? K)%nat then gh n else g). intros n m L1 L2.
      destruct (Nat.leb_spec n K) as [Lk|Lk]; [now apply Hg|]. replace n with (S K) in * by lia. now apply Hg'. }
  destruct (Two N) as [gh Hg]. exists (fun n m => if (n <=? N)%nat then gh n m else (0, 0)). intros n m L.
  destruct (Nat.leb_spec n N) as [Ln|Ln]; [now apply Hg|now apply Hz].
Qed.

Lemma within_dec lo hi n : within_bounds lo hi n \/ ~ within_bounds lo hi n.
Proof. unfold within_bounds. lia. Qed.

(** ** Arrays *)
Lemma interpolated_ok items internal lo hi time x ci co scale mem : (1 <= length items <= 16)%nat -> List.Forall leaf_ok items ->
  common_dims_match (dims time) (dims x) = true ->
  exists out, eval_interpolated items internal lo hi time x ci co scale mem
    = Ok (if (length (dims x) <=? length (dims time))%nat then dims time else dims x, out).
Proof.
  intros L K C. destruct scale as [[s0 s1] s2]. unfold eval_interpolated.
  assert (G1 : (length (map (fun l => coefficient_set l lo hi) items) <? 1)%nat = false) by (rewrite map_length; apply Nat.ltb_ge; lia).
  assert (G2 : (16 <? length (map (fun l => coefficient_set l lo hi) items))%nat = false) by (rewrite map_length; apply Nat.ltb_ge; lia).
  match goal with |- exists out, ?e = _ => destruct e as [[od out]|er] eqn:E end.
  - exists out. unfold shevaltemp in E. rewrite G1, G2 in E. cbn [dims] in E. destruct (parse_coefsets _); [|discriminate]. cbv zeta in E.
    rewrite C in E. cbn [negb] in E. destruct (model_init _ _ _ _ _ _ _) as [cfg sh]. destruct (shevaltemp_items _ _ _ _ _ _ _ _ _) as [[o st]|]; [|discriminate].
    now injection E as <- <-.
  - exfalso. unfold shevaltemp in E. rewrite G1, G2 in E. cbn [dims] in E.
    assert (U : List.Forall usable_set (map (fun l => coefficient_set l lo hi) items)).
    { clear - K. induction K as [|l items H K IH]; cbn [map]; constructor; [now apply leaf_usable|exact IH]. }
    destruct (parse_sets_ok _ U) as (css & Ec & F). rewrite Ec in E. cbv zeta in E. rewrite C in E. cbn [negb] in E.
    destruct (model_init _ _ _ _ _ _ _) as [cfg sh]. fold (max_degree css) in E.
    match type of E with context [shevaltemp_items ?a ?b ?c ?d ?e ?f ?g ?h ?i] =>
      destruct (items_total a b c d (sets_ok _ css F) e f g h i) as [[o st] Ei]; rewrite Ei in E end. discriminate.
Qed.

(** the sets with the conversion of the time which is applied *)
Definition uniform (items : list leaf_set) : list leaf_set := map (fun l => (fst l, first_convert items)) items.

Lemma uniform_first items : first_convert (uniform items) = first_convert items.
Proof.
  unfold uniform. assert (H : forall c (l : list leaf_set), l <> [] -> first_convert (map (fun x => (fst x, c)) l) = c).
  { intros c l N. induction l as [|x l IH]; [contradiction|]. cbn [map first_convert]. destruct c as [f|]; [reflexivity|].
    destruct l as [|y l]; [reflexivity|]. apply IH. intro K; inversion K. }
  destruct items as [|x items]; [reflexivity|]. apply H. intro K; inversion K.
Qed.
Lemma uniform_eval items internal lo hi time x ci co scale mem :
  eval_interpolated items internal lo hi time x ci co scale mem = eval_interpolated (uniform items) internal lo hi time x ci co scale mem.
Proof.
  unfold eval_interpolated. rewrite uniform_first. destruct scale as [[s0 s1] s2]. cbv zeta. f_equal. unfold uniform. rewrite map_map. reflexivity.
Qed.
Lemma uniform_built items : List.Forall built_set items -> List.Forall built_set (uniform items).
Proof. intro H. unfold uniform. generalize (first_convert items) as c. intro c. induction H; cbn [map]; constructor; assumption. Qed.
Lemma nth_map_some {A B} (f : A -> B) (l : list A) i b : nth_error (map f l) i = Some b -> exists a, nth_error l i = Some a /\ b = f a.
Proof. rewrite nth_error_map. destruct (nth_error l i) as [a|]; [|discriminate]. intros [= <-]. now exists a. Qed.
Lemma uniform_disjoint items : disjoint_sets items -> disjoint_sets (uniform items).
Proof.
  intros H i j a b nm Hi Hj Ha Hb. apply nth_map_some in Hi as (x & Ei & ->). apply nth_map_some in Hj as (y & Ej & ->).
  exact (H i j x y nm Ei Ej Ha Hb).
Qed.
Lemma uniform_conversion items t : same_conversion (uniform items) t.
Proof. intros a b Ha Hb. unfold uniform in *. apply in_map_iff in Ha as (x & <- & _). apply in_map_iff in Hb as (y & <- & _). reflexivity. Qed.
Lemma uniform_length items : length (uniform items) = length items.
Proof. apply map_length. Qed.

Lemma single_disjoint l : disjoint_sets [l].
Proof. intros [|[|i]] [|[|j]] a b nm Hi Hj; try discriminate; reflexivity. Qed.

Lemma le_Rbar (a b : Rbar) : le a b <-> Rbar_le a b.
Proof.
  rewrite <- leb_le. destruct a as [x| |], b as [y| |]; cbn; try apply Rleb_le; split; intro K; try exact I; try reflexivity; try discriminate K; contradiction.
Qed.

Lemma time_valid_spec validity t : time_valid validity t = true <-> in_validity validity t.
Proof.
  unfold time_valid, in_validity. destruct t as [u|].
  - rewrite andb_true_iff, !leb_le, !le_Rbar. split.
    + intros [A B]. exists u. auto.
    + intros (v & [= <-] & A & B). auto.
  - split; [discriminate|]. intros (v & E & _). discriminate.
Qed.

Lemma select_filter {A} (p : A -> bool) l : select (map p l) l = filter p l.
Proof. induction l as [|a l IH]; [reflexivity|]. cbn [map select filter]. rewrite IH. reflexivity. Qed.

Lemma scatter_filter {A B} (p : A -> bool) (Rel : A -> B -> Prop) l : forall base outs, length base = length l ->
  Forall2 Rel (filter p l) outs ->
  Forall2 (fun ab o => (p (fst ab) = true -> Rel (fst ab) o) /\ (p (fst ab) = false -> o = snd ab)) (combine l base)
    (scatter (fun _ v => v) (map p l) base outs).
Proof.
  induction l as [|a l IH]; intros [|b base] outs L F; try discriminate; [constructor|]. cbn [filter map scatter combine] in *. injection L as L. destruct (p a) eqn:E.
  - inversion F as [|? o ? outs' Ro F']; subst. constructor; [cbn [fst snd]; split; [auto|congruence]|]. now apply IH.
  - constructor; [cbn [fst snd]; split; [congruence|auto]|]. now apply IH.
Qed.

Lemma forall2_nth {A B} (Rel : A -> B -> Prop) : forall l1 l2, length l1 = length l2 ->
  (forall k a, nth_error l1 k = Some a -> exists b, nth_error l2 k = Some b /\ Rel a b) -> Forall2 Rel l1 l2.
Proof.
  induction l1 as [|a l1 IH]; intros [|b l2] L H; try discriminate; constructor.
  - destruct (H 0%nat a eq_refl) as (b' & [= <-] & Hr). exact Hr.
  - apply IH; [now injection L|]. intros k a' Hk. exact (H (S k) a' Hk).
Qed.
Lemma forall2_at {A B} (Rel : A -> B -> Prop) l1 l2 : Forall2 Rel l1 l2 -> forall k a b, nth_error l1 k = Some a -> nth_error l2 k = Some b -> Rel a b.
Proof. induction 1 as [|a b l1 l2 H F IH]; intros [|k] x y Ha Hb; try discriminate; [cbn in *; congruence|]. exact (IH k x y Ha Hb). Qed.

Lemma forall2_impl {A B} (P Q : A -> B -> Prop) l1 l2 : (forall a b, P a b -> Q a b) -> Forall2 P l1 l2 -> Forall2 Q l1 l2.
Proof. intros H. induction 1; constructor; auto. Qed.

Lemma forall2_length {A B} (P : A -> B -> Prop) l1 l2 : Forall2 P l1 l2 -> length l1 = length l2.
Proof. induction 1; cbn [length]; congruence. Qed.

Lemma indices_1d k : indices [k] = map (fun i => [i]) (seq 0 k).
Proof. cbn [indices map]. generalize (seq 0 k). induction l as [|i l IH]; [reflexivity|]. cbn [flat_map map app]. now rewrite IH. Qed.

Lemma component_elements items validity internal lo hi ci co scale mem base txs : length base = length txs -> (1 <= length items <= 16)%nat -> List.Forall built_set items -> disjoint_sets items ->
  exists out, component_array validity items internal lo hi ci co scale mem base txs = Ok out /\
    Forall2 (fun (txb : (option R * vec3) * option vec3) (o : option vec3) =>
             (in_validity validity (fst (fst txb)) -> exists u, fst (fst txb) = Some u /\ forall mem', exists pot,
                eval_single_time (uniform items) internal lo hi u (nd0 (snd (fst txb))) ci co scale mem' = Some (Ok ([], [(pot, o)]))) /\
             (~ in_validity validity (fst (fst txb)) -> o = snd txb)) (combine txs base) out.
Proof.
  intros Lb L Hb Dj. unfold component_array. cbv zeta. rewrite uniform_eval. apply uniform_built in Hb. apply uniform_disjoint in Dj.
  pose proof (List.Forall_impl _ built_ok Hb) as K.
  set (p := fun tx : option R * vec3 => time_valid validity (fst tx)). rewrite (select_filter p).
  set (sel := filter p txs).
  set (ts := map (fun tx : option R * vec3 => match fst tx with Some u => u | None => 0 end) sel).
  destruct (interpolated_ok (uniform items) internal lo hi (vector 0 ts) (vector (0, 0, 0) (map snd sel)) ci co scale mem) as [out E].
  { now rewrite uniform_length. }
  { exact K. }
  { cbn [vector dims common_dims_match]. unfold ts. rewrite !map_length, Nat.eqb_refl. reflexivity. }
  rewrite E. eexists. split; [reflexivity|].
  assert (Od : dims (vector 0 ts) = [length sel]) by (cbn [vector dims]; unfold ts; now rewrite map_length).
  match type of E with _ = Ok (?o, _) => assert (Oe : o = [length sel]) by exact Od end. rewrite Oe in E.
  destruct (paths_agree_arrays (uniform items) internal lo hi _ _ ci co scale mem _ out Hb Dj
    (fun ix => uniform_conversion items _) E) as [Lo Ho].
  assert (F : Forall2 (fun (tx : option R * vec3) (o : option vec3) => exists u, fst tx = Some u /\ forall mem', exists pot,
      eval_single_time (uniform items) internal lo hi u (nd0 (snd tx)) ci co scale mem' = Some (Ok ([], [(pot, o)]))) sel (map snd out)).
  { rewrite indices_1d, map_length, seq_length in Lo. apply forall2_nth; [now rewrite map_length|]. intros k tx Hk.
    assert (Lk : (k < length sel)%nat) by (apply (proj1 (nth_error_Some sel k)); rewrite Hk; discriminate).
    destruct (Ho k [k]) as (o & Hok & Hs).
    { rewrite indices_1d. apply (map_nth_error (fun i => [i])). rewrite (nth_error_nth' _ 0%nat) by (now rewrite seq_length). now rewrite seq_nth. }
    exists (snd o). split; [now apply map_nth_error|].
    assert (Vt : time_valid validity (fst tx) = true) by (apply nth_error_In in Hk; now apply filter_In in Hk).
    destruct (fst tx) as [u|] eqn:Eu; [|discriminate]. exists u. split; [reflexivity|]. intro mem'. exists (fst o). specialize (Hs mem').
    assert (A1 : at_index (vector 0 ts) [k] = u).
    { unfold at_index, vector. cbn [dims length firstn get hd]. apply nth_error_nth. unfold ts.
      rewrite (map_nth_error _ _ _ Hk), Eu. reflexivity. }
    assert (A2 : at_index (vector (0, 0, 0) (map snd sel)) [k] = snd tx).
    { unfold at_index, vector. cbn [dims length firstn get hd]. apply nth_error_nth. now apply map_nth_error. }
    rewrite A1, A2 in Hs. rewrite <- surjective_pairing. exact Hs. }
  pose proof (scatter_filter p _ txs base _ Lb F) as G. eapply forall2_impl; [|exact G]. intros [tx b0] o [G1 G2]. cbn [fst snd] in *. unfold p in G1, G2. split.
  - intro V. apply G1. now apply time_valid_spec.
  - intro V. apply G2. apply not_true_iff_false. intro V'. now apply V, time_valid_spec.
Qed.

Lemma combine_none {A B} (Rel : A -> option B -> option B -> Prop) l : forall out,
  Forall2 (fun ab o => Rel (fst ab) (snd ab) o) (combine l (map (fun _ => None) l)) out -> Forall2 (fun a o => Rel a None o) l out.
Proof. induction l as [|a l IH]; intros out F; cbn [map combine] in F; inversion F; subst; constructor; auto. Qed.

Lemma array_elements items validity internal lo hi ci co scale mem txs : (1 <= length items <= 16)%nat -> List.Forall built_set items -> disjoint_sets items ->
  exists out, model_eval_array validity items internal lo hi ci co scale mem txs = Ok out /\
    Forall2 (fun (tx : option R * vec3) (o : option vec3) => (in_validity validity (fst tx) -> exists u, fst tx = Some u /\ forall mem', exists pot,
                eval_single_time (uniform items) internal lo hi u (nd0 (snd tx)) ci co scale mem' = Some (Ok ([], [(pot, o)]))) /\
             (~ in_validity validity (fst tx) -> o = None)) txs out.
Proof.
  intros L Hb Dj. destruct (component_elements items validity internal lo hi ci co scale mem (map (fun _ => None) txs) txs (map_length _ _) L Hb Dj) as (out & E & F).
  exists out. split; [exact E|]. exact (combine_none (fun tx b o => (in_validity validity (fst tx) -> exists u, fst tx = Some u /\ forall mem', exists pot,
                eval_single_time (uniform items) internal lo hi u (nd0 (snd tx)) ci co scale mem' = Some (Ok ([], [(pot, o)]))) /\
             (~ in_validity validity (fst tx) -> o = b)) txs out F).
Qed.

(** ** The field of sets *)
Section Table.
Variables (value : R -> Z -> Z -> R -> Prop) (N : nat).
Hypotheses
  (Hex : forall t n m, valid_nm n m -> exists v, value t n m v)
  (Habove : forall t n m v, (Z.of_nat N < n)%Z -> value t n m v -> v = 0).

Lemma table_exists lo hi t : exists gh, coefficient_table (value t) lo hi gh.
Proof.
  destruct (finite_table (fun n m p => (m <= n)%nat ->
    (within_bounds lo hi (Z.of_nat n) -> value t (Z.of_nat n) (Z.of_nat m) (fst p) /\
       ((0 < m)%nat -> value t (Z.of_nat n) (- Z.of_nat m) (snd p))) /\
    (~ within_bounds lo hi (Z.of_nat n) -> p = (0, 0))) N) as [gh H]; [| |exists gh; intros n m Hm; exact (H n m Hm Hm)].
  - intros n m. destruct (Nat.leb_spec m n) as [L|L]; [|exists (0, 0); lia]. destruct (within_dec lo hi (Z.of_nat n)) as [W|W].
    + destruct (Hex t (Z.of_nat n) (Z.of_nat m)) as [g Hg]; [unfold valid_nm; lia|].
      destruct (Hex t (Z.of_nat n) (- Z.of_nat m)) as [h Hh]; [unfold valid_nm; lia|].
      exists (g, h). split; [auto|contradiction].
    + exists (0, 0). split; [contradiction|reflexivity].
  - intros n m Hm Hn _. split; [|reflexivity]. intros _. cbn [fst snd].
    assert (Zr : forall k, valid_nm (Z.of_nat n) k -> value t (Z.of_nat n) k 0).
    { intros k V. destruct (Hex t (Z.of_nat n) k V) as [v Hv].
      assert (Ln : (Z.of_nat N < Z.of_nat n)%Z) by lia. now rewrite (Habove t _ _ _ Ln Hv) in Hv. }
    split; [|intros _]; apply Zr; unfold valid_nm; lia.
Qed.

End Table.

Section Set_.
Variables (items : list leaf_set) (validity : Rbar * Rbar) (value : R -> Z -> Z -> R -> Prop) (N : nat).
Hypotheses (HL : (1 <= length items <= 16)%nat) (Hb : List.Forall built_set items) (Hd : disjoint_sets items)
  (Hcall : forall t lo hi n m v, valid_nm n m -> value t n m v -> exists vs, v = fold_right Rplus 0 vs /\
     Forall2 (fun (l : leaf_set) w => exists result, td_call (fst l) (apply_convert (first_convert items)) (Some t) lo hi = Some result /\
                bounded_coefficient lo hi result n m w) items vs)
  (Hex : forall t n m, valid_nm n m -> exists v, value t n m v)
  (Habove : forall t n m v, (Z.of_nat N < n)%Z -> value t n m v -> v = 0).

(** one time and location *)
Lemma field_at internal lo hi u gh : coefficient_table (value u) lo hi gh ->
  forall lat lon rad mem, -90 <= lat <= 90 -> rad <> 0 ->
  exists field, eval_single_time (uniform items) internal lo hi u (nd0 (lat, lon, rad)) CT_GEOCENTRIC_SPHERICAL CT_GEOCENTRIC_SPHERICAL (1, 1, 1) mem
      = Some (Ok ([], [(None, Some field)])) /\
    field_of internal gh N lat lon rad field.
Proof.
  intros Hg. destruct (combined_rows (uniform items) u lo hi (List.Forall_impl _ built_ok (uniform_built _ Hb))) as (r & deg & Er & Lr & Dr & B).
  apply (items_field (uniform items) internal lo hi u gh N r deg Er Lr Dr).
  - intros n m Hm. destruct (Hg n m Hm) as [G1 G2].
    assert (One : forall k v, valid_nm (Z.of_nat n) k -> (within_bounds lo hi (Z.of_nat n) -> value u (Z.of_nat n) k v) ->
      (~ within_bounds lo hi (Z.of_nat n) -> v = 0) -> cell (rows_coefs r) (place (Z.of_nat n) k) = v).
    { intros k v V W1 W2. destruct (within_dec lo hi (Z.of_nat n)) as [W|W].
      - destruct (Hcall u lo hi _ _ _ V (W1 W)) as (vs & -> & F). apply (B _ _ vs V). clear - F W. unfold uniform.
        revert F. generalize (first_convert items) as c. intros c F. induction F as [|l w its vs (res & Er & Hw) F IH]; cbn [map]; constructor; [|exact IH].
        exists res. split; [exact Er|now apply Hw].
      - rewrite (W2 W). destruct (Hex u (Z.of_nat n) k V) as [w Hw]. destruct (Hcall u lo hi _ _ _ V Hw) as (vs & _ & F).
        assert (Zs : forall (l : list R), fold_right Rplus 0 (map (fun _ => 0) l) = 0) by (induction l as [|x l IH]; cbn [map fold_right]; [reflexivity|rewrite IH; ring]).
        rewrite <- (Zs vs). apply (B _ _ _ V). clear - F W. unfold uniform.
        revert F. generalize (first_convert items) as c. intros c F. induction F as [|l w its vs (res & Er & Hw) F IH]; cbn [map]; constructor; [|exact IH].
        exists res. split; [exact Er|now apply Hw]. }
    split; [|intro Pm]; (apply One; [unfold valid_nm; lia|intro W|intro W; now rewrite (G2 W)]); [apply (G1 W)|now apply (G1 W)].
  - intros n m Hm Ln. destruct (Hg n m Hm) as [G1 G2]. destruct (within_dec lo hi (Z.of_nat n)) as [W|W].
    + destruct (G1 W) as [A1 A2]. assert (Ln' : (Z.of_nat N < Z.of_nat n)%Z) by lia. split; [exact (Habove _ _ _ _ Ln' A1)|].
      intro Pm. exact (Habove _ _ _ _ Ln' (A2 Pm)).
    + rewrite (G2 W). now split.
Qed.

Lemma array_set internal lo hi mem txs :
  exists out, model_eval_array validity items internal lo hi CT_GEOCENTRIC_SPHERICAL CT_GEOCENTRIC_SPHERICAL (1, 1, 1) mem txs = Ok out /\
    length out = length txs /\
    forall i t lat lon rad o, nth_error txs i = Some (t, (lat, lon, rad)) -> nth_error out i = Some o ->
      (~ in_validity validity t -> o = None) /\
      (forall u gh, t = Some u -> in_validity validity t -> -90 <= lat <= 90 -> rad <> 0 ->
         coefficient_table (value u) lo hi gh ->
         exists field, o = Some field /\ field_of internal gh N lat lon rad field).
Proof.
  destruct (array_elements items validity internal lo hi CT_GEOCENTRIC_SPHERICAL CT_GEOCENTRIC_SPHERICAL (1, 1, 1) mem txs HL Hb Hd) as (out & Eo & F).
  exists out. split; [exact Eo|]. split; [symmetry; exact (forall2_length _ _ _ F)|].
  intros i t lat lon rad o Hi Ho. destruct (forall2_at _ _ _ F i _ _ Hi Ho) as [F1 F2]. cbn [fst snd] in F1, F2. split; [exact F2|].
  intros u gh -> V Hl Hr Hg. destruct (F1 V) as (u' & [= <-] & Hs). destruct (Hs mem) as [pot Hp].
  destruct (field_at internal lo hi u gh Hg lat lon rad mem Hl Hr) as (field & Ef & Gf).
  exists field. split; [|exact Gf]. pose proof (eq_trans (eq_sym Hp) Ef) as X. now injection X as _ ->.
Qed.

Lemma scalar_set internal lo hi mem t location :
  exists out, model_eval_scalar validity items internal lo hi CT_GEOCENTRIC_SPHERICAL CT_GEOCENTRIC_SPHERICAL (1, 1, 1) mem t location
      = Ok (dims location, out) /\
    length out = length (indices (dims location)) /\
    forall i ix lat lon rad o, nth_error (indices (dims location)) i = Some ix -> at_index location ix = (lat, lon, rad) -> nth_error out i = Some o ->
      (~ in_validity validity t -> o = None) /\
      (forall u gh, t = Some u -> in_validity validity t -> -90 <= lat <= 90 -> rad <> 0 ->
         coefficient_table (value u) lo hi gh ->
         exists field, o = Some field /\ field_of internal gh N lat lon rad field).
Proof.
  unfold model_eval_scalar. unfold vec3 in *. destruct (time_valid validity t) eqn:V.
  - destruct t as [u|]; [|discriminate].
    rewrite uniform_eval. assert (HL' : (1 <= length (uniform items) <= 16)%nat) by (now rewrite uniform_length).
    destruct (interpolated_ok (uniform items) internal lo hi (nd0 u) location CT_GEOCENTRIC_SPHERICAL CT_GEOCENTRIC_SPHERICAL (1, 1, 1) mem HL'
      (List.Forall_impl _ built_ok (uniform_built _ Hb)) eq_refl) as [out E].
    assert (Od : (if (length (dims location) <=? length (dims (nd0 u)))%nat then dims (nd0 u) else dims location) = dims location).
    { cbn [nd0 dims length]. destruct (dims location); reflexivity. }
    rewrite Od in E. rewrite E. exists (map snd out). split; [reflexivity|].
    destruct (paths_agree_arrays (uniform items) internal lo hi _ _ _ _ _ mem _ out (uniform_built _ Hb) (uniform_disjoint _ Hd)
      (fun ix => uniform_conversion items _) E) as [Lo Ho].
    split; [now rewrite map_length|]. intros i ix lat lon rad o Hi Hx Hio. split.
    { intro N'. exfalso. now apply N', time_valid_spec. }
    intros u' gh [= <-] _ Hl Hr Hg. destruct (Ho i ix Hi) as (o' & Ho' & Hs). rewrite (map_nth_error snd _ _ Ho') in Hio. injection Hio as <-.
    specialize (Hs mem). rewrite Hx in Hs. change (at_index (nd0 u) ix) with u in Hs.
    destruct (field_at internal lo hi u gh Hg lat lon rad mem Hl Hr) as (field & Ef & Gf).
    exists field. split; [|exact Gf]. pose proof (eq_trans (eq_sym Hs) Ef) as X. now injection X as ->.
  - eexists. split; [reflexivity|]. split; [apply map_length|]. intros i ix lat lon rad o Hi _ Hio.
    rewrite (map_nth_error _ _ _ Hi) in Hio. injection Hio as <-. split; [reflexivity|].
    intros u gh _ V'. apply time_valid_spec in V'. congruence.
Qed.
End Set_.

(** One set *)
Lemma single_call (l : leaf_set) (value : R -> Z -> Z -> R -> Prop) :
  (forall t lo hi, exists result, td_call (fst l) (apply_convert (snd l)) (Some t) lo hi = Some result /\
     forall n m v, valid_nm n m -> value t n m v -> bounded_coefficient lo hi result n m v) ->
  forall t lo hi n m v, valid_nm n m -> value t n m v -> exists vs, v = fold_right Rplus 0 vs /\
     Forall2 (fun (l' : leaf_set) w => exists result, td_call (fst l') (apply_convert (first_convert [l])) (Some t) lo hi = Some result /\
                bounded_coefficient lo hi result n m w) [l] vs.
Proof.
  intros H t lo hi n m v V Hv. destruct (H t lo hi) as (result & E & B). exists [v]. split; [cbn [fold_right]; ring|]. constructor; [|constructor].
  exists result. split; [|now apply B]. destruct l as [td [f|]]; exact E.
Qed.
Lemma single_length (l : leaf_set) : (1 <= length [l] <= 16)%nat.
Proof. cbn. lia. Qed.

(** ** SHC files *)
Section File.
Variables (to_int : text -> option Z) (to_float : text -> option R).

Definition small_degrees (d : @shc_data R) : Prop := forall n m, file_lists d n m -> (n < 2 ^ 24)%Z.

Lemma shc_built years vs ve file d set : shc_file to_int to_float file d -> proper_shc d -> proper_times years (shc_t d) -> small_degrees d ->
  load_coeff_shc to_int to_float years vs ve file = Parsed set -> built_set (shc_leaf set).
Proof.
  intros Hf P (T1 & _) Sm. destruct (shc_parsed to_int to_float file d Hf P) as (d' & ps & E & Et & Eg & Ep & En & Nn & Lp & Hv & Hd & _).
  destruct P as (_ & _ & _ & P4).
  assert (Hs : forall i n m, nth_error ps i = Some (n, m) -> valid_nm n m /\ (n < 2 ^ 24)%Z).
  { intros i n m Hi. split; [now apply (Hv i)|]. apply (Sm n m). unfold file_lists. rewrite En. apply pairs_in. now apply nth_error_In in Hi. }
  unfold load_coeff_shc. rewrite E. cbn [pbind]. cbv zeta. rewrite Ep. cbn [pbind]. rewrite Et, Eg.
  destruct (Nat.eqb_spec (length (shc_t d)) 1) as [L1|L1].
  - rewrite L1 in P4. destruct (first_column_ok _ P4) as (cs & Ec & Eh). rewrite Ec. cbn [pbind].
    match goal with |- context [mk_constant ps (map Some cs) ?s ?e ?c] => destruct (mk_constant ps (map Some cs) s e c) as [td|] eqn:Em; [|discriminate] end.
    intros [= <-]. destruct (constant_sets ps cs _ _ _ td Em) as (td0 & E0 & E1 & E2 & E3).
    exists ps, (map (fun v => [v]) cs), [0], 1%Z, None, None, (fun x => x), td0.
    split; [exact E0|]. cbn [shc_leaf fst]. repeat split; try assumption; try (apply (Hs _ _ _ H)). discriminate.
  - assert (L2 : (2 <= length (shc_t d))%nat) by (destruct (shc_t d); [contradiction|]; cbn in *; lia).
    destruct years.
    + unfold mk_year_set. match goal with |- context [mk_time_dependent ?a ?b ?c ?x ?y ?z ?f] => destruct (mk_time_dependent a b c x y z f) as [td|] eqn:Em; [|discriminate] end.
      intros [= <-]. do 8 eexists. split; [exact Em|]. cbn [shc_leaf fst td_sparse td_times td_order]. repeat split; try exact (fun i j p => Hd i j p); try (apply (Hs _ _ _ H)); try assumption. intros _. exact L2.
    + match goal with |- context [mk_time_dependent ?a ?b ?c ?x ?y ?z ?f] => destruct (mk_time_dependent a b c x y z f) as [td|] eqn:Em; [|discriminate] end.
      intros [= <-]. do 8 eexists. split; [exact Em|]. cbn [shc_leaf fst]. repeat split; try exact (fun i j p => Hd i j p); try (apply (Hs _ _ _ H)); try assumption. intros _. exact L2.
Qed.

(** the time conversions with which the set can be evaluated: that of the set, or any if it is constant *)
Definition own_conversion (set : shc_set) (f : R -> R) : Prop :=
  match set with Shc_constant _ => True | _ => f = apply_convert (snd (shc_leaf set)) end.

Lemma shc_leaf_values_any years vs ve file d set f : shc_file to_int to_float file d -> proper_shc d -> proper_times years (shc_t d) ->
  load_coeff_shc to_int to_float years vs ve file = Parsed set -> own_conversion set f ->
  forall t lo hi, exists result, td_call (fst (shc_leaf set)) f (Some t) lo hi = Some result /\
    forall n m v, valid_nm n m -> shc_value years d n m t v -> bounded_coefficient lo hi result n m v.
Proof.
  intros Hf P T El Of t lo hi. destruct (Nat.eq_dec (length (shc_t d)) 1) as [L|L].
  - destruct (shc_parsed to_int to_float file d Hf P) as (d' & ps & E & Et & Eg & Ep & En & Nn & Lp & Hv & Hd & _).
    destruct P as (_ & _ & _ & P4). rewrite L in P4. destruct (first_column_ok _ P4) as (cs & Ec & Eh).
    unfold load_coeff_shc in El. rewrite E in El. cbn [pbind] in El. cbv zeta in El. rewrite Ep in El. cbn [pbind] in El.
    rewrite Et, Eg, L, Nat.eqb_refl, Ec in El. cbn [pbind] in El.
    match type of El with context [mk_constant ps (map Some cs) ?s ?e ?c] => destruct (mk_constant ps (map Some cs) s e c) as [td|] eqn:Em; [|discriminate] end.
    injection El as <-. cbn [shc_leaf fst]. destruct (constant_leaf_values ps cs _ _ _ td f t lo hi Em Hv Hd) as (result & Er & A & Z0).
    exists result. split; [exact Er|]. intros n m v V [[_ [(y & i & c & k & Hi & Hc & Hk & Hck)|(Hno & ->)]]|[L2 _]]; [| |lia].
    + rewrite En in Hi. apply pairs_nth in Hi. rewrite Eh, nth_error_map in Hc. destruct (nth_error cs i) as [x|] eqn:Ex; [|discriminate].
      cbn in Hc. injection Hc as <-. destruct k as [|[|k]]; try discriminate. injection Hck as ->. exact (A i n m v Hi Ex).
    + apply coefficient_bounded, Z0; [exact V|]. intro K. apply Hno. unfold file_lists. rewrite En. now apply pairs_in.
  - destruct (shc_load_values to_int to_float years vs ve file d Hf P T) as (set' & E' & A). rewrite El in E'. injection E' as <-.
    destruct (A t lo hi) as (r & Er & _ & B). exists r. split; [|exact B].
    destruct set as [td|td|td]; [|cbn [own_conversion] in Of; rewrite Of; exact Er|cbn [own_conversion] in Of; rewrite Of; exact Er]. exfalso.
    destruct (shc_parsed to_int to_float file d Hf P) as (d' & ps & E & Et & Eg & Ep & _).
    unfold load_coeff_shc in El. rewrite E in El. cbn [pbind] in El. cbv zeta in El. rewrite Ep in El. cbn [pbind] in El. rewrite Et in El.
    destruct (Nat.eqb_spec (length (shc_t d)) 1) as [L1|_]; [contradiction|]. destruct years; [destruct (mk_year_set _ _ _ _ _ _ _)|destruct (mk_time_dependent _ _ _ _ _ _ _)]; discriminate.
Qed.


Lemma shc_leaf_values years vs ve file d set : shc_file to_int to_float file d -> proper_shc d -> proper_times years (shc_t d) ->
  load_coeff_shc to_int to_float years vs ve file = Parsed set ->
  forall t lo hi, exists result, td_call (fst (shc_leaf set)) (apply_convert (snd (shc_leaf set))) (Some t) lo hi = Some result /\
    forall n m v, valid_nm n m -> shc_value years d n m t v -> bounded_coefficient lo hi result n m v.
Proof. intros Hf P T El. apply (shc_leaf_values_any years vs ve file d set _ Hf P T El). now destruct set. Qed.

Lemma shc_value_exists years file d t n m : shc_file to_int to_float file d -> proper_shc d -> proper_times years (shc_t d) ->
  exists v, shc_value years d n m t v.
Proof.
  intros Hf P (T1 & T2 & T3). destruct (shc_parsed to_int to_float file d Hf P) as (_ & ps & _ & _ & _ & _ & En & _ & Lp & _).
  destruct P as (_ & _ & _ & P4).
  assert (Ls : forall y, In y (shc_t d) -> file_lists d n m -> exists v, file_value d n m y v).
  { intros y Hy Hl. unfold file_lists in Hl. apply In_nth_error in Hl as [i Hi]. apply In_nth_error in Hy as [k Hk].
    destruct (nth_error (shc_gh d) i) as [c|] eqn:Ec.
    - destruct (nth_error c k) as [v|] eqn:Ev; [now exists v, i, c, k|]. apply nth_error_None in Ev. rewrite (P4 c (nth_error_In _ _ Ec)) in Ev.
      assert (nth_error (shc_t d) k <> None) as N by congruence. apply nth_error_Some in N. lia.
    - apply nth_error_None in Ec. assert (nth_error (shc_nm d) i <> None) as N by congruence. apply nth_error_Some in N.
      rewrite En, map_length in N. lia. }
  assert (Dl : file_lists d n m \/ ~ file_lists d n m).
  { unfold file_lists. destruct (in_dec (list_eq_dec Z.eq_dec) [n; m] (shc_nm d)); tauto. }
  destruct Dl as [Dl|Dl].
  2: { exists 0. destruct (Nat.eq_dec (length (shc_t d)) 1) as [L|L]; [left; split; [exact L|right; now split]|right].
       split; [destruct (shc_t d); [contradiction|]; cbn in *; lia|]. destruct years; right; now split. }
  destruct (shc_t d) as [|y0 [|y1 rest]] eqn:Et; [contradiction| |].
  - destruct (Ls y0 (or_introl eq_refl) Dl) as [v Hv]. exists v. left. rewrite Et. split; [reflexivity|]. left. now exists y0.
  - rewrite <- Et in *.
    assert (Two : exists a b, In a (shc_t d) /\ In b (shc_t d) /\ a < b).
    { assert (I0 : In y0 (shc_t d)) by (rewrite Et; now left). assert (I1 : In y1 (shc_t d)) by (rewrite Et; right; now left).
      destruct (T2 0%nat 1%nat y0 y1 ltac:(lia)) as [L|L]; [now rewrite Et|now rewrite Et| |]; apply lt_R in L; [exists y0, y1|exists y1, y0]; auto. }
    assert (L2 : (2 <= length (shc_t d))%nat) by (rewrite Et; cbn; lia).
    assert (Val : forall f u, (forall a b, In a (shc_t d) -> In b (shc_t d) -> a < b -> f a < f b) -> exists v, shc_coefficient d f n m u v).
    { intros f u Hm. destruct (around f (shc_t d) u Two Hm) as (ta & tb & Ia & Ib & Nb & H1 & H2).
      destruct (Ls ta Ia Dl) as [ca Ca]. destruct (Ls tb Ib Dl) as [cb Cb]. exists (line (f ta) ca (f tb) cb u). left.
      exists ta, ca, tb, cb. split; [exact Ca|split; [exact Cb|split; [exact Nb|split; [exact H1|split; [exact H2|reflexivity]]]]]. }
    destruct years.
    + destruct (Val (fun y => y) (mjd2k_to_decimal_year t)) as [v Hv]; [auto|]. exists v. right. split; [exact L2|exact Hv].
    + destruct (Val decimal_year_to_mjd2k t) as [v Hv].
      { intros a b Ha Hb. apply year_increasing; now apply (T3 eq_refl L2). }
      exists v. right. split; [exact L2|exact Hv].
Qed.

Lemma shc_value_above years d t n m v N : degrees_up_to d N -> (Z.of_nat N < n)%Z -> shc_value years d n m t v -> v = 0.
Proof.
  intros Dn L.
  assert (F : forall y w, ~ file_value d n m y w).
  { intros y w (i & c & k & Hi & _). apply nth_error_In in Hi. specialize (Dn n m Hi). lia. }
  intros [[_ [(y & H)|[_ H]]]|[_ H]]; [now apply F in H|exact H|].
  destruct years; destruct H as [(ta & ca & tb & cb & H & _)|[_ H]]; try (now apply F in H); exact H.
Qed.


(** *** The public statements *)
Lemma file_coefficients_exist years file d N lo hi t : shc_file to_int to_float file d -> proper_shc d -> proper_times years (shc_t d) ->
  degrees_up_to d N -> exists gh, file_coefficients years d lo hi t gh.
Proof.
  intros Hf P T Dn. apply (table_exists (fun u n m v => shc_value years d n m u v) N).
  - intros u n m _. exact (shc_value_exists years file d u n m Hf P T).
  - intros u n m v L. now apply (shc_value_above years d u n m v N).
Qed.

Lemma array_field years vs ve file d N internal lo hi mem txs : shc_file to_int to_float file d -> proper_shc d -> proper_times years (shc_t d) ->
  degrees_up_to d N -> (Z.of_nat N < 2 ^ 24)%Z ->
  exists set out, load_coeff_shc to_int to_float years vs ve file = Parsed set /\
    model_eval_array (shc_validity set) [shc_leaf set] internal lo hi CT_GEOCENTRIC_SPHERICAL CT_GEOCENTRIC_SPHERICAL (1, 1, 1) mem txs = Ok out /\
    length out = length txs /\
    forall i t lat lon rad o, nth_error txs i = Some (t, (lat, lon, rad)) -> nth_error out i = Some o ->
      (~ in_validity (shc_validity set) t -> o = None) /\
      (forall u gh, t = Some u -> in_validity (shc_validity set) t -> -90 <= lat <= 90 -> rad <> 0 ->
         file_coefficients years d lo hi u gh ->
         exists field, o = Some field /\ field_of internal gh N lat lon rad field).
Proof.
  intros Hf P T Dn Hn. destruct (shc_load_values to_int to_float years vs ve file d Hf P T) as (set & El & _). exists set.
  assert (Sm : small_degrees d) by (intros n m H; specialize (Dn n m H); lia).
  destruct (array_set [shc_leaf set] (shc_validity set) (fun u n m v => shc_value years d n m u v) N (single_length _)
    (List.Forall_cons _ (shc_built years vs ve file d set Hf P T Sm El) (List.Forall_nil _)) (single_disjoint _)
    (single_call _ _ (shc_leaf_values years vs ve file d set Hf P T El))
    (fun u n m _ => shc_value_exists years file d u n m Hf P T) (fun u n m v L => shc_value_above years d u n m v N Dn L) internal lo hi mem txs)
    as (out & A). exists out. split; [exact El|exact A].
Qed.

Lemma scalar_field years vs ve file d N internal lo hi mem t location : shc_file to_int to_float file d -> proper_shc d -> proper_times years (shc_t d) ->
  degrees_up_to d N -> (Z.of_nat N < 2 ^ 24)%Z ->
  exists set out, load_coeff_shc to_int to_float years vs ve file = Parsed set /\
    model_eval_scalar (shc_validity set) [shc_leaf set] internal lo hi CT_GEOCENTRIC_SPHERICAL CT_GEOCENTRIC_SPHERICAL (1, 1, 1) mem t location
      = Ok (dims location, out) /\
    length out = length (indices (dims location)) /\
    forall i ix lat lon rad o, nth_error (indices (dims location)) i = Some ix -> at_index location ix = (lat, lon, rad) -> nth_error out i = Some o ->
      (~ in_validity (shc_validity set) t -> o = None) /\
      (forall u gh, t = Some u -> in_validity (shc_validity set) t -> -90 <= lat <= 90 -> rad <> 0 ->
         file_coefficients years d lo hi u gh ->
         exists field, o = Some field /\ field_of internal gh N lat lon rad field).
Proof.
  intros Hf P T Dn Hn. destruct (shc_load_values to_int to_float years vs ve file d Hf P T) as (set & El & _). exists set.
  assert (Sm : small_degrees d) by (intros n m H; specialize (Dn n m H); lia).
  destruct (scalar_set [shc_leaf set] (shc_validity set) (fun u n m v => shc_value years d n m u v) N (single_length _)
    (List.Forall_cons _ (shc_built years vs ve file d set Hf P T Sm El) (List.Forall_nil _)) (single_disjoint _)
    (single_call _ _ (shc_leaf_values years vs ve file d set Hf P T El))
    (fun u n m _ => shc_value_exists years file d u n m Hf P T) (fun u n m v L => shc_value_above years d u n m v N Dn L) internal lo hi mem t location)
    as (out & A). exists out. split; [exact El|exact A].
Qed.
End File.
