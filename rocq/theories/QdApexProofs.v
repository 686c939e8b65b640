(** The quasi-dipole coordinates of the code are those of the expansion. *)

From Coq Require Import Bool List String Reals Arith Lia Lra.
From Coquelicot Require Import Coquelicot.
From Verif Require Import ArrModel LoopProofs GeoModel QdSunModel QdMltModel QdBasisModel QdApexModel.
From Verif Require Import CoordSpec SunSpec QdBasisSpec QdApexSpec QdShcalcProofs Atan2Proofs.
Import ListNotations.
Open Scope R_scope.

(** ** Sums *)
Lemma total_app a b : total (a ++ b) = total a + total b.
Proof. induction a as [|x a IH]; cbn [app total fold_right]; [unfold total; lra|]. fold (total (a ++ b)). fold (total a). rewrite IH. lra. Qed.
Lemma total_plus {A} (f g : A -> R) l : total (map (fun x => f x + g x) l) = total (map f l) + total (map g l).
Proof. induction l as [|x l IH]; cbn; [lra|]. fold (total (map (fun x => f x + g x) l)). rewrite IH. unfold total. lra. Qed.
Lemma total_scal {A} k (f : A -> R) l : total (map (fun x => k * f x) l) = k * total (map f l).
Proof. induction l as [|x l IH]; cbn; [lra|]. fold (total (map (fun x => k * f x) l)). rewrite IH. unfold total. lra. Qed.
Lemma total_0 {A} (l : list A) : total (map (fun _ => 0) l) = 0.
Proof. induction l as [|x l IH]; cbn; [reflexivity|]. fold (total (map (fun _ : A => 0) l)). rewrite IH. lra. Qed.
Lemma total_ext {A} (f g : A -> R) l : (forall x, In x l -> f x = g x) -> total (map f l) = total (map g l).
Proof. intro H. f_equal. now apply map_ext_in. Qed.
Lemma total_swap {A B} (f : A -> B -> R) la lb :
  total (map (fun x => total (map (f x) lb)) la) = total (map (fun y => total (map (fun x => f x y) la)) lb).
Proof.
  induction la as [|x la IH]; cbn [map total fold_right].
  - symmetry. apply total_0.
  - fold (total (map (fun x => total (map (f x) lb)) la)). rewrite IH, <- total_plus. apply total_ext. reflexivity.
Qed.
Lemma total_derive {A} (f : A -> R -> R) (g : A -> R) l x : (forall a, In a l -> is_derive (f a) x (g a)) ->
  is_derive (fun t => total (map (fun a => f a t) l)) x (total (map g l)).
Proof.
  induction l as [|a l IH]; intro H; cbn [map total fold_right].
  - apply @is_derive_const.
  - apply @is_derive_plus; [apply H; now left|]. apply IH. intros b Hb. apply H. now right.
Qed.

Lemma loop_sum (f : nat -> R) lo hi : (lo <= S hi)%nat ->
  loop lo hi (fun i s => s + f i) 0 = total (map f (seq lo (S hi - lo))).
Proof.
  intro H. apply (loop_inv (fun n s => s = total (map f (seq lo (n - lo))))); [exact H| |].
  - now rewrite Nat.sub_diag.
  - intros i s Hi ->. replace (S i - lo)%nat with (S (i - lo)) by lia. rewrite seq_S, map_app, total_app.
    replace (lo + (i - lo))%nat with i by lia. cbn. lra.
Qed.
Lemma dot_sum n a b : dot_product n a b = total (map (fun k => a k * b k) (seq 0 n)).
Proof. unfold dot_product. destruct n as [|n]; [reflexivity|]. rewrite loop_sum by lia. reflexivity. Qed.

Lemma powers_spec rho lmax p : p 0%nat = 1 -> forall l, (l <= lmax)%nat -> powers rho lmax p l = rho ^ l.
Proof.
  intro H. unfold powers. intros l Hl. revert l Hl.
  enough (G : forall l, (l < S lmax)%nat -> loop 1 lmax (fun l p => upd p l (p (l - 1)%nat * rho)) p l = rho ^ l)
    by (intros l Hl; apply G; lia).
  apply (loop_inv (fun n q => forall l, (l < n)%nat -> q l = rho ^ l)); [lia| |].
  - intros l Hl. replace l with 0%nat by lia. exact H.
  - intros i q Hi IH l Hl. destruct (Nat.eq_dec l i) as [->|N].
    + rewrite upd_same, IH by lia. destruct i; [lia|]. replace (S i - 1)%nat with i by lia. cbn [pow]. ring.
    + rewrite upd_other by exact N. apply IH. lia.
Qed.
Lemma powers_0 rho lmax p : powers rho lmax p 0%nat = p 0%nat.
Proof.
  unfold powers. apply (loop_inv (fun _ q => q 0%nat = p 0%nat)) with (lo := 1%nat); [lia|reflexivity|].
  intros i q Hi E. now rewrite upd_other by lia.
Qed.

(** ** The epochs *)
Lemma grid_le f : well_formed f -> forall i j, (i <= j)%nat -> (j < nepoch f)%nat -> epochgrid f i <= epochgrid f j.
Proof.
  intros (_ & _ & _ & H) i j Hij. induction Hij as [|j Hij IH]; intro Hj; [lra|].
  specialize (IH ltac:(lia)). specialize (H j ltac:(lia)). lra.
Qed.

Lemma find_epoch_spec grid epoch i : grid 0%nat <= epoch ->
  (find_epoch grid epoch i <= i)%nat /\ (grid (find_epoch grid epoch i) <= epoch) /\
  (forall j, (find_epoch grid epoch i < j <= i)%nat -> epoch <= grid j).
Proof.
  intro H0. induction i as [|i IH]; cbn [find_epoch].
  - split; [lia|]. split; [exact H0|]. intros. lia.
  - destruct (Rle_dec epoch (grid (S i))) as [L|L].
    + destruct IH as (I1 & I2 & I3). split; [lia|]. split; [exact I2|]. intros j Hj.
      destruct (Nat.eq_dec j (S i)) as [->|]; [exact L|]. apply I3. lia.
    + split; [lia|]. split; [lra|]. intros. lia.
Qed.

(** the search ends below the last epoch *)
Lemma find_epoch_below grid epoch i : epoch <= grid (S i) -> (find_epoch grid epoch (S i) <= i)%nat.
Proof.
  intro H. cbn [find_epoch]. destruct (Rle_dec epoch (grid (S i))); [|lra].
  clear H r. induction i as [|i IH]; cbn [find_epoch]; [lia|]. destruct (Rle_dec epoch (grid (S i))); lia.
Qed.

Definition coef (f : apex_file) (epoch : R) (k i : nat) : R :=
  let '((e0, w0), (e1, w1)) := epoch_weights f epoch in w0 * coeff0 f k e0 i + w1 * coeff0 f k e1 i.

Lemma coef_spec f epoch k i : well_formed f -> coefficient_at f epoch k i (coef f epoch k i).
Proof.
  intro W. pose proof (grid_le f W) as G. destruct W as (W1 & _ & _ & W4).
  unfold coef, epoch_weights. set (g := epochgrid f) in *. set (n := nepoch f) in *.
  set (e1 := if Rlt_dec epoch (g 0%nat) then g 0%nat else epoch).
  set (e2 := if Rlt_dec (g (n - 1)%nat) e1 then g (n - 1)%nat else e1).
  assert (B : g 0%nat <= e2 <= g (n - 1)%nat /\ (epoch <= g 0%nat /\ e2 = g 0%nat \/ g (n - 1)%nat <= epoch /\ e2 = g (n - 1)%nat \/ e2 = epoch)).
  { pose proof (G 0%nat (n - 1)%nat ltac:(lia) ltac:(lia)). unfold e2, e1.
    destruct (Rlt_dec epoch (g 0%nat)).
    - destruct (Rlt_dec (g (n - 1)%nat) (g 0%nat)); [lra|]. split; [lra|]. left. lra.
    - destruct (Rlt_dec (g (n - 1)%nat) epoch); (split; [lra|]); right; [left|right]; lra. }
  destruct B as (B1 & B2). destruct (Nat.eqb_spec n 1) as [N1|N1].
  - replace (n - 1)%nat with 0%nat in * by lia. destruct B2 as [(B2 & _)|[(B2 & _)|B2]].
    + left. split; [exact B2|ring].
    + right; left. fold g n. replace (n - 1)%nat with 0%nat by lia. split; [exact B2|ring].
    + left. fold g. split; [lra|ring].
  - pose proof (find_epoch_spec g e2 (n - 1) ltac:(lra)) as (F1 & F2 & F3).
    assert (F4 : (find_epoch g e2 (n - 1) <= n - 2)%nat).
    { replace (n - 1)%nat with (S (n - 2)) by lia. apply find_epoch_below. replace (S (n - 2)) with (n - 1)%nat by lia. lra. }
    set (e := find_epoch g e2 (n - 1)) in *. replace (e + 1)%nat with (S e) by lia.
    specialize (F3 (S e) ltac:(lia)). pose proof W4 as W5. fold g n in W5. specialize (W4 e ltac:(lia)). fold g in W4. unfold coefficient_at. fold g n.
    set (a := coeff0 f k e i). set (b := coeff0 f k (S e) i).
    replace ((g (S e) - e2) / (g (S e) - g e) * a + (1 - (g (S e) - e2) / (g (S e) - g e)) * b)
      with (a + (b - a) * ((e2 - g e) / (g (S e) - g e))) by (field; lra).
    destruct B2 as [(B2 & B3)|[(B2 & B3)|B2]].
    + left. split; [exact B2|].
      assert (E0 : e = 0%nat).
      { destruct (Nat.eq_dec e 0) as [|N]; [assumption|]. exfalso.
        pose proof (G 1%nat e ltac:(lia) ltac:(lia)). pose proof (W5 0%nat ltac:(lia)). lra. }
      unfold a. rewrite B3, E0. unfold Rdiv. ring.
    + right; left. split; [exact B2|].
      assert (E1 : S e = (n - 1)%nat).
      { destruct (Nat.eq_dec (S e) (n - 1)) as [|N]; [assumption|]. exfalso.
        pose proof (G (S (S e)) (n - 1)%nat ltac:(lia) ltac:(lia)). pose proof (W5 (S e) ltac:(lia)). lra. }
      rewrite B3, <- E1. unfold b. field. lra.
    + right; right. exists e. split; [lia|]. rewrite <- B2. split; [lra|]. reflexivity.
Qed.

(** ** The expansion *)
Definition hs (f : apex_file) : list harmonic := harmonics (nmax f) (mmax f).

Lemma ntermsh_hs f : well_formed f -> ntermsh f = List.length (hs f).
Proof. intros (_ & H & _). unfold ntermsh, hs. now rewrite harmonics_length. Qed.

(** the coefficient of a harmonic at a height *)
Definition hc (f : apex_file) (c : nat -> R) (rho : R) (k : nat) : R :=
  total (map (fun l => c (l * ntermsh f + k)%nat * rho ^ l) (seq 0 (S (lmax f)))).
Definition lin (f : apex_file) (c : nat -> R) (rho : R) (v : nat -> R) : R :=
  total (map (fun k => v k * hc f c rho k) (seq 0 (ntermsh f))).

Definition eval_at (f : apex_file) (g : harmonic -> R) (k : nat) : R :=
  match nth_error (hs f) k with Some x => g x | None => 0 end.

Lemma combine_total {A} (l : list A) (g : nat -> A -> R) (v : nat -> R) s :
  (forall k x, nth_error l k = Some x -> v (s + k)%nat = g (s + k)%nat x) ->
  total (map (fun '(k, x) => g k x) (combine (seq s (List.length l)) l)) = total (map v (seq s (List.length l))).
Proof.
  revert s. induction l as [|a l IH]; intros s H; [reflexivity|].
  cbn [List.length seq combine map total fold_right]. f_equal.
  - specialize (H 0%nat a eq_refl). rewrite Nat.add_0_r in H. now rewrite H.
  - apply IH. intros k x E. specialize (H (S k) x E). now rewrite Nat.add_succ_r in H.
Qed.

Lemma series_lin f c rho t p v : well_formed f ->
  (forall k x, nth_error (hs f) k = Some x -> v k = harmonic_value x t p) ->
  series f c rho t p = lin f c rho v.
Proof.
  intros W H. unfold series, lin, hc. fold (hs f). rewrite (ntermsh_hs f W).
  rewrite (total_ext (fun k => v k * _)
     (fun k => total (map (fun l => v k * (c (l * List.length (hs f) + k)%nat * rho ^ l)) (seq 0 (S (lmax f)))))).
  2: { intros k _. now rewrite total_scal. }
  rewrite total_swap. apply total_ext. intros l _.
  rewrite (combine_total (hs f) (fun k x => c (l * List.length (hs f) + k)%nat * harmonic_value x t p)
    (fun k => c (l * List.length (hs f) + k)%nat * v k)).
  - rewrite <- total_scal. apply total_ext. intros k _. ring.
  - intros k x E. cbn [Nat.add]. now rewrite (H k x E).
Qed.

Lemma lin_derive f c rho (v : nat -> R -> R) (d : nat -> R) x :
  (forall k, (k < ntermsh f)%nat -> is_derive (v k) x (d k)) ->
  is_derive (fun u => lin f c rho (fun k => v k u)) x (lin f c rho d).
Proof.
  intro H. unfold lin. apply (total_derive (fun k u => v k u * hc f c rho k) (fun k => d k * hc f c rho k)).
  intros k Hk. apply in_seq in Hk. apply (is_derive_ext (fun u => hc f c rho k * v k u)); [intro; apply Rmult_comm|].
  rewrite Rmult_comm. apply @is_derive_scal. apply H. lia.
Qed.

Lemma nth_hs f k : well_formed f -> (k < ntermsh f)%nat -> exists x, nth_error (hs f) k = Some x.
Proof.
  intros W H. rewrite (ntermsh_hs f W) in H. destruct (nth_error (hs f) k) as [x|] eqn:E; [eauto|].
  apply nth_error_None in E. lia.
Qed.

Lemma series_eval f c rho t p : well_formed f ->
  series f c rho t p = lin f c rho (eval_at f (fun x => harmonic_value x t p)).
Proof. intro W. apply series_lin; [exact W|]. intros k x E. unfold eval_at. now rewrite E. Qed.

Definition dtheta (t p : R) (x : harmonic) : R := Derive (fun t => harmonic_value x t p) t.

Lemma harmonic_ex_dtheta x t p : ex_derive (fun t => harmonic_value x t p) t.
Proof.
  destruct x as [n m s]. unfold harmonic_value. set (k := if s then _ else _).
  apply (ex_derive_ext (fun t => k * normalised n m t)); [intro; apply Rmult_comm|].
  apply @ex_derive_scal. eexists. apply QdBasisProofs.normalised_derive.
Qed.

Lemma series_dtheta f c rho t p : well_formed f ->
  is_derive (fun t => series f c rho t p) t (lin f c rho (eval_at f (dtheta t p))).
Proof.
  intro W. apply (is_derive_ext (fun u => lin f c rho (eval_at f (fun x => harmonic_value x u p)))).
  - intro u. symmetry. now apply series_eval.
  - apply (lin_derive f c rho (fun k u => eval_at f (fun x => harmonic_value x u p) k)). intros k Hk.
    destruct (nth_hs f k W Hk) as (x & E). unfold eval_at. rewrite E. apply Derive_correct, harmonic_ex_dtheta.
Qed.
Lemma series_dphi f c rho t p : well_formed f ->
  is_derive (fun p => series f c rho t p) p (sin t * lin f c rho (eval_at f (fun x => east_part x t p))).
Proof.
  intro W. apply (is_derive_ext (fun u => lin f c rho (eval_at f (fun x => harmonic_value x t u)))).
  - intro u. symmetry. now apply series_eval.
  - replace (sin t * lin f c rho (eval_at f (fun x => east_part x t p)))
      with (lin f c rho (fun k => sin t * eval_at f (fun x => east_part x t p) k)).
    + apply (lin_derive f c rho (fun k u => eval_at f (fun x => harmonic_value x t u) k)). intros k Hk.
      destruct (nth_hs f k W Hk) as (x & E). unfold eval_at. rewrite E. apply east_part_derive.
    + unfold lin. rewrite <- total_scal. apply total_ext. intros k _. ring.
Qed.

(** ** The state *)
(** the coefficients of the height are those of the altitude *)
Definition height_ok (st : apex) (alt : R) : Prop :=
  let f := file st in
  v_h st = alt /\ v_Reph st = Re + alt /\
  forall k, (k < ntermsh f)%nat ->
    xqcoeff st k = hc f (fun j => coef f (epochlast st) j 0) (Re / (Re + alt)) k /\
    yqcoeff st k = hc f (fun j => coef f (epochlast st) j 1) (Re / (Re + alt)) k /\
    zqcoeff st k = hc f (fun j => coef f (epochlast st) j 2) (Re / (Re + alt)) k.

Definition inv (fs : files) (st : apex) : Prop :=
  loadflag st = true \/
  (fs (datafilelast st) = Some (Some (file st)) /\
   (well_formed (file st) ->
    (forall k i, (k < nterm (file st))%nat -> (i < 3)%nat -> qcoeff0 st k i = coef (file st) (epochlast st) k i) /\
    polynomq st 0%nat = 1 /\ v00 (arrays st) = 0 /\
    (altlastq st = -999 \/ height_ok st (altlastq st)))).

Lemma load_inv any fs name e st st' : inv fs st -> loadapxsh any fs name e st = Returns st' ->
  inv fs st' /\ loadflag st' = false /\ datafilelast st' = name /\ epochlast st' = e /\ fs name = Some (Some (file st')).
Proof.
  intros I. unfold loadapxsh.
  destruct (negb (String.eqb name (datafilelast st)) || loadflag st) eqn:N.
  - destruct (fs name) as [[f|]|] eqn:F; try discriminate. rewrite orb_true_r. intro E. injection E as <-.
    unfold interpolate. destruct (epoch_weights (file (allocate any f st)) e) as [[e0 w0] [e1 w1]] eqn:EW.
    cbn [loadflag datafilelast epochlast file] in *. split; [|auto]. right. cbn [loadflag datafilelast epochlast file qcoeff0 polynomq altlastq arrays allocate] in *.
    split; [exact F|]. intro W. split; [|split; [|split]].
    + intros k i Hk Hi. apply Nat.ltb_lt in Hk, Hi. rewrite Hk, Hi. cbn [andb]. unfold coef. now rewrite EW.
    + apply upd_same.
    + reflexivity.
    + left. lra.
  - apply orb_false_iff in N. destruct N as (N1 & N2). apply negb_false_iff in N1. apply String.eqb_eq in N1. subst name.
    destruct I as [I|(F & I)]; [congruence|]. rewrite orb_false_r. unfold Rneb.
    destruct (Req_EM_T e (epochlast st)) as [->|Ne]; intro E; injection E as <-; cbn [loadflag datafilelast epochlast file].
    + split; [|auto]. right. cbn [loadflag datafilelast epochlast file qcoeff0 polynomq altlastq arrays].
      split; [exact F|]. exact I.
    + unfold interpolate. destruct (epoch_weights (file st) e) as [[e0 w0] [e1 w1]] eqn:EW. cbn [loadflag datafilelast epochlast file].
      split; [|auto]. right. cbn [loadflag datafilelast epochlast file qcoeff0 polynomq altlastq arrays].
      split; [exact F|]. intro W. destruct (I W) as (_ & I2 & I3 & _). split; [|split; [|split]].
      * intros k i Hk Hi. apply Nat.ltb_lt in Hk, Hi. rewrite Hk, Hi. cbn [andb]. unfold coef. now rewrite EW.
      * exact I2.
      * exact I3.
      * left. lra.
Qed.

Lemma height_ok_arrays st a alt : height_ok (with_arrays st a) alt <-> height_ok st alt.
Proof. reflexivity. Qed.

Lemma hc_height f e i p rho k : well_formed f -> (k < ntermsh f)%nat -> (i < 3)%nat -> forall q,
  (forall k i, (k < nterm f)%nat -> (i < 3)%nat -> q k i = coef f e k i) ->
  (forall l, (l <= lmax f)%nat -> p l = rho ^ l) ->
  height_coefficients f (fun k => q k i) p k = hc f (fun j => coef f e j i) rho k.
Proof.
  intros W Hk Hi q Hq Hp. unfold height_coefficients. apply Nat.ltb_lt in Hk as Hk'. rewrite Hk'.
  rewrite loop_sum by lia. rewrite Nat.sub_0_r. unfold hc. apply total_ext. intros l Hl. apply in_seq in Hl.
  rewrite Hp by lia. rewrite Hq; [reflexivity| |exact Hi].
  pose proof (ntermsh_hs f W) as E. destruct W as (_ & _ & W & _). rewrite W. fold (hs f). rewrite <- E. nia.
Qed.

Lemma set_height_ok fs st alt : inv fs st -> loadflag st = false -> well_formed (file st) -> height_ok (set_height alt st) alt.
Proof.
  intros [I|(_ & I)] L W; [congruence|]. destruct (I W) as (I1 & I2 & _). unfold height_ok, set_height.
  cbn [file v_h v_Reph xqcoeff yqcoeff zqcoeff epochlast]. split; [reflexivity|]. split; [reflexivity|]. intros k Hk.
  split; [|split]; (apply (hc_height _ _ _ _ _ _ W Hk); [lia|exact I1|intros l Hl; now apply powers_spec]).
Qed.

(** the coordinates and the base vectors as functions of the point, the file and the epoch *)
Definition pure_out (vecflag : bool) (f : apex_file) (epoch glat glon alt : R) : (R * R) * base_vectors :=
  let theta := (90 - glat) * dtor in
  let phi := glon * dtor in
  let rho := Re / (Re + alt) in
  let sum i := lin f (fun j => coef f epoch j i) rho in
  let v := eval_at f (fun x => harmonic_value x theta phi) in
  let gphi := eval_at f (fun x => east_part x theta phi) in
  let gtheta := eval_at f (dtheta theta phi) in
  let xq := sum 0%nat v in
  let yq := sum 1%nat v in
  let zq := sum 2%nat v in
  let qlon := atan2 yq xq in
  let qlat := atan2 zq (sqrt (xq * xq + yq * yq)) in
  let xqgrad1 := sum 0%nat gphi in
  let yqgrad1 := sum 1%nat gphi in
  let zqgrad1 := sum 2%nat gphi in
  let xqgrad2 := - sum 0%nat gtheta in
  let yqgrad2 := - sum 1%nat gtheta in
  let zqgrad2 := - sum 2%nat gtheta in
  let Jtemp := 1 - ecc2 * cos theta * cos theta in
  let r := Req / sqrt Jtemp in
  let J := (alt + (1 - ecc2) * r / Jtemp) / (Re + alt) in
  let r' := (alt + r) / (Re + alt) in
  let qlatgrad1 := (- (cos qlon * xqgrad1 + sin qlon * yqgrad1) * sin qlat + cos qlat * zqgrad1) / r' in
  let qlatgrad2 := (- (cos qlon * xqgrad2 + sin qlon * yqgrad2) * sin qlat + cos qlat * zqgrad2) / J in
  let qlongrad1 := (- sin qlon * xqgrad1 + cos qlon * yqgrad1) / r' in
  let qlongrad2 := (- sin qlon * xqgrad2 + cos qlon * yqgrad2) / J in
  ((qlat / dtor, qlon / dtor),
   if vecflag then
     {| f11 := qlatgrad2; f12 := - qlatgrad1; f21 := - qlongrad2; f22 := qlongrad1;
        f_ := qlatgrad2 * qlongrad1 - - qlatgrad1 * - qlongrad2 |}
   else missing_base).

Lemma dot_lin f (a q : arr) c rho g : (forall k x, nth_error (hs f) k = Some x -> a k = g x) -> well_formed f ->
  (forall k, (k < ntermsh f)%nat -> q k = hc f c rho k) ->
  dot_product (ntermsh f) a q = lin f c rho (eval_at f g).
Proof.
  intros Ha W Hq. rewrite dot_sum. apply total_ext. intros k Hk. apply in_seq in Hk. rewrite Hq by lia.
  destruct (nth_hs f k W ltac:(lia)) as (x & E). unfold eval_at. rewrite E, (Ha k x E). reflexivity.
Qed.

Lemma apxg2q_step vecflag glat glon alt out fs st r b st' : inv fs st -> loadflag st = false ->
  apxg2q vecflag glat glon alt out st = (r, b, st') ->
  inv fs st' /\ loadflag st' = false /\ datafilelast st' = datafilelast st /\ epochlast st' = epochlast st /\ file st' = file st /\
  (well_formed (file st) -> alt <> -999 -> (r, b) = pure_out vecflag (file st) (epochlast st) glat glon alt).
Proof.
  intros I L. unfold apxg2q. rewrite L.
  set (st1 := if Rneb alt (altlastq st) then set_height alt st else st).
  assert (S1 : loadflag st1 = false /\ datafilelast st1 = datafilelast st /\ epochlast st1 = epochlast st /\ file st1 = file st /\
     arrays st1 = arrays st).
  { unfold st1. destruct (Rneb alt (altlastq st)); repeat split; exact L. }
  destruct S1 as (L1 & D1 & E1 & F1 & A1).
  assert (I1 : inv fs st1 /\ (well_formed (file st) -> alt <> -999 -> height_ok st1 alt)).
  { unfold st1, Rneb. destruct (Req_EM_T alt (altlastq st)) as [Ea|Na].
    - split; [exact I|]. intros W Na. destruct I as [I|(_ & I)]; [congruence|]. destruct (I W) as (_ & _ & _ & [I4|I4]).
      + congruence.
      + now rewrite Ea.
    - split; [|intros W _; now apply (set_height_ok fs)]. destruct I as [I|(F & I)]; [congruence|].
      right. split; [exact F|]. intro W. pose proof (set_height_ok fs st alt (or_intror (conj F I)) L W) as H.
      destruct (I W) as (I1 & I2 & I3 & _).
      split; [exact I1|]. split; [|split; [exact I3|right; exact H]].
      cbn [set_height polynomq]. now rewrite powers_0. }
  destruct I1 as (I1 & H1). clearbody st1.
  set (theta := (90 - glat) * dtor). set (phi := glon * dtor).
  set (a' := shcalc vecflag (nmax (file st1)) (mmax (file st1)) theta phi (arrays st1)).
  intro E.
  assert (Est : st' = with_arrays st1 a') by congruence. subst st'.
  split; [|split; [exact L1|split; [exact D1|split; [exact E1|split; [exact F1|]]]]].
  - destruct I1 as [I1|(F & I1)]; [congruence|]. right. split; [exact F|]. intro W. destruct (I1 W) as (J1 & J2 & J3 & J4).
    split; [exact J1|]. split; [exact J2|]. split; [|exact J4].
    cbn [with_arrays arrays]. unfold a'. rewrite shcalc_v00 by apply W. exact J3.
  - intros W Na. specialize (H1 W Na). destruct I1 as [I1|(F & I1)]; [congruence|].
    rewrite F1 in I1. destruct (I1 W) as (_ & _ & J3 & _).
    pose proof (shcalc_spec vecflag (nmax (file st1)) (mmax (file st1)) theta phi (arrays st1)) as S.
    rewrite F1 in S. specialize (S (proj1 (proj2 W)) J3). fold (hs (file st)) in S. cbv zeta in S.
    replace (shcalc vecflag (nmax (file st)) (mmax (file st)) theta phi (arrays st1)) with a' in S by (unfold a'; now rewrite F1).
    destruct S as (S1 & S2).
    destruct H1 as (K1 & K2 & K3). rewrite F1, E1 in K3.
    assert (DX : forall a g, (forall k x, nth_error (hs (file st)) k = Some x -> a k = g x) ->
      dot_product (ntermsh (file st)) a (xqcoeff st1) = lin (file st) (fun j => coef (file st) (epochlast st) j 0) (Re / (Re + alt)) (eval_at (file st) g))
      by (intros a g Ha; apply dot_lin; [exact Ha|exact W|intros k Hk; apply (K3 k Hk)]).
    assert (DY : forall a g, (forall k x, nth_error (hs (file st)) k = Some x -> a k = g x) ->
      dot_product (ntermsh (file st)) a (yqcoeff st1) = lin (file st) (fun j => coef (file st) (epochlast st) j 1) (Re / (Re + alt)) (eval_at (file st) g))
      by (intros a g Ha; apply dot_lin; [exact Ha|exact W|intros k Hk; apply (K3 k Hk)]).
    assert (DZ : forall a g, (forall k x, nth_error (hs (file st)) k = Some x -> a k = g x) ->
      dot_product (ntermsh (file st)) a (zqcoeff st1) = lin (file st) (fun j => coef (file st) (epochlast st) j 2) (Re / (Re + alt)) (eval_at (file st) g))
      by (intros a g Ha; apply dot_lin; [exact Ha|exact W|intros k Hk; apply (K3 k Hk)]).
    clear K3. revert E. unfold apex_base. cbn [with_arrays arrays file xqcoeff yqcoeff zqcoeff v_h v_Reph]. rewrite F1, K1, K2.
    rewrite (DX _ _ S1), (DY _ _ S1), (DZ _ _ S1).
    intro E. unfold pure_out. fold theta phi. destruct vecflag.
    + destruct (S2 eq_refl) as (S3 & S4).
      assert (S3' : forall k x, nth_error (hs (file st)) k = Some x -> a_shgradtheta a' k = dtheta theta phi x).
      { intros k x Ex. symmetry. apply is_derive_unique. exact (S3 k x Ex). }
      rewrite !(DX _ _ S3'), !(DY _ _ S3'), !(DZ _ _ S3') in E.
      rewrite !(DX _ _ S4), !(DY _ _ S4), !(DZ _ _ S4) in E.
      injection E as <- <-. reflexivity.
    + injection E as <- <-. reflexivity.
Qed.
