(** The low degree algorithm evaluates the Schmidt semi-normalised functions. *)

From Coq Require Import Reals Factorial Arith Lra Lia.
From Coquelicot Require Import Coquelicot.
From Verif Require Import ArrModel LegendreModel LegendreSpec LoopProofs LegendrePoly LegendreGauss.
Open Scope R_scope.

(** ** Square roots *)
Lemma presqrt_spec degree buf k : (k <= 2 * degree + 1)%nat -> shc_presqrt degree buf k = sqrt (INR k).
Proof.
  intro H. unfold shc_presqrt.
  enough (G : forall k, (k < S (2 * degree + 1))%nat ->
    loop 0 (2 * degree + 1) (fun i psqrt => upd psqrt i (sqrt (INR i))) buf k = sqrt (INR k)) by (apply G; lia).
  apply (loop_inv (fun i a => forall k, (k < i)%nat -> a k = sqrt (INR k))); [lia|intros; lia|].
  intros i a Hi IH j Hj. destruct (Nat.eq_dec j i) as [->|N]; [apply upd_same|].
  rewrite upd_other by auto. apply IH. lia.
Qed.
Lemma prersqrt_spec degree buf k : (k <= 2 * degree + 1)%nat -> shc_prersqrt degree buf k = 1 / sqrt (INR k).
Proof.
  intro H. unfold shc_prersqrt.
  enough (G : forall k, (k < S (2 * degree + 1))%nat ->
    loop 0 (2 * degree + 1) (fun i psqrt => upd psqrt i (1 / sqrt (INR i))) buf k = 1 / sqrt (INR k)) by (apply G; lia).
  apply (loop_inv (fun i a => forall k, (k < i)%nat -> a k = 1 / sqrt (INR k))); [lia|intros; lia|].
  intros i a Hi IH j Hj. destruct (Nat.eq_dec j i) as [->|N]; [apply upd_same|].
  rewrite upd_other by auto. apply IH. lia.
Qed.

Definition sqrt_table (degree : nat) (psqrt prsqrt : arr) : Prop :=
  forall k, (k <= 2 * degree + 1)%nat -> psqrt k = sqrt (INR k) /\ prsqrt k = 1 / sqrt (INR k).

Section Low.
Variables (lp0 ldp0 : arr) (degree : nat) (elv : R).

Definition at_nm (a b : nat -> nat -> R) (s : arr * arr) (n m : nat) : Prop :=
  fst s (T n + m)%nat = a n m /\ snd s (T n + m)%nat = b n m.
Definition frame (k0 : nat) (s : arr * arr) : Prop :=
  forall k, (k0 <= k)%nat -> fst s k = lp0 k /\ snd s k = ldp0 k.

Let gv (n m : nat) := g n m elv.
Let gd (n m : nat) := Derive (g n m) elv.
Let sv (n m : nat) := g n m elv * F n m.
Let sd (n m : nat) := Derive (g n m) elv * F n m.

(** ** First pass: Gauss normalised functions *)
Definition gauss_rows (i : nat) (s : arr * arr) : Prop :=
  (forall n m, (n < i)%nat -> (m <= n)%nat -> at_nm gv gd s n m) /\ frame (T i) s.

Definition gauss_inner (i j : nat) (s : arr * arr) : Prop :=
  (forall n m, (n < i)%nat -> (m <= n)%nat -> at_nm gv gd s n m) /\
  (forall m, (m < j)%nat -> at_nm gv gd s i m) /\ frame (T i + j) s.

Lemma gauss_init :
  gauss_rows 2 (upd (upd (upd lp0 0 1) 1 (sin elv)) 2 (cos elv),
                upd (upd (upd ldp0 0 0) 1 (cos elv)) 2 (- sin elv)).
Proof.
  split.
  - intros n m Hn Hm. unfold at_nm. cbn [fst snd].
    assert (C : (n = 0 /\ m = 0 \/ n = 1 /\ m = 0 \/ n = 1 /\ m = 1)%nat) by lia.
    destruct C as [[-> ->]|[[-> ->]|[-> ->]]]; unfold gv, gd.
    + rewrite g_00, dg_00. rewrite T_0. unfold upd. cbn. auto.
    + rewrite g_subdiag, dg_subdiag, g_00, dg_00. rewrite T_1. unfold upd. cbn [Nat.add Nat.eqb]. split; ring.
    + rewrite g_diag, dg_diag, g_00, dg_00. rewrite T_1. unfold upd. cbn [Nat.add Nat.eqb]. split; ring.
  - intros k Hk. rewrite T_2 in Hk. cbn [fst snd]. rewrite !upd_other by lia. auto.
Qed.

Lemma gauss_pass i (s : arr * arr) : (2 <= i)%nat -> gauss_rows i s ->
  gauss_rows (S i)
    (let '(lp, ldp) := s in
     let i_off := (i * (i + 1) / 2)%nat in
     let i1sq := ((i - 1) * (i - 1))%nat in
     let w_dnm := 1 / INR ((2 * i - 1) * (2 * i - 3)) in
     let '(lp, ldp) :=
       loop 0 (i - 2) (fun j '(lp, ldp) =>
         let idx0 := (i_off + j)%nat in
         let idx1 := (i_off + j - i)%nat in
         let idx2 := (i_off + j + 1 - i - i)%nat in
         let w := w_dnm * INR (i1sq - j * j) in
         let lp' := upd lp idx0 (sin elv * lp idx1 - w * lp idx2) in
         let ldp' := upd ldp idx0
                       (sin elv * ldp idx1 - w * ldp idx2 + cos elv * lp' idx1) in
         (lp', ldp')) (lp, ldp) in
     let idx0 := (i_off + i)%nat in
     let idx1 := (i_off - 1)%nat in
     let lp := upd lp (idx0 - 1) (sin elv * lp idx1) in
     let ldp := upd ldp (idx0 - 1) (sin elv * ldp idx1 + cos elv * lp idx1) in
     let lp := upd lp idx0 (cos elv * lp idx1) in
     let ldp := upd ldp idx0 (cos elv * ldp idx1 - sin elv * lp idx1) in
     (lp, ldp)).
Proof.
  intros Hi H. destruct s as [lp ldp]. cbv zeta. change (i * (i + 1) / 2)%nat with (T i).
  match goal with |- context [loop 0 (i - 2) ?b _] => set (body := b) end.
  assert (I : gauss_inner i (S (i - 2)) (loop 0 (i - 2) body (lp, ldp))).
  { apply (loop_inv (gauss_inner i)); [lia| |].
    - destruct H as [H1 H2]. split; [exact H1|]. split; [intros; lia|]. rewrite Nat.add_0_r. exact H2.
    - clear H lp ldp. intros j [lp ldp] Hj (H1 & H2 & H3). unfold body. cbn [fst snd].
      destruct i as [|[|k]]; [lia|lia|].
      assert (E1 : (T (S (S k)) + j - S (S k) = T (S k) + j)%nat) by (rewrite (T_S (S k)); lia).
      assert (E2 : (T (S (S k)) + j + 1 - S (S k) - S (S k) = T k + j)%nat) by (rewrite (T_S (S k)), (T_S k); lia).
      rewrite E1, E2. clear E1 E2.
      destruct (H1 (S k) j) as [A1 A2]; [lia|lia|]. destruct (H1 k j) as [B1 B2]; [lia|lia|].
      cbn [fst snd] in A1, A2, B1, B2.
      assert (N1 : (T (S k) + j <> T (S (S k)) + j)%nat) by (rewrite (T_S (S k)); lia).
      rewrite (upd_other lp _ _ _ N1). rewrite A1, A2, B1, B2.
      split; [|split].
      + intros n m Hn Hm. unfold at_nm. cbn [fst snd].
        rewrite !upd_other by (apply T_neq; lia). apply (H1 n m); lia.
      + intros m Hm. unfold at_nm. cbn [fst snd]. destruct (Nat.eq_dec m j) as [->|N].
        * rewrite !upd_same. unfold gv, gd. rewrite g_rec, dg_rec by lia. split; reflexivity.
        * rewrite !upd_other by lia. apply (H2 m). lia.
      + intros q Hq. cbn [fst snd]. rewrite !upd_other by lia. apply H3. lia. }
  destruct (loop 0 (i - 2) body (lp, ldp)) as [lp' ldp']. clear body H lp ldp.
  destruct I as (H1 & H2 & H3). replace (S (i - 2)) with (i - 1)%nat in * by lia.
  destruct i as [|k]; [lia|]. replace (S k - 1)%nat with k in * by lia.
  assert (E1 : (T (S k) - 1 = T k + k)%nat) by (rewrite T_S; lia).
  replace (T (S k) + S k - 1)%nat with (T (S k) + k)%nat by lia. rewrite E1.
  destruct (H1 k k) as [A1 A2]; [lia|lia|]. cbn [fst snd] in A1, A2.
  assert (N1 : (T k + k <> T (S k) + k)%nat) by (rewrite T_S; lia).
  assert (N2 : (T k + k <> T (S k) + S k)%nat) by (rewrite T_S; lia).
  rewrite !(upd_other _ _ _ _ N1), !(upd_other _ _ _ _ N2), !(upd_other _ _ _ _ N1).
  rewrite A1, A2. split.
  - intros n m Hn Hm. unfold at_nm. cbn [fst snd]. destruct (Nat.eq_dec n (S k)) as [->|N].
    + destruct (Nat.eq_dec m (S k)) as [->|M].
      * rewrite !upd_same. unfold gv, gd. rewrite g_diag, dg_diag. split; reflexivity.
      * rewrite !(upd_other _ (T (S k) + S k)) by lia. destruct (Nat.eq_dec m k) as [->|M'].
        -- rewrite !upd_same. unfold gv, gd. rewrite g_subdiag, dg_subdiag. split; reflexivity.
        -- rewrite !upd_other by lia. apply H2. lia.
    + rewrite !upd_other by (apply T_neq; lia). apply (H1 n m); lia.
  - intros q Hq. cbn [fst snd]. rewrite (T_S (S k)) in Hq. rewrite !upd_other by lia. apply H3. lia.
Qed.

(** ** Second pass: normalisation *)
Definition schmidt_rows (i : nat) (st : arr * arr * R) : Prop :=
  let '(s, sqn0) := st in
  (forall n m, (n < i)%nat -> (m <= n)%nat -> at_nm sv sd s n m) /\
  (forall n m, (i <= n <= degree)%nat -> (m <= n)%nat -> at_nm gv gd s n m) /\
  frame (T (S degree)) s /\ sqn0 = F (i - 1) 0.

Definition schmidt_inner (i j : nat) (st : arr * arr * R) : Prop :=
  let '(s, sqn1) := st in
  (forall n m, (n < i)%nat -> (m <= n)%nat -> at_nm sv sd s n m) /\
  (forall n m, (i < n <= degree)%nat -> (m <= n)%nat -> at_nm gv gd s n m) /\
  (forall m, (m < j)%nat -> at_nm sv sd s i m) /\
  (forall m, (j <= m <= i)%nat -> at_nm gv gd s i m) /\
  frame (T (S degree)) s /\ sqn1 = F i (j - 1).

(** scaling of one element *)
Lemma scale_step (lp ldp : arr) i j q :
  (j <= i <= degree)%nat -> q = F i j ->
  (forall n m, (n < i)%nat -> (m <= n)%nat -> at_nm sv sd (lp, ldp) n m) ->
  (forall n m, (i < n <= degree)%nat -> (m <= n)%nat -> at_nm gv gd (lp, ldp) n m) ->
  (forall m, (m < j)%nat -> at_nm sv sd (lp, ldp) i m) ->
  (forall m, (j <= m <= i)%nat -> at_nm gv gd (lp, ldp) i m) ->
  frame (T (S degree)) (lp, ldp) ->
  let s := (upd lp (T i + j) (lp (T i + j)%nat * q), upd ldp (T i + j) (ldp (T i + j)%nat * q)) in
  (forall n m, (n < i)%nat -> (m <= n)%nat -> at_nm sv sd s n m) /\
  (forall n m, (i < n <= degree)%nat -> (m <= n)%nat -> at_nm gv gd s n m) /\
  (forall m, (m < S j)%nat -> at_nm sv sd s i m) /\
  (forall m, (S j <= m <= i)%nat -> at_nm gv gd s i m) /\
  frame (T (S degree)) s.
Proof.
  intros Hj Hq H1 H2 H3 H4 H5. cbv zeta. unfold at_nm in *. cbn [fst snd] in *.
  split; [|split; [|split; [|split]]].
  - intros n m Hn Hm. rewrite !upd_other by (apply T_neq; lia). auto.
  - intros n m Hn Hm. rewrite !upd_other by (apply T_neq; lia). auto.
  - intros m Hm. destruct (Nat.eq_dec m j) as [->|N].
    + rewrite !upd_same. destruct (H4 j) as [-> ->]; [lia|]. rewrite Hq. split; reflexivity.
    + rewrite !upd_other by lia. apply H3. lia.
  - intros m Hm. rewrite !upd_other by lia. apply H4. lia.
  - intros k Hk. cbn [fst snd]. pose proof (T_mono i (S degree) ltac:(lia)).
    rewrite !upd_other by lia. apply H5. lia.
Qed.

Lemma schmidt_pass psqrt prsqrt i (st : arr * arr * R) : sqrt_table degree psqrt prsqrt ->
  (2 <= i <= degree)%nat -> schmidt_rows i st ->
  schmidt_rows (S i)
    (let '(lp, ldp, sqn0) := st in
      let i_off := (i * (i + 1) / 2)%nat in
      let sqn0 := sqn0 * (INR (2 * i - 1) / INR i) in
      let lp := upd lp i_off (lp i_off * sqn0) in
      let ldp := upd ldp i_off (ldp i_off * sqn0) in
      let sqn1 := sqn0 * psqrt (2 * i)%nat * prsqrt (i + 1)%nat in
      let lp := upd lp (i_off + 1) (lp (i_off + 1)%nat * sqn1) in
      let ldp := upd ldp (i_off + 1) (ldp (i_off + 1)%nat * sqn1) in
      let '(lp, ldp, _) :=
        loop 2 i (fun j '(lp, ldp, sqn1) =>
          let sqn1 := sqn1 * (psqrt (i - j + 1)%nat * prsqrt (i + j)%nat) in
          let lp := upd lp (i_off + j) (lp (i_off + j)%nat * sqn1) in
          let ldp := upd ldp (i_off + j) (ldp (i_off + j)%nat * sqn1) in
          (lp, ldp, sqn1)) (lp, ldp, sqn1) in
      (lp, ldp, sqn0)).
Proof.
  intros Q Hi H. destruct st as [[lp ldp] sqn0]. cbv zeta. change (i * (i + 1) / 2)%nat with (T i).
  destruct H as (H1 & H2 & H3 & H4).
  assert (Q0 : sqn0 * (INR (2 * i - 1) / INR i) = F i 0).
  { rewrite H4. destruct i as [|i]; [lia|]. rewrite F_step. replace (S i - 1)%nat with i by lia. reflexivity. }
  rewrite Q0. clear H4 Q0 sqn0.
  assert (Q1 : F i 0 * psqrt (2 * i)%nat * prsqrt (i + 1)%nat = F i 1).
  { rewrite F_first by lia. destruct (Q (2 * i)%nat) as [-> _]; [lia|]. destruct (Q (i + 1)%nat) as [_ ->]; [lia|]. reflexivity. }
  rewrite Q1. clear Q1.
  destruct (scale_step lp ldp i 0 (F i 0)) as (A1 & A2 & A3 & A4 & A5); auto; [lia| | | |].
  { intros n m Hn Hm. apply H2; lia. }
  { intros; lia. }
  { intros m Hm. apply H2; lia. }
  cbv zeta in A1, A2, A3, A4, A5. rewrite !Nat.add_0_r in A1, A2, A3, A4, A5.
  set (lp1 := upd lp _ _) in *. set (ldp1 := upd ldp _ _) in *. clearbody lp1 ldp1. clear lp ldp H1 H2 H3.
  destruct (scale_step lp1 ldp1 i 1 (F i 1)) as (B1 & B2 & B3 & B4 & B5); auto; [lia|].
  cbv zeta in B1, B2, B3, B4, B5.
  set (lp2 := upd lp1 _ _) in *. set (ldp2 := upd ldp1 _ _) in *. clearbody lp2 ldp2. clear lp1 ldp1 A1 A2 A3 A4 A5.
  match goal with |- context [loop 2 i ?b _] => set (body := b) end.
  assert (I : schmidt_inner i (S i) (loop 2 i body (lp2, ldp2, F i 1))).
  { apply (loop_inv (schmidt_inner i)); [lia| |].
    - split; [exact B1|]. split; [exact B2|]. split; [exact B3|]. split; [exact B4|]. split; [exact B5|]. reflexivity.
    - clear B1 B2 B3 B4 B5 lp2 ldp2. intros j [[lp ldp] sqn1] Hj (H1 & H2 & H3 & H4 & H5 & H6). unfold body.
      assert (Q1 : sqn1 * (psqrt (i - j + 1)%nat * prsqrt (i + j)%nat) = F i j).
      { rewrite H6. destruct j as [|[|j]]; [lia|lia|]. rewrite (F_order i (S j)) by lia. cbn [Nat.eqb].
        destruct (Q (i - S (S j) + 1)%nat) as [-> _]; [lia|]. destruct (Q (i + S (S j))%nat) as [_ ->]; [lia|].
        replace (S (S j) - 1)%nat with (S j) by lia. replace (i - S (S j) + 1)%nat with (i - S j)%nat by lia. ring. }
      rewrite Q1. destruct (scale_step lp ldp i j (F i j)) as (C1 & C2 & C3 & C4 & C5); auto; [lia|].
      cbv zeta in C1, C2, C3, C4, C5. split; [exact C1|]. split; [exact C2|]. split; [exact C3|].
      split; [exact C4|]. split; [exact C5|]. f_equal. lia. }
  destruct (loop 2 i body (lp2, ldp2, F i 1)) as [[lp3 ldp3] sq]. destruct I as (I1 & I2 & I3 & I4 & I5 & _).
  split; [|split; [|split]].
  - intros n m Hn Hm. destruct (Nat.eq_dec n i) as [->|N]; [apply I3; lia|apply I1; lia].
  - intros n m Hn Hm. apply I2; lia.
  - exact I5.
  - f_equal. lia.
Qed.

Lemma low_state psqrt prsqrt : sqrt_table degree psqrt prsqrt -> (1 <= degree)%nat ->
  let r := shc_legendre_low lp0 ldp0 degree (sin elv) (cos elv) psqrt prsqrt in
  (forall n m, (n <= degree)%nat -> (m <= n)%nat -> at_nm sv sd r n m) /\ frame (T (S degree)) r.
Proof.
  intros Q Hd. unfold shc_legendre_low. cbv zeta.
  match goal with |- context [loop 2 degree ?b1 (?x, ?y)] => set (body1 := b1); set (i0 := (x, y)) end.
  assert (P1 : gauss_rows (S degree) (loop 2 degree body1 i0)).
  { apply (loop_inv gauss_rows); [lia|apply gauss_init|]. intros i s Hi. apply gauss_pass. lia. }
  destruct (loop 2 degree body1 i0) as [lp1 ldp1]. clear body1 i0.
  match goal with |- context [loop 2 degree ?b2 _] => set (body2 := b2) end.
  assert (P2 : schmidt_rows (S degree) (loop 2 degree body2 (lp1, ldp1, 1))).
  { apply (loop_inv schmidt_rows); [lia| |].
    - destruct P1 as [P1 P2]. split; [|split; [|split]].
      + intros n m Hn Hm. destruct (P1 n m) as [A B]; [lia|lia|]. unfold at_nm. rewrite A, B. unfold sv, sd, gv, gd.
        assert (C : F n m = 1).
        { assert (C : (n = 0 /\ m = 0 \/ n = 1 /\ m = 0 \/ n = 1 /\ m = 1)%nat) by lia.
          destruct C as [[-> ->]|[[-> ->]|[-> ->]]]; [apply F_0|apply F_10|apply F_11]. }
        rewrite C. split; ring.
      + intros n m Hn Hm. apply P1; lia.
      + exact P2.
      + change (2 - 1)%nat with 1%nat. rewrite F_10. reflexivity.
    - intros i st Hi. apply schmidt_pass; [exact Q|lia]. }
  destruct (loop 2 degree body2 (lp1, ldp1, 1)) as [[lp2 ldp2] sq]. destruct P2 as (A & _ & B & _).
  split; [|exact B]. intros n m Hn Hm. apply A; lia.
Qed.

End Low.

Lemma schmidt_derive n m x : is_derive (schmidt n m) x (Derive (g n m) x * F n m).
Proof.
  apply (is_derive_ext (fun t => F n m * g n m t)); [intro t; rewrite schmidt_g; apply Rmult_comm|].
  rewrite Rmult_comm. apply @is_derive_scal. apply Derive_correct, g_ex.
Qed.

Lemma low_correct lp ldp degree elv psqrt prsqrt n m :
  sqrt_table degree psqrt prsqrt -> (m <= n <= degree)%nat -> (1 <= degree)%nat ->
  let '(lp', ldp') := shc_legendre_low lp ldp degree (sin elv) (cos elv) psqrt prsqrt in
  lp' (nm_index n m) = schmidt n m elv /\ is_derive (schmidt n m) elv (ldp' (nm_index n m)).
Proof.
  intros Q Hn Hd. destruct (low_state lp ldp degree elv psqrt prsqrt Q Hd) as [A _].
  destruct (shc_legendre_low lp ldp degree (sin elv) (cos elv) psqrt prsqrt) as [lp' ldp'].
  destruct (A n m) as [B C]; [lia|lia|]. cbn [fst snd] in B, C. rewrite T_index, B, C.
  split; [symmetry; apply schmidt_g|apply schmidt_derive].
Qed.

Lemma low_frame lp ldp degree elv psqrt prsqrt k :
  sqrt_table degree psqrt prsqrt -> (1 <= degree)%nat -> (nm_size degree <= k)%nat ->
  let '(lp', ldp') := shc_legendre_low lp ldp degree (sin elv) (cos elv) psqrt prsqrt in
  lp' k = lp k /\ ldp' k = ldp k.
Proof.
  intros Q Hd Hk. destruct (low_state lp ldp degree elv psqrt prsqrt Q Hd) as [_ A].
  destruct (shc_legendre_low lp ldp degree (sin elv) (cos elv) psqrt prsqrt) as [lp' ldp'].
  rewrite T_size in Hk. apply (A k Hk).
Qed.

(** degree 0: the first element is correct, but two more elements are written *)
Lemma low_zero lp ldp s c psqrt prsqrt :
  let '(lp', ldp') := shc_legendre_low lp ldp 0 s c psqrt prsqrt in
  lp' 0%nat = 1 /\ ldp' 0%nat = 0 /\ lp' 1%nat = s /\ lp' 2%nat = c /\ ldp' 1%nat = c /\ ldp' 2%nat = - s.
Proof. cbn. repeat split. Qed.
