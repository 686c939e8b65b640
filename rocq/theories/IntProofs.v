(** Proofs about the arithmetic of the type int. *)

From Coq Require Import Bool List Reals Arith ZArith Lia Lra.
From Verif Require Import ArrModel LegendreModel GeoModel SizeModel CoefModel ShEvalModel BufModel TempModel
  IntModel IntSpec.
Import ListNotations.
Open Scope Z_scope.

(** ** Expressions *)

Fixpoint val (e : iexp) : Z :=
  match e with
  | Num z => z
  | Add a b => val a + val b
  | Sub a b => val a - val b
  | Mul a b => val a * val b
  | Half a => Z.quot (val a) 2
  end.

Fixpoint fits (e : iexp) : Prop :=
  match e with
  | Num _ => True
  | Add a b => fits a /\ fits b /\ int32 (val a + val b)
  | Sub a b => fits a /\ fits b /\ int32 (val a - val b)
  | Mul a b => fits a /\ fits b /\ int32 (val a * val b)
  | Half a => fits a /\ int32 (Z.quot (val a) 2)
  end.

Lemma ev_exact ar e : conforming ar -> fits e -> ev ar e = Some (val e).
Proof.
  intros C. induction e; cbn [ev fits val].
  - reflexivity.
  - intros (Fa & Fb & F). rewrite IHe1, IHe2 by assumption. apply C, F.
  - intros (Fa & Fb & F). rewrite IHe1, IHe2 by assumption. apply C, F.
  - intros (Fa & Fb & F). rewrite IHe1, IHe2 by assumption. apply C, F.
  - intros (Fa & F). rewrite IHe by assumption. apply C, F.
Qed.

Lemma ev_val ar e z : conforming ar -> fits e -> val e = z -> ev ar e = Some z.
Proof. intros C F <-. apply ev_exact; assumption. Qed.

Lemma ix_val ar e k : conforming ar -> fits e -> val e = Z.of_nat k -> ix ar e = Some k.
Proof.
  intros C F E. unfold ix. rewrite (ev_exact ar e C F), E.
  destruct (Z.ltb_spec (Z.of_nat k) 0); [lia|]. rewrite Nat2Z.id. reflexivity.
Qed.

(** ** Loops *)

Lemma loopi_rel_aux {A B} ar (Rel : nat -> A -> B -> Prop) (bi : Z -> A -> option A) (bn : nat -> B -> B) n :
  conforming ar -> forall lo s s', Z.of_nat (lo + n) < 2 ^ 31 -> Rel lo s s' ->
  (forall i s s', (lo <= i < lo + n)%nat -> Rel i s s' ->
     exists t, bi (Z.of_nat i) s = Some t /\ Rel (i + 1)%nat t (bn i s')) ->
  exists t, fold_left (fun s i => try s <- s; try s <- bi (Z.of_nat i) s;
      try _ <- ev ar (Z.of_nat i + 1%Z)%cint; Some s) (seq lo n) (Some s) = Some t /\
    Rel (lo + n)%nat t (fold_left (fun s i => bn i s) (seq lo n) s').
Proof.
  intros C. induction n as [|n IH]; intros lo s s' H Rs Hb.
  - exists s. cbn. rewrite Nat.add_0_r. split; [reflexivity|assumption].
  - destruct (Hb lo s s' ltac:(lia) Rs) as (t & Et & Rt).
    cbn [seq fold_left]. rewrite Et, (ev_exact ar _ C) by (cbn [fits val]; unfold int32; lia).
    replace (lo + S n)%nat with (S lo + n)%nat by lia.
    replace (lo + 1)%nat with (S lo) in Rt by lia.
    apply IH; [lia|assumption|]. intros i u u' Hi. apply Hb. lia.
Qed.

Lemma loopi_rel {A B} ar (Rel : nat -> A -> B -> Prop) (bi : Z -> A -> option A) (bn : nat -> B -> B) lo hi s s' :
  conforming ar -> Z.of_nat lo < 2 ^ 31 -> Z.of_nat hi + 1 < 2 ^ 31 -> Rel lo s s' ->
  (forall i s s', (lo <= i <= hi)%nat -> Rel i s s' ->
     exists t, bi (Z.of_nat i) s = Some t /\ Rel (i + 1)%nat t (bn i s')) ->
  exists t, loopi ar lo hi bi s = Some t /\ Rel (Nat.max lo (S hi)) t (loop lo hi bn s').
Proof.
  intros C Hl Hh Rs Hb. unfold loopi, loop.
  replace (Nat.max lo (S hi)) with (lo + (S hi - lo))%nat by lia.
  apply (loopi_rel_aux ar Rel bi bn _ C); [lia|assumption|]. intros i u u' Hi. apply Hb. lia.
Qed.

Lemma loopi_eq {A} ar (bi : Z -> A -> option A) (bn : nat -> A -> A) lo hi s :
  conforming ar -> Z.of_nat lo < 2 ^ 31 -> Z.of_nat hi + 1 < 2 ^ 31 ->
  (forall i s, (lo <= i <= hi)%nat -> bi (Z.of_nat i) s = Some (bn i s)) ->
  loopi ar lo hi bi s = Some (loop lo hi bn s).
Proof.
  intros C Hl Hh Hb.
  destruct (loopi_rel ar (fun _ a b => a = b) bi bn lo hi s s C Hl Hh eq_refl) as (t & E & Et).
  - intros i u u' Hi <-. exists (bn i u). split; [apply Hb, Hi|reflexivity].
  - rewrite E, Et. reflexivity.
Qed.

(** ** Indices *)

Lemma triangle i : (2 * (i * (i + 1) / 2) = i * (i + 1))%nat.
Proof.
  induction i as [|i IH]; [reflexivity|].
  replace (S i * (S i + 1))%nat with (i * (i + 1) + (i + 1) * 2)%nat by ring.
  rewrite Nat.div_add by lia. lia.
Qed.

Lemma triangle_z i : 2 * Z.of_nat (i * (i + 1) / 2) = Z.of_nat i * (Z.of_nat i + 1).
Proof. pose proof (triangle i). nia. Qed.

Lemma half_triangle i : Z.quot (Z.of_nat i * (Z.of_nat i + 1)) 2 = Z.of_nat (i * (i + 1) / 2).
Proof. rewrite <- triangle_z, Z.mul_comm. apply Z.quot_mul. lia. Qed.

Lemma INR_of k z : z = Z.of_nat k -> IZR z = INR k.
Proof. intros ->. symmetry. apply INR_IZR_INZ. Qed.

(** ** Tables of the square roots *)

Lemma presqrt_exact ar degree buf : conforming ar -> Z.of_nat degree <= 1073741822 ->
  i_presqrt ar degree buf = Some (shc_presqrt degree buf).
Proof.
  intros C H. unfold i_presqrt, shc_presqrt.
  rewrite (ix_val ar _ (2 * degree + 2) C) by (cbn [fits val]; unfold int32; lia).
  replace (2 * degree + 2 - 1)%nat with (2 * degree + 1)%nat by lia.
  apply loopi_eq; [assumption|lia|lia|]. intros i s Hi.
  rewrite (ix_val ar _ i C) by (cbn [fits val]; trivial). rewrite <- INR_IZR_INZ. reflexivity.
Qed.

Lemma prersqrt_exact ar degree buf : conforming ar -> Z.of_nat degree <= 1073741822 ->
  i_prersqrt ar degree buf = Some (shc_prersqrt degree buf).
Proof.
  intros C H. unfold i_prersqrt, shc_prersqrt.
  rewrite (ix_val ar _ (2 * degree + 2) C) by (cbn [fits val]; unfold int32; lia).
  replace (2 * degree + 2 - 1)%nat with (2 * degree + 1)%nat by lia.
  apply loopi_eq; [assumption|lia|lia|]. intros i s Hi.
  rewrite (ix_val ar _ i C) by (cbn [fits val]; trivial). rewrite <- INR_IZR_INZ. reflexivity.
Qed.

(** ** The algorithm of the low degrees *)

Ltac fit := cbn [fits val]; unfold int32; repeat split; try exact I; lia.

(** the passes of the two loops, with int ... *)
Definition i_pass1 (ar : machine) (sin_elv cos_elv : R) : Z -> arr * arr -> option (arr * arr) :=
  (fun i '(lp, ldp) =>
      try i_off <- ev ar (Half (i * (i + 1%Z)));
      try i1sq <- ev ar ((i - 1%Z) * (i - 1%Z));
      try dnm <- ev ar ((2%Z * i - 1%Z) * (2%Z * i - 3%Z));
      let w_dnm := 1 / IZR dnm in
      try _ <- ev ar (i - 1%Z);
      try (lp, ldp) <-
        loopi ar 0 (Z.to_nat i - 2) (fun j '(lp, ldp) =>
          try idx0 <- ix ar (i_off + j);
          try idx1 <- ix ar (i_off + j - i);
          try idx2 <- ix ar (i_off + j - i - i + 1%Z);
          try num <- ev ar (i1sq - j * j);
          let w := w_dnm * IZR num in
          let lp' := upd lp idx0 (sin_elv * lp idx1 - w * lp idx2) in
          let ldp' := upd ldp idx0
                        (sin_elv * ldp idx1 - w * ldp idx2 + cos_elv * lp' idx1) in
          Some (lp', ldp')) (lp, ldp);
      try idx0 <- ix ar (i_off + i);
      try idx1 <- ix ar (i_off - 1%Z);
      try idx01 <- ix ar (i_off + i - 1%Z);
      let lp := upd lp idx01 (sin_elv * lp idx1) in
      let ldp := upd ldp idx01 (sin_elv * ldp idx1 + cos_elv * lp idx1) in
      let lp := upd lp idx0 (cos_elv * lp idx1) in
      let ldp := upd ldp idx0 (cos_elv * ldp idx1 - sin_elv * lp idx1) in
      Some (lp, ldp))%R.

Definition i_pass2 (ar : machine) (psqrt prsqrt : arr) : Z -> arr * arr * R -> option (arr * arr * R) :=
  (fun i '(lp, ldp, sqn0) =>
      try i_off <- ev ar (Half (i * (i + 1%Z)));
      try off0 <- ix ar i_off;
      try f <- ev ar (2%Z * i - 1%Z);
      let sqn0 := sqn0 * (IZR f / IZR i) in
      let lp := upd lp off0 (lp off0 * sqn0) in
      let ldp := upd ldp off0 (ldp off0 * sqn0) in
      try k2 <- ix ar (2%Z * i);
      try k1 <- ix ar (i + 1%Z);
      let sqn1 := sqn0 * psqrt k2 * prsqrt k1 in
      try off1 <- ix ar (i_off + 1%Z);
      let lp := upd lp off1 (lp off1 * sqn1) in
      let ldp := upd ldp off1 (ldp off1 * sqn1) in
      try (lp, ldp, _) <-
        loopi ar 2 (Z.to_nat i) (fun j '(lp, ldp, sqn1) =>
          try a <- ix ar (i - j + 1%Z);
          try b <- ix ar (i + j);
          let sqn1 := sqn1 * (psqrt a * prsqrt b) in
          try off <- ix ar (i_off + j);
          let lp := upd lp off (lp off * sqn1) in
          let ldp := upd ldp off (ldp off * sqn1) in
          Some (lp, ldp, sqn1)) (lp, ldp, sqn1);
      Some (lp, ldp, sqn0))%R.

(** ... and with natural numbers; the first with any weight [w_dnm] *)
Definition pass1 (sin_elv cos_elv w_dnm : R) : nat -> arr * arr -> arr * arr :=
  (fun i '(lp, ldp) =>
      let i_off := (i * (i + 1) / 2)%nat in
      let i1sq := ((i - 1) * (i - 1))%nat in
      let '(lp, ldp) :=
        loop 0 (i - 2) (fun j '(lp, ldp) =>
          let idx0 := (i_off + j)%nat in
          let idx1 := (i_off + j - i)%nat in
          let idx2 := (i_off + j + 1 - i - i)%nat in
          let w := w_dnm * INR (i1sq - j * j) in
          let lp' := upd lp idx0 (sin_elv * lp idx1 - w * lp idx2) in
          let ldp' := upd ldp idx0
                        (sin_elv * ldp idx1 - w * ldp idx2 + cos_elv * lp' idx1) in
          (lp', ldp')) (lp, ldp) in
      let idx0 := (i_off + i)%nat in
      let idx1 := (i_off - 1)%nat in
      let lp := upd lp (idx0 - 1) (sin_elv * lp idx1) in
      let ldp := upd ldp (idx0 - 1) (sin_elv * ldp idx1 + cos_elv * lp idx1) in
      let lp := upd lp idx0 (cos_elv * lp idx1) in
      let ldp := upd ldp idx0 (cos_elv * ldp idx1 - sin_elv * lp idx1) in
      (lp, ldp))%R.

Definition pass2 (psqrt prsqrt : arr) : nat -> arr * arr * R -> arr * arr * R :=
  (fun i '(lp, ldp, sqn0) =>
      let i_off := (i * (i + 1) / 2)%nat in
      let sqn0 := sqn0 * (INR (2 * i - 1) / INR i) in
      let lp := upd lp i_off (lp i_off * sqn0) in
      let ldp := upd ldp i_off (ldp i_off * sqn0) in
      let sqn1 := sqn0 * psqrt (2 * i)%nat * prsqrt (i + 1)%nat in
      let lp := upd lp (i_off + 1) (lp (i_off + 1)%nat * sqn1) in
      let ldp := upd ldp (i_off + 1) (ldp (i_off + 1)%nat * sqn1) in
      let '(lp, ldp, _) :=
        loop 2 i (fun j '(lp, ldp, sqn1) =>
          let sqn1 := sqn1 * (psqrt (i - j + 1)%nat * prsqrt (i + j)%nat) in
          let lp := upd lp (i_off + j) (lp (i_off + j)%nat * sqn1) in
          let ldp := upd ldp (i_off + j) (ldp (i_off + j)%nat * sqn1) in
          (lp, ldp, sqn1)) (lp, ldp, sqn1) in
      (lp, ldp, sqn0))%R.

Ltac replace_loop EL := match type of EL with _ = ?r => match goal with |- context [@loop ?T ?lo ?hi ?bn ?x0] =>
  replace (@loop T lo hi bn x0) with r by (symmetry; exact EL) end end.
Ltac take_loop := match goal with |- context [@loop ?T ?lo ?hi ?b ?x] =>
  let EL := fresh "EL" in destruct (@loop T lo hi b x) eqn:EL; repeat match goal with p : _ * _ |- _ => destruct p end;
  try replace_loop EL; clear EL end.

Lemma pass1_any ar s c i st d : conforming ar -> (2 <= i)%nat -> Z.of_nat i <= 46339 ->
  ev ar ((2%Z * Z.of_nat i - 1%Z) * (2%Z * Z.of_nat i - 3%Z)) = Some d ->
  i_pass1 ar s c (Z.of_nat i) st = Some (pass1 s c (1 / IZR d)%R i st).
Proof.
  intros C Hi H Ed. destruct st as [lp ldp]. unfold i_pass1, pass1. cbv zeta.
  pose proof (triangle_z i) as T.
  assert (0 <= Z.of_nat i * Z.of_nat i <= 46339 * 46339) by nia.
  rewrite (ev_val ar (Half (Z.of_nat i * (Z.of_nat i + 1%Z))) (Z.of_nat (i * (i + 1) / 2)) C)
    by (cbn [fits val]; rewrite ?half_triangle; unfold int32; repeat split; lia).
  rewrite (ev_val ar ((Z.of_nat i - 1%Z) * (Z.of_nat i - 1%Z)) (Z.of_nat ((i - 1) * (i - 1))) C)
    by (cbn [fits val]; unfold int32; repeat split; try lia; nia).
  rewrite Ed.
  rewrite (ev_val ar (Z.of_nat i - 1%Z) (Z.of_nat i - 1) C) by fit.
  rewrite Nat2Z.id.
  set (o := (i * (i + 1) / 2)%nat) in *. clearbody o.
  match goal with |- context [loopi ar 0 (i - 2) ?bi (lp, ldp)] =>
    match goal with |- context [loop 0 (i - 2) ?bn (lp, ldp)] =>
      rewrite (loopi_eq ar bi bn 0 (i - 2) (lp, ldp) C ltac:(lia) ltac:(lia)) end end.
  2:{ clear lp ldp. intros j [lp ldp] Hj.
      assert (0 <= Z.of_nat j * Z.of_nat j <= Z.of_nat i * Z.of_nat i) by nia.
      rewrite (ix_val ar (Z.of_nat o + Z.of_nat j) (o + j) C) by fit.
      rewrite (ix_val ar (Z.of_nat o + Z.of_nat j - Z.of_nat i) (o + j - i) C)
        by (cbn [fits val]; unfold int32; repeat split; try exact I; nia).
      rewrite (ix_val ar (Z.of_nat o + Z.of_nat j - Z.of_nat i - Z.of_nat i + 1%Z) (o + j + 1 - i - i) C)
        by (cbn [fits val]; unfold int32; repeat split; try exact I; nia).
      rewrite (ev_val ar (Z.of_nat ((i - 1) * (i - 1)) - Z.of_nat j * Z.of_nat j)
                 (Z.of_nat ((i - 1) * (i - 1) - j * j)) C)
        by (cbn [fits val]; unfold int32; repeat split; try exact I; nia).
      rewrite <- INR_IZR_INZ. reflexivity. }
  take_loop.
  rewrite (ix_val ar (Z.of_nat o + Z.of_nat i) (o + i) C) by fit.
  rewrite (ix_val ar (Z.of_nat o - 1%Z) (o - 1) C)
    by (cbn [fits val]; unfold int32; repeat split; try exact I; nia).
  rewrite (ix_val ar (Z.of_nat o + Z.of_nat i - 1%Z) (o + i - 1) C) by fit.
  reflexivity.
Qed.

Lemma pass1_exact ar s c i st : conforming ar -> (2 <= i)%nat -> Z.of_nat i <= 23171 ->
  i_pass1 ar s c (Z.of_nat i) st = Some (pass1 s c (1 / INR ((2 * i - 1) * (2 * i - 3)))%R i st).
Proof.
  intros C Hi H. rewrite INR_IZR_INZ. apply pass1_any; [assumption|assumption|lia|].
  assert (0 <= Z.of_nat i * Z.of_nat i <= 23171 * 23171) by nia.
  apply ev_val; [assumption| |]; cbn [fits val]; unfold int32; repeat split; try lia; nia.
Qed.

Lemma pass2_exact ar ps prs i st : conforming ar -> (2 <= i)%nat -> Z.of_nat i <= 46339 ->
  i_pass2 ar ps prs (Z.of_nat i) st = Some (pass2 ps prs i st).
Proof.
  intros C Hi H. destruct st as [[lp ldp] sqn0]. unfold i_pass2, pass2. cbv zeta.
  pose proof (triangle_z i) as T.
  assert (0 <= Z.of_nat i * Z.of_nat i <= 46339 * 46339) by nia.
  rewrite (ev_val ar (Half (Z.of_nat i * (Z.of_nat i + 1%Z))) (Z.of_nat (i * (i + 1) / 2)) C)
    by (cbn [fits val]; rewrite ?half_triangle; unfold int32; repeat split; lia).
  set (o := (i * (i + 1) / 2)%nat) in *. clearbody o.
  rewrite (ix_val ar (Z.of_nat o) o C) by (cbn [fits val]; trivial).
  rewrite (ev_val ar (2%Z * Z.of_nat i - 1%Z) (Z.of_nat (2 * i - 1)) C) by fit.
  rewrite (ix_val ar (2%Z * Z.of_nat i) (2 * i) C) by fit.
  rewrite (ix_val ar (Z.of_nat i + 1%Z) (i + 1) C) by fit.
  rewrite (ix_val ar (Z.of_nat o + 1%Z) (o + 1) C) by fit.
  rewrite Nat2Z.id, <- !INR_IZR_INZ.
  match goal with |- context [loopi ar 2 i ?bi ?x0] =>
    match goal with |- context [loop 2 i ?bn x0] =>
      rewrite (loopi_eq ar bi bn 2 i x0 C ltac:(lia) ltac:(lia)) end end.
  2:{ clear lp ldp sqn0. intros j [[lp ldp] sqn1] Hj. cbv zeta.
      rewrite (ix_val ar (Z.of_nat i - Z.of_nat j + 1%Z) (i - j + 1) C) by fit.
      rewrite (ix_val ar (Z.of_nat i + Z.of_nat j) (i + j) C) by fit.
      rewrite (ix_val ar (Z.of_nat o + Z.of_nat j) (o + j) C) by fit.
      reflexivity. }
  take_loop. reflexivity.
Qed.

Lemma i_low_passes ar lp ldp degree s c ps prs :
  i_legendre_low ar lp ldp degree s c ps prs =
  (try (lp, ldp) <- loopi ar 2 degree (i_pass1 ar s c)
      (upd (upd (upd lp 0 1) 1 s) 2 c, upd (upd (upd ldp 0 0) 1 c) 2 (- s))%R;
   try (lp, ldp, _) <- loopi ar 2 degree (i_pass2 ar ps prs) (lp, ldp, 1%R);
   Some (lp, ldp)).
Proof. reflexivity. Qed.

Lemma low_passes lp ldp degree s c ps prs :
  shc_legendre_low lp ldp degree s c ps prs =
  (let '(lp, ldp) := loop 2 degree (fun i => pass1 s c (1 / INR ((2 * i - 1) * (2 * i - 3)))%R i)
      (upd (upd (upd lp 0 1) 1 s) 2 c, upd (upd (upd ldp 0 0) 1 c) 2 (- s))%R in
   let '(lp, ldp, _) := loop 2 degree (pass2 ps prs) (lp, ldp, 1%R) in
   (lp, ldp)).
Proof. reflexivity. Qed.

Lemma low_exact ar lp ldp degree s c ps prs : conforming ar -> Z.of_nat degree <= 23171 ->
  i_legendre_low ar lp ldp degree s c ps prs = Some (shc_legendre_low lp ldp degree s c ps prs).
Proof.
  intros C H. rewrite i_low_passes, low_passes.
  rewrite (loopi_eq ar (i_pass1 ar s c) (fun i => pass1 s c (1 / INR ((2 * i - 1) * (2 * i - 3)))%R i) 2 degree _ C
    ltac:(lia) ltac:(lia)) by (intros i st Hi; apply pass1_exact; (assumption || lia)).
  destruct (loop 2 degree _ _) as [lp1 ldp1].
  rewrite (loopi_eq ar (i_pass2 ar ps prs) (pass2 ps prs) 2 degree _ C
    ltac:(lia) ltac:(lia)) by (intros i st Hi; apply pass2_exact; (assumption || lia)).
  destruct (loop 2 degree _ _) as [[lp2 ldp2] q]. reflexivity.
Qed.

(** ** The algorithm of the high degrees *)


Ltac replace_loopi Et t := match goal with |- context [@loopi ?T ?ar ?lo ?hi ?bi ?x0] =>
  replace (@loopi T ar lo hi bi x0) with (@Some T t) by (symmetry; exact Et) end.

(** the states of the loops: equal but for the type of the index *)
Definition same_index (k : nat) (s : arr * arr * Z * R * R) (s' : arr * arr * nat * R * R) : Prop :=
  let '(a, b, z, x, y) := s in
  let '(a', b', n, x', y') := s' in
  a = a' /\ b = b' /\ z = Z.of_nat k /\ n = k /\ x = x' /\ y = y'.

Lemma high_exact ar lp ldp degree s c ps prs : conforming ar -> Z.of_nat degree <= 65533 ->
  i_legendre_high ar lp ldp degree s c ps prs = Some (shc_legendre_high lp ldp degree s c ps prs).
Proof.
  intros C H. unfold i_legendre_high, shc_legendre_high. cbv zeta.
  match goal with |- context [loopi ar 2 degree ?bi (?a0, ?b0, 3, ?x0, ?y0)] =>
    match goal with |- context [loop 2 degree ?bn (a0, b0, 3%nat, x0, y0)] =>
      destruct (loopi_rel ar (fun i => same_index (i * (i + 1) / 2)) bi bn 2 degree (a0, b0, 3, x0, y0) (a0, b0, 3%nat, x0, y0)
        C ltac:(lia) ltac:(lia)) as (t & Et & Rt) end end.
  { cbn. auto 10. }
  { clear lp ldp. intros i [[[[lp ldp] z] x] y] [[[[lp' ldp'] n] x'] y'] Hi (<- & <- & -> & -> & <- & <-).
    pose proof (triangle_z i) as T. pose proof (triangle_z (i + 1)) as T1.
    assert (0 <= Z.of_nat i * Z.of_nat i <= 65533 * 65533) by nia.
    rewrite (ev_val ar (2%Z * Z.of_nat i - 1%Z) (Z.of_nat (2 * i - 1)) C) by fit.
    rewrite (ev_val ar (Z.of_nat i - 1%Z) (Z.of_nat (i - 1)) C) by fit.
    rewrite (ix_val ar (Z.of_nat (i * (i + 1) / 2)) (i * (i + 1) / 2) C) by (cbn [fits val]; trivial).
    rewrite (ev_val ar (Z.of_nat (i * (i + 1) / 2) + (Z.of_nat i + 1%Z)) (Z.of_nat ((i + 1) * (i + 1 + 1) / 2)) C) by fit.
    rewrite <- !INR_IZR_INZ.
    eexists. split; [reflexivity|]. unfold same_index. repeat split; lia. }
  replace_loopi Et t. destruct t as [[[[a b] z] x] y].
  match type of Rt with _ _ ?L => destruct L as [[[[a' b'] n'] x'] y'] eqn:EL end. replace_loop EL. clear EL.
  destruct Rt as (<- & <- & _ & _ & <- & <-). clear Et.
  match goal with |- context [loopi ar 1 (degree - 1) ?bi (?a0, ?b0, 2, ?x0, ?y0)] =>
    match goal with |- context [loop 1 (degree - 1) ?bn (a0, b0, 2%nat, x0, y0)] =>
      destruct (loopi_rel ar (fun j => same_index (j * (j + 1) / 2 + j)) bi bn 1 (degree - 1)
        (a0, b0, 2, x0, y0) (a0, b0, 2%nat, x0, y0) C ltac:(lia) ltac:(lia)) as (t & Et & Rt) end end.
  { cbn. auto 10. }
  { clear a b z x y lp ldp n'. intros j [[[[lp ldp] z] x] y] [[[[lp' ldp'] n] x'] y'] Hj (<- & <- & -> & -> & <- & <-).
    pose proof (triangle_z j) as T. pose proof (triangle_z (j + 1)) as T1. pose proof (triangle_z (j + 2)) as T2.
    assert (0 <= Z.of_nat j * Z.of_nat j <= 65532 * 65532) by nia.
    set (o := (j * (j + 1) / 2)%nat) in *.
    rewrite (ix_val ar (2%Z * Z.of_nat j + 1%Z) (2 * j + 1) C) by fit.
    rewrite (ix_val ar (2%Z * Z.of_nat j) (2 * j) C) by fit.
    rewrite (ix_val ar (Z.of_nat (o + j)) (o + j) C) by (cbn [fits val]; trivial).
    rewrite (ev_val ar (Z.of_nat (o + j) + Z.of_nat j + 1%Z) (Z.of_nat (o + j + j + 1)) C) by fit.
    rewrite (ix_val ar (Z.of_nat (o + j + j + 1)) (o + j + j + 1) C) by (cbn [fits val]; trivial).
    rewrite (ev_val ar (Z.of_nat j + 1%Z) (Z.of_nat (j + 1)) C) by fit.
    rewrite (ev_val ar (Z.of_nat (o + j + j + 1) + (Z.of_nat j + 2%Z)) (Z.of_nat (o + j + j + 1 + (j + 2))) C) by fit.
    rewrite Nat2Z.id, <- !INR_IZR_INZ.
    match goal with |- context [loopi ar (j + 2) degree ?bi (?a0, ?b0, ?z0, ?x0, ?y0)] =>
      match goal with |- context [loop (j + 2) degree ?bn (a0, b0, ?n0, x0, y0)] =>
        destruct (loopi_rel ar (fun i => same_index (i * (i + 1) / 2 + j)) bi bn (j + 2) degree
          (a0, b0, z0, x0, y0) (a0, b0, n0, x0, y0) C ltac:(lia) ltac:(lia)) as (t & Et & Rt) end end.
    { unfold same_index. repeat split; lia. }
    { intros i [[[[lq ldq] z] p2] p1] [[[[lq' ldq'] n] p2'] p1'] Hi (<- & <- & -> & -> & <- & <-).
      pose proof (triangle_z i) as U. pose proof (triangle_z (i + 1)) as U1.
      assert (0 <= Z.of_nat i * Z.of_nat i <= 65533 * 65533) by nia.
      rewrite (ix_val ar (Z.of_nat i + Z.of_nat j) (i + j) C) by fit.
      rewrite (ix_val ar (Z.of_nat i - Z.of_nat j) (i - j) C) by fit.
      rewrite (ix_val ar (Z.of_nat i - Z.of_nat j - 1%Z) (i - j - 1) C) by fit.
      rewrite (ix_val ar (Z.of_nat i + Z.of_nat j - 1%Z) (i + j - 1) C) by fit.
      rewrite (ev_val ar (2%Z * Z.of_nat i - 1%Z) (Z.of_nat (2 * i - 1)) C) by fit.
      rewrite (ix_val ar (Z.of_nat (i * (i + 1) / 2 + j)) (i * (i + 1) / 2 + j) C) by (cbn [fits val]; trivial).
      rewrite (ev_val ar (Z.of_nat (i * (i + 1) / 2 + j) + (Z.of_nat i + 1%Z))
                 (Z.of_nat ((i + 1) * (i + 1 + 1) / 2 + j)) C) by fit.
      rewrite <- !INR_IZR_INZ.
      eexists. split; [reflexivity|]. unfold same_index. repeat split; lia. }
    replace_loopi Et t. destruct t as [[[[a b] z] u] v].
    match type of Rt with _ _ ?L => destruct L as [[[[a' b'] n''] u'] v'] eqn:EL end. replace_loop EL. clear EL.
    destruct Rt as (<- & <- & _ & _ & _ & _). clear Et.
    rewrite (ev_val ar (Z.of_nat (o + j) + (Z.of_nat j + 1%Z + 1%Z)) (Z.of_nat ((j + 1) * (j + 1 + 1) / 2 + (j + 1))) C) by fit.
    eexists. split; [reflexivity|]. unfold same_index. repeat split; lia. }
  replace_loopi Et t. destruct t as [[[[a1 b1] z1] x1] y1].
  match type of Rt with _ _ ?L => destruct L as [[[[a' b'] n''] u'] v'] eqn:EL end. replace_loop EL. clear EL.
  destruct Rt as (<- & <- & -> & -> & <- & <-). clear Et.
  rewrite (ix_val ar (2%Z * Z.max 1 (Z.of_nat degree)) (2 * Nat.max 1 degree) C) by fit.
  rewrite (ix_val ar (Z.of_nat _) _ C) by (cbn [fits val]; trivial).
  rewrite (INR_of (Nat.max 1 degree)) by lia. reflexivity.
Qed.
