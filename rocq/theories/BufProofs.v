(** The accesses of the buffers of the evaluation stay inside of them and read what was written. *)

From Coq Require Import Bool List Reals Arith ZArith Lia Lra.
From Verif Require Import ArrModel LegendreModel LegendreSpec LoopProofs GeoModel SizeModel CoefModel ShEvalModel BufModel.
Import ListNotations.
Open Scope R_scope.

(** the buffer [b] of [n] elements holds the values of [a] where [I] *)
Definition val {A} (b : buf A) (n : nat) (I : nat -> Prop) (a : nat -> A) : Prop :=
  bf_size b = n /\ forall k, I k -> (k < n)%nat /\ bf_cell b k = Some (a k).
(** ... in its first [p] elements *)
Definition upto {A} (b : buf A) (n p : nat) (a : nat -> A) : Prop := (p <= n)%nat /\ val b n (fun k => (k < p)%nat) a.

Lemma rd_val {A} (b : buf A) n I a i : val b n I a -> I i -> rd b i = Some (a i).
Proof.
  intros (S & H) Hi. destruct (H i Hi) as (L & E). unfold rd. rewrite S. destruct (Nat.ltb_spec i n); [exact E|lia].
Qed.

Lemma wr_val {A} (b : buf A) n I a i v : val b n I a -> (i < n)%nat ->
  exists b', wr b i v = Some b' /\ val b' n (fun k => k = i \/ I k) (upd a i v).
Proof.
  intros (S & H) Hi. unfold wr. rewrite S. destruct (Nat.ltb_spec i n); [|lia]. eexists. split; [reflexivity|].
  split; [reflexivity|]. cbn [bf_cell]. unfold upd. intros k Hk. destruct (Nat.eqb_spec k i) as [->|N]; [split; [exact Hi|reflexivity]|].
  apply H. tauto.
Qed.

Lemma val_mono {A} (b : buf A) n (I J : nat -> Prop) a : (forall k, J k -> I k) -> val b n I a -> val b n J a.
Proof. intros H (S & V). split; [exact S|]. intros k Hk. apply V, H, Hk. Qed.

Lemma val_none {A} (b : buf A) n I a a' : val b n I a -> val b n (fun _ => False) a'.
Proof. intros (S & V). split; [exact S|]. intros k []. Qed.

Lemma rd_upto {A} (b : buf A) n p a i : upto b n p a -> (i < p)%nat -> rd b i = Some (a i).
Proof. intros (L & H) Hi. exact (rd_val b n _ a i H Hi). Qed.

Lemma wr_next {A} (b : buf A) n p a v : upto b n p a -> (p < n)%nat ->
  exists b', wr b p v = Some b' /\ upto b' n (S p) (upd a p v).
Proof.
  intros (L & H) Hp. destruct (wr_val b n _ a p v H Hp) as (b' & E & V). exists b'. split; [exact E|]. split; [lia|].
  revert V. apply val_mono. intros k Hk. lia.
Qed.

Lemma wr_in {A} (b : buf A) n p a i v : upto b n p a -> (i < p)%nat ->
  exists b', wr b i v = Some b' /\ upto b' n p (upd a i v).
Proof.
  intros (L & H) Hp. destruct (wr_val b n _ a i v H ltac:(lia)) as (b' & E & V). exists b'. split; [exact E|]. split; [lia|].
  revert V. apply val_mono. intros k Hk. now right.
Qed.

Lemma malloc_upto {A} n (a : nat -> A) : upto (malloc n) n 0 a.
Proof. split; [lia|]. split; [reflexivity|]. intros k Hk. lia. Qed.

Lemma upto_0 {A} (b : buf A) n p a a' : upto b n p a -> upto b n 0 a'.
Proof. intros (L & S & H). split; [lia|]. split; [exact S|]. intros k Hk. lia. Qed.

Lemma loopb_empty {S} lo hi (body : nat -> S -> option S) s : (hi < lo)%nat -> loopb lo hi body s = Some s.
Proof. intro H. unfold loopb. replace (Datatypes.S hi - lo)%nat with 0%nat by lia. reflexivity. Qed.

Lemma loop_sim {S S'} (P : nat -> S -> S' -> Prop) lo hi bodyb body sb s :
  (lo <= Datatypes.S hi)%nat -> P lo sb s ->
  (forall i sb s, (lo <= i <= hi)%nat -> P i sb s -> exists sb', bodyb i sb = Some sb' /\ P (Datatypes.S i) sb' (body i s)) ->
  exists sb', loopb lo hi bodyb sb = Some sb' /\ P (Datatypes.S hi) sb' (loop lo hi body s).
Proof.
  intros Hl H0 Hs. unfold loopb, loop.
  assert (G : forall n lo' sb s, (lo <= lo')%nat -> (lo' + n = Datatypes.S hi)%nat -> P lo' sb s ->
    exists sb', fold_left (fun s i => match s with Some s => bodyb i s | None => None end) (seq lo' n) (Some sb) = Some sb' /\
      P (Datatypes.S hi) sb' (fold_left (fun s i => body i s) (seq lo' n) s)).
  { induction n as [|n IH]; intros lo' sb1 s1 L E H; cbn [seq fold_left].
    - exists sb1. split; [reflexivity|]. replace (Datatypes.S hi) with lo' by lia. exact H.
    - destruct (Hs lo' sb1 s1 ltac:(lia) H) as (sb2 & -> & H2). apply IH; [lia|lia|exact H2]. }
  apply G; [lia|lia|exact H0].
Qed.

(** the same without buffers in the state *)
Lemma loop_same {S} lo hi (bodyb : nat -> S -> option S) body s :
  (forall i s, (lo <= i <= hi)%nat -> bodyb i s = Some (body i s)) -> loopb lo hi bodyb s = Some (loop lo hi body s).
Proof.
  intro H. destruct (Nat.leb_spec lo (Datatypes.S hi)).
  - destruct (loop_sim (fun _ sb s => sb = s) lo hi bodyb body s s ltac:(lia) eq_refl) as (sb' & -> & ->); [|reflexivity].
    intros i sb s' Hi ->. rewrite H by exact Hi. eauto.
  - rewrite loopb_empty by lia. rewrite loop_empty by lia. reflexivity.
Qed.

Ltac fold_T := repeat match goal with |- context [(?i * (?i + 1) / 2)%nat] => change (i * (i + 1) / 2)%nat with (T i) end.

(** ** Tables of square roots *)
Definition full {A} (b : buf A) (n : nat) (a : nat -> A) : Prop := upto b n n a.

Lemma presqrt_full d junk : exists b, b_presqrt d = Some b /\ full b (2 * d + 2) (shc_presqrt d junk).
Proof.
  destruct (loop_sim (fun i (b : buf R) (a : arr) => upto b (2 * d + 2) i a) 0 (2 * d + 1)
    (fun i psqrt => wr psqrt i (sqrt (INR i))) (fun i psqrt => upd psqrt i (sqrt (INR i))) (malloc (2 * d + 2)) junk) as (b & E & H).
  - lia.
  - apply malloc_upto.
  - intros i sb s Hi H. apply wr_next; [exact H|lia].
  - exists b. split; [exact E|]. unfold full. replace (2 * d + 2)%nat with (S (2 * d + 1)) at 2 by lia. exact H.
Qed.
Lemma prersqrt_full d junk : exists b, b_prersqrt d = Some b /\ full b (2 * d + 2) (shc_prersqrt d junk).
Proof.
  destruct (loop_sim (fun i (b : buf R) (a : arr) => upto b (2 * d + 2) i a) 0 (2 * d + 1)
    (fun i psqrt => wr psqrt i (1 / sqrt (INR i))) (fun i psqrt => upd psqrt i (1 / sqrt (INR i))) (malloc (2 * d + 2)) junk) as (b & E & H).
  - lia.
  - apply malloc_upto.
  - intros i sb s Hi H. apply wr_next; [exact H|lia].
  - exists b. split; [exact E|]. unfold full. replace (2 * d + 2)%nat with (S (2 * d + 1)) at 2 by lia. exact H.
Qed.

(** ** Legendre functions *)
Ltac doread H := try (rewrite (rd_upto _ _ _ _ _ H) by lia); cbv beta iota.
Ltac next H := let H' := fresh in let b := fresh "bb" in let E := fresh in
  match goal with |- context [wr ?b0 ?i ?v] =>
    destruct (wr_next b0 _ _ _ v H ltac:(lia)) as (b & E & H'); rewrite E; clear E H; rename H' into H; cbv beta iota end.
Ltac inside H := let H' := fresh in let b := fresh "bb" in let E := fresh in
  match goal with |- context [wr ?b0 ?i ?v] =>
    destruct (wr_in b0 _ _ _ i v H ltac:(lia)) as (b & E & H'); rewrite E; clear E H; rename H' into H; cbv beta iota end.

Lemma low_safe lpb ldpb lp ldp d s c pb rb psqrt prsqrt : (1 <= d)%nat ->
  upto lpb (T (S d)) 0 lp -> upto ldpb (T (S d)) 0 ldp ->
  full pb (2 * d + 2) psqrt -> full rb (2 * d + 2) prsqrt ->
  exists lpb' ldpb', b_legendre_low lpb ldpb d s c pb rb = Some (lpb', ldpb') /\
    full lpb' (T (S d)) (fst (shc_legendre_low lp ldp d s c psqrt prsqrt)) /\
    full ldpb' (T (S d)) (snd (shc_legendre_low lp ldp d s c psqrt prsqrt)).
Proof.
  intros Hd H1 H2 Hp Hr. unfold b_legendre_low, shc_legendre_low.
  pose proof (T_le 2 (S d) ltac:(lia)) as T2. change (T 2) with 3%nat in T2.
  next H1. next H1. next H1. next H2. next H2. next H2.
  match goal with |- context [loopb ?lo ?hi ?fb ?sb0] => match goal with |- context [loop lo hi ?f ?s0] =>
    destruct (loop_sim (fun i sb s => upto (fst sb) (T (S d)) (T i) (fst s) /\ upto (snd sb) (T (S d)) (T i) (snd s))
      lo hi fb f sb0 s0) as ([lb db] & E & G) end end.
  - lia.
  - split; [exact H1|exact H2].
  - intros i [lb db] [l dl] Hi (G1 & G2). cbn [fst snd] in G1, G2. fold_T. cbv zeta.
    pose proof (T_le (S i) (S d) ltac:(lia)) as Ti. pose proof (T_S i) as Ts.
    assert (Tg : (i < T i)%nat) by (pose proof (T_mono 1 i ltac:(lia)) as Q; pose proof (T_le 2 i ltac:(lia)) as Q2; change (T 2) with 3%nat in Q2;
      destruct i as [|[|i]]; [lia|lia|]; rewrite T_S; pose proof (T_le 1 (S i) ltac:(lia)) as Q3; rewrite T_1 in Q3; lia).
    match goal with |- context [loopb ?lo ?hi ?fb ?sb0] => match goal with |- context [loop lo hi ?f ?s0] =>
      destruct (loop_sim (fun j sb s => upto (fst sb) (T (S d)) (T i + j) (fst s) /\ upto (snd sb) (T (S d)) (T i + j) (snd s))
        lo hi fb f sb0 s0) as ([lb1 db1] & E & G) end end.
    + lia.
    + rewrite Nat.add_0_r. split; [exact G1|exact G2].
    + intros j [lb1 db1] [l1' dl1] Hj (G3 & G4). cbn [fst snd] in G3, G4.
      doread G3. doread G3. pose proof G3 as G3'.
      next G3. doread G4. doread G4. doread G3. next G4.
      eexists. split; [reflexivity|]. cbn [fst snd]. rewrite Nat.add_succ_r. split; [exact G3|exact G4].
    + rewrite E. clear E. cbn [fst snd] in G.
      match goal with |- context [loop ?a ?b ?f ?s] => destruct (loop a b f s) as [l1' dl1] end.
      cbn [fst snd] in G. destruct G as (G3 & G4).
      replace (T i + S (i - 2))%nat with (T i + i - 1)%nat in G3, G4 by lia.
      cbv beta iota. doread G3. next G3. doread G4. doread G3. next G4.
      replace (S (T i + i - 1)) with (T i + i)%nat in G3, G4 by lia.
      doread G3. next G3. doread G4. doread G3. next G4.
      eexists. split; [reflexivity|]. cbn [fst snd]. rewrite Ts. replace (T i + i + 1)%nat with (S (T i + i)) by lia.
      split; [exact G3|exact G4].
  - rewrite E. clear E. cbn [fst snd] in G.
    match goal with |- context [loop ?a ?b ?f ?s] => destruct (loop a b f s) as [l dl] end.
    cbn [fst snd] in G. destruct G as (G1 & G2). cbv beta iota.
    match goal with |- context [loopb ?lo ?hi ?fb ?sb0] => match goal with |- context [loop lo hi ?f ?s0] =>
      destruct (loop_sim (fun i sb s => upto (fst (fst sb)) (T (S d)) (T (S d)) (fst (fst s)) /\
          upto (snd (fst sb)) (T (S d)) (T (S d)) (snd (fst s)) /\ snd sb = snd s)
        lo hi fb f sb0 s0) as ([[lb1 db1] q1] & E & G) end end.
    + lia.
    + split; [exact G1|]. split; [exact G2|reflexivity].
    + intros i [[lb1 db1] q1] [[l1' dl1] q] Hi (G3 & G4 & Eq). cbn [fst snd] in G3, G4, Eq. subst q1. fold_T. cbv zeta.
      pose proof (T_le (S i) (S d) ltac:(lia)) as Ti. pose proof (T_S i) as Ts. unfold full in Hp, Hr.
      doread G3. inside G3. doread G4. inside G4. doread Hp. doread Hr.
      doread G3. inside G3. doread G4. inside G4.
      match goal with |- context [loopb ?lo ?hi ?fb ?sb0] => match goal with |- context [loop lo hi ?f ?s0] =>
        destruct (loop_sim (fun i sb s => upto (fst (fst sb)) (T (S d)) (T (S d)) (fst (fst s)) /\
            upto (snd (fst sb)) (T (S d)) (T (S d)) (snd (fst s)) /\ snd sb = snd s)
          lo hi fb f sb0 s0) as ([[lb4 db4] q2] & E & G) end end.
      * lia.
      * split; [exact G3|]. split; [exact G4|reflexivity].
      * intros j [[lb4 db4] q2] [[l2 dl2] q'] Hj (G5 & G6 & Eq). cbn [fst snd] in G5, G6, Eq. subst q2.
        doread Hp. doread Hr. doread G5. inside G5. doread G6. inside G6.
        eexists. split; [reflexivity|]. cbn [fst snd]. split; [exact G5|]. split; [exact G6|reflexivity].
      * rewrite E. clear E.
        match goal with |- context [loop ?a ?b ?f ?s] => destruct (loop a b f s) as [[l2 dl2] q'] end.
        cbn [fst snd] in G. destruct G as (G5 & G6 & _). cbv beta iota. eexists. split; [reflexivity|].
        cbn [fst snd]. split; [exact G5|]. split; [exact G6|reflexivity].
    + rewrite E. clear E.
      match goal with |- context [loop ?a ?b ?f ?s] => destruct (loop a b f s) as [[l2 dl2] q'] end.
      cbn [fst snd] in G. destruct G as (G5 & G6 & _). do 2 eexists. split; [reflexivity|]. cbn [fst snd].
      split; [exact G5|exact G6].
Qed.

(** the elements of the columns below [j], and of the column [j] below the row [i] *)
Definition cols (d i j k : nat) : Prop :=
  exists n m, (m <= n <= d)%nat /\ k = (T n + m)%nat /\ (m < j \/ m = j /\ n < i)%nat.

Lemma cols_inside d i j k : cols d i j k -> (k < T (S d))%nat.
Proof. intros (n & m & H & -> & _). pose proof (T_le (S n) (S d) ltac:(lia)). pose proof (T_S n). lia. Qed.

Lemma cols_all d j k : (d < j)%nat -> (k < T (S d))%nat -> cols d 0 j k.
Proof.
  intros Hj Hk. assert (E : exists n m, (m <= n <= d)%nat /\ k = (T n + m)%nat).
  { clear Hj. induction d as [|d IH].
    - exists 0%nat, 0%nat. change (T 1) with 1%nat in Hk. split; [lia|]. change (T 0) with 0%nat. lia.
    - destruct (Nat.lt_ge_cases k (T (S d))) as [L|L].
      + destruct (IH L) as (n & m & H & ->). exists n, m. split; [lia|reflexivity].
      + exists (S d), (k - T (S d))%nat. rewrite (T_S (S d)) in Hk. split; lia. }
  destruct E as (n & m & H & ->). exists n, m. split; [exact H|]. split; [reflexivity|left; lia].
Qed.

(** next element of the column *)
Lemma wr_col (b : buf R) d i j a v : val b (T (S d)) (cols d i j) a -> (j <= i <= d)%nat ->
  exists b', wr b (T i + j) v = Some b' /\ val b' (T (S d)) (cols d (S i) j) (upd a (T i + j) v).
Proof.
  intros H Hi. destruct (wr_val b _ _ a (T i + j) v H) as (b' & E & V).
  { pose proof (T_le (S i) (S d) ltac:(lia)). pose proof (T_S i). lia. }
  exists b'. split; [exact E|]. revert V. apply val_mono. intros k (n & m & L & -> & C).
  destruct C as [C|(-> & C)]; [right; exists n, m; split; [exact L|split; [reflexivity|now left]]|].
  destruct (Nat.eq_dec n i) as [->|N]; [now left|]. right. exists n, j. split; [exact L|]. split; [reflexivity|right; lia].
Qed.
Lemma next_col (b : buf R) d j a : val b (T (S d)) (cols d (S d) j) a -> val b (T (S d)) (cols d (S j) (S j)) a.
Proof.
  apply val_mono. intros k (n & m & L & -> & C). exists n, m. split; [exact L|]. split; [reflexivity|].
  destruct C as [C|(-> & C)]; [destruct (Nat.eq_dec m j); [right; lia|left; lia]|lia].
Qed.

Ltac column H := let H' := fresh in let b := fresh "bb" in let E := fresh in
  match goal with |- context [wr ?b0 ?i ?v] =>
    destruct (wr_col b0 _ _ _ _ v H ltac:(lia)) as (b & E & H');
    match type of E with wr _ ?k _ = _ => replace k with i in E, H' by lia end;
    rewrite E; clear E H; rename H' into H; cbv beta iota end.

Lemma high_safe lpb ldpb lp ldp d s c pb rb psqrt prsqrt : (2 <= d)%nat ->
  upto lpb (T (S d)) 0 lp -> upto ldpb (T (S d)) 0 ldp ->
  full pb (2 * d + 2) psqrt -> full rb (2 * d + 2) prsqrt ->
  exists lpb' ldpb', b_legendre_high lpb ldpb d s c pb rb = Some (lpb', ldpb') /\
    full lpb' (T (S d)) (fst (shc_legendre_high lp ldp d s c psqrt prsqrt)) /\
    full ldpb' (T (S d)) (snd (shc_legendre_high lp ldp d s c psqrt prsqrt)).
Proof.
  intros Hd H1 H2 Hp Hr. unfold b_legendre_high, shc_legendre_high. cbv zeta. unfold full in Hp, Hr.
  assert (Z : forall (b : buf R) a, upto b (T (S d)) 0 a -> val b (T (S d)) (cols d 0 0) a).
  { intros b a (_ & V). revert V. apply val_mono. intros k (n & m & L & _ & C). lia. }
  apply Z in H1. apply Z in H2. clear Z.
  pose proof T_0 as E0. pose proof T_1 as E1. pose proof T_2 as E2. pose proof (T_S 2) as E3.
  column H1. column H1. column H2. column H2.
  match goal with |- context [loopb ?lo ?hi ?fb ?sb0] => match goal with |- context [loop lo hi ?f ?s0] =>
    destruct (loop_sim (fun i '(lb, db, idx, p2, p1) '(l, dl, idx', p2', p1') =>
        val lb (T (S d)) (cols d i 0) l /\ val db (T (S d)) (cols d i 0) dl /\ idx = T i /\ (idx', p2', p1') = (idx, p2, p1))
      lo hi fb f sb0 s0) as ([[[[lb db] ix] p2] p1] & E & G) end end.
  - lia.
  - split; [exact H1|]. split; [exact H2|]. split; reflexivity.
  - intros i [[[[lb db] ix] p2] p1] [[[[l dl] ix'] p2'] p1'] Hi (G1 & G2 & -> & Eq). injection Eq as -> -> ->.
    column G1. column G2. eexists. split; [reflexivity|]. cbv beta iota. split; [exact G1|]. split; [exact G2|].
    pose proof (T_S i). split; [lia|reflexivity].
  - rewrite E. clear E.
    match goal with |- context [loop ?a ?b ?f ?s] => destruct (loop a b f s) as [[[[l dl] ix'] p2'] p1'] end.
    destruct G as (G1 & G2 & _ & _). cbv beta iota. doread Hp.
    apply next_col in G1. apply next_col in G2.
    match goal with |- context [loopb ?lo ?hi ?fb ?sb0] => match goal with |- context [loop lo hi ?f ?s0] =>
      destruct (loop_sim (fun j '(lb, db, idx, p2, p1) '(l, dl, idx', p2', p1') =>
          val lb (T (S d)) (cols d j j) l /\ val db (T (S d)) (cols d j j) dl /\ idx = (T j + j)%nat /\ (idx', p2', p1') = (idx, p2, p1))
        lo hi fb f sb0 s0) as ([[[[lb1 db1] ix1] p21] p11] & E & G) end end.
    + lia.
    + split; [exact G1|]. split; [exact G2|]. split; reflexivity.
    + clear G1 G2 l dl lb db. intros j [[[[lb db] ix0] pmm] pow] [[[[l dl] ix0'] pmm'] pow'] Hj (G1 & G2 & -> & Eq). injection Eq as -> -> ->.
      pose proof (T_S j) as Tj. pose proof (T_S (S j)) as Tj1.
      doread Hp. doread Hr. doread Hr. column G1. column G2. column G1. column G2.
      match goal with |- context [loopb ?lo ?hi ?fb ?sb0] => match goal with |- context [loop lo hi ?f ?s0] =>
        destruct (loop_sim (fun i '(lb, db, idx, p2, p1) '(l, dl, idx', p2', p1') =>
            val lb (T (S d)) (cols d i j) l /\ val db (T (S d)) (cols d i j) dl /\ idx = (T i + j)%nat /\ (idx', p2', p1') = (idx, p2, p1))
          lo hi fb f sb0 s0) as ([[[[lb1 db1] ix1] p21] p11] & E & G) end end.
      * lia.
      * replace (j + 2)%nat with (S (S j)) by lia. split; [exact G1|]. split; [exact G2|]. split; [lia|reflexivity].
      * clear G1 G2 l dl lb db. intros i [[[[lb db] jx] q2] q1] [[[[l dl] jx'] q2'] q1'] Hi (G1 & G2 & -> & Eq). injection Eq as -> -> ->.
        doread Hp. doread Hp. doread Hr. doread Hr. doread Hp. doread Hp. column G1. column G2.
        eexists. split; [reflexivity|]. cbv beta iota. split; [exact G1|]. split; [exact G2|]. pose proof (T_S i). split; [lia|reflexivity].
      * rewrite E. clear E G1 G2.
        match goal with |- context [loop ?a ?b ?f ?s] => destruct (loop a b f s) as [[[[l1 dl1] jx'] q2'] q1'] end.
        destruct G as (G1 & G2 & _ & _). cbv beta iota. eexists. split; [reflexivity|].
        apply next_col in G1. apply next_col in G2. split; [exact G1|]. split; [exact G2|]. split; [lia|reflexivity].
    + rewrite E. clear E G1 G2.
      match goal with |- context [loop ?a ?b ?f ?s] => destruct (loop a b f s) as [[[[l1 dl1] jx'] q2'] q1'] end.
      destruct G as (G1 & G2 & -> & Eq). injection Eq as -> -> ->. cbv beta iota.
      replace (S (d - 1)) with d in * by lia. doread Hr. column G1. column G2.
      do 2 eexists. split; [reflexivity|]. cbn [fst snd].
      apply next_col in G1. apply next_col in G2.
      split; (split; [lia|]; revert G1 G2; intros G1 G2).
      * revert G1. apply val_mono. intros k Hk. destruct (cols_all d (S d) k ltac:(lia) Hk) as (n & m & L & -> & C).
        exists n, m. split; [exact L|]. split; [reflexivity|]. lia.
      * revert G2. apply val_mono. intros k Hk. destruct (cols_all d (S d) k ltac:(lia) Hk) as (n & m & L & -> & C).
        exists n, m. split; [exact L|]. split; [reflexivity|]. lia.
Qed.
