(** Proofs about the calls of the functions of the extension modules. *)
From Coq Require Import Bool List String Ascii Arith ZArith Reals Lia Lra Permutation.
From Verif Require Import CallModel CallSpec.
Import ListNotations.
Local Open Scope string_scope.
Set Bullet Behavior "Strict Subproofs".

Section CallProofs.
Context {obj exn : Type} (py : python obj exn).

Definition code (k : kind) : ascii :=
  match k with AnObject | ATruth => "O" | AnInteger => "i" | ANumber => "d" | AText => "s" end.

(** The declaration suits the parameter *)
Definition suits (p : parameter) (d : declaration) : Prop :=
  match p_kind p, d with
  | AnObject, Pointer => p_default p = None \/ p_default p = Some NoValue
  | AnInteger, IntVariable z => p_default p = option_map DInteger z
  | ANumber, DoubleVariable x => p_default p = Some (DNumber x)
  | AText, CharPointer => p_default p = None
  | ATruth, FlagObject OrTrue => p_default p = Some (DTruth true)
  | ATruth, FlagObject IfGiven | ATruth, FlagObject EqualsOne => p_default p = Some (DTruth false)
  | _, _ => False
  end.

Definition is_required (p : parameter) : bool := match p_default p with None => true | Some _ => false end.

Fixpoint fits (fmt : string) (min : option nat) (i : nat) (ps : list parameter) (ds : list declaration) : Prop :=
  match ps, ds with
  | [], [] => (String.eqb fmt "" || String.prefix "|" fmt) = true
  | p :: ps', d :: ds' =>
      match bar i min fmt with
      | Some (min', String c fmt') =>
          c = code (p_kind p) /\
          is_required p = (match min' with None => true | Some m => Nat.ltb i m end) /\
          suits p d /\ fits fmt' min' (S i) ps' ds'
      | _ => False
      end
  | _, _ => False
  end.

Definition given (args : list obj) (kwargs : list (string * obj)) (i : nat) (k : string) : option obj :=
  match nth_error args i with Some o => Some o | None => item kwargs k end.

Fixpoint ideal (args : list obj) (kwargs : list (string * obj)) (i : nat) (ps : list parameter)
  (ds : list declaration) : list (value obj) + exn :=
  match ps, ds with
  | p :: ps', d :: ds' =>
      match given args kwargs i (p_name p) with
      | Some o =>
          match convert py (code (p_kind p)) o with
          | inr e => inr e
          | inl v => match ideal args kwargs (S i) ps' ds' with inr e => inr e | inl l => inl (v :: l) end
          end
      | None =>
          if is_required p then inr (type_error py)
          else match ideal args kwargs (S i) ps' ds' with inr e => inr e | inl l => inl (initial d :: l) end
      end
  | _, _ => inl []
  end.

Definition rest (used : list string) (kwargs : list (string * obj)) : list (string * obj) :=
  filter (fun kv => negb (existsb (String.eqb (fst kv)) used)) kwargs.

Lemma existsb_In k l : existsb (String.eqb k) l = true <-> In k l.
Proof.
  rewrite existsb_exists. split.
  - intros (x & I & E). apply String.eqb_eq in E. subst. exact I.
  - intros I. exists k. split; [exact I|apply String.eqb_refl].
Qed.

Lemma item_In (kwargs : list (string * obj)) k o : NoDup (map fst kwargs) -> item kwargs k = Some o <-> In (k, o) kwargs.
Proof.
  induction kwargs as [|[k' o'] l IH]; cbn [item map fst]; intros ND.
  - split; [discriminate|intros []].
  - inversion ND as [|? ? N ND']; subst. destruct (String.eqb_spec k' k) as [<-|D].
    + split.
      * intros [= ->]. left. reflexivity.
      * intros [E|I]; [congruence|]. exfalso. apply N. change k' with (fst (k', o)). apply in_map. exact I.
    + rewrite IH by exact ND'. split.
      * intros I. right. exact I.
      * intros [E|I]; [congruence|exact I].
Qed.

Lemma item_None (kwargs : list (string * obj)) k : item kwargs k = None <-> ~ In k (map fst kwargs).
Proof.
  induction kwargs as [|[k' o'] l IH]; cbn [item map fst].
  - split; [intros _ []|reflexivity].
  - destruct (String.eqb_spec k' k) as [<-|D].
    + split; [discriminate|]. intros N. exfalso. apply N. left. reflexivity.
    + rewrite IH. split.
      * intros N [E|I]; [exact (D E)|exact (N I)].
      * intros N I. apply N. right. exact I.
Qed.

Lemma rest_In used kwargs k o : In (k, o) (rest used kwargs) <-> In (k, o) kwargs /\ ~ In k used.
Proof.
  unfold rest. rewrite filter_In. cbn [fst]. rewrite negb_true_iff, <- not_true_iff_false, existsb_In. reflexivity.
Qed.

Lemma rest_length_cons used kwargs k : NoDup (map fst kwargs) -> ~ In k used ->
  List.length (rest used kwargs) =
  (match item kwargs k with Some _ => 1 | None => 0 end + List.length (rest (used ++ [k]) kwargs))%nat.
Proof.
  intros ND Nk. unfold rest. induction kwargs as [|[k' o'] l IH]; cbn [filter item fst]; [reflexivity|].
  cbn [map fst] in ND. inversion ND as [|? ? N ND']; subst. specialize (IH ND').
  assert (E : existsb (String.eqb k') (used ++ [k]) = (existsb (String.eqb k') used || String.eqb k' k)%bool).
  { rewrite existsb_app. cbn [existsb]. rewrite orb_false_r. reflexivity. }
  rewrite E. destruct (String.eqb_spec k' k) as [<-|D].
  - rewrite orb_true_r. cbn [negb].
    assert (Fk : existsb (String.eqb k') used = false).
    { rewrite <- not_true_iff_false, existsb_In. exact Nk. }
    rewrite Fk. cbn [negb List.length]. rewrite IH.
    assert (I0 : item l k' = None) by (apply item_None; exact N). rewrite I0. reflexivity.
  - rewrite orb_false_r. destruct (existsb (String.eqb k') used); cbn [negb List.length]; rewrite IH; lia.
Qed.

Lemma convert_not_required_all fmt m i ps ds : fits fmt (Some m) i ps ds -> (m <= i)%nat ->
  List.Forall (fun p => is_required p = false) ps.
Proof.
  revert fmt i ds. induction ps as [|p ps IH]; intros fmt i ds F L; [constructor|].
  destruct ds as [|d ds]; cbn [fits] in F; [contradiction|].
  unfold bar in F. destruct fmt as [|c fmt]; [contradiction|].
  destruct (Ascii.eqb c "|"); [contradiction|]. destruct F as (_ & R' & _ & F).
  constructor.
  - rewrite R'. apply Nat.ltb_ge. exact L.
  - apply (IH fmt (S i) ds F). lia.
Qed.

Lemma fits_length fmt min i ps ds : fits fmt min i ps ds -> List.length ps = List.length ds.
Proof.
  revert fmt min i ds. induction ps as [|p ps IH]; intros fmt min i ds F; destruct ds as [|d ds]; cbn [fits] in F;
    try contradiction; [reflexivity|].
  destruct (bar i min fmt) as [[min' [|c fmt']]|]; try contradiction. destruct F as (_ & _ & _ & F).
  cbn [List.length]. f_equal. exact (IH _ _ _ _ F).
Qed.

(** Nothing else is passed *)
Lemma ideal_nothing args kwargs ps ds : forall i, (List.length args <= i)%nat ->
  (forall p, In p ps -> item kwargs (p_name p) = None) -> List.Forall (fun p => is_required p = false) ps ->
  List.length ps = List.length ds ->
  ideal args kwargs i ps ds = inl (map initial ds).
Proof.
  revert ds. induction ps as [|p ps IH]; intros ds i L N F E; destruct ds as [|d ds]; cbn [List.length] in E; try lia.
  - reflexivity.
  - cbn [ideal map]. unfold given. rewrite (proj2 (nth_error_None args i) L).
    rewrite (N p) by (left; reflexivity).
    inversion F as [|? ? Rp F']; subst. rewrite Rp. rewrite (IH ds (S i)); [reflexivity|lia| |exact F'|lia].
    intros q Iq. apply N. right. exact Iq.
Qed.

(** The loop over the keywords *)
Lemma scan_ideal args kwargs kwlist : NoDup (map fst kwargs) -> forall ps ds fmt i min pre used vs,
  kwlist = (map p_name pre ++ map p_name ps)%list -> List.length pre = i ->
  NoDup kwlist -> used = skipn (List.length args) (map p_name pre) ->
  fits fmt min i ps ds ->
  scan py kwlist args kwargs (map p_name ps) ds fmt i (List.length (rest used kwargs)) min vs =
  match ideal args kwargs i ps ds with
  | inr e => inr e
  | inl l => if Nat.eqb (List.length (rest (skipn (List.length args) kwlist) kwargs)) 0 then inl (vs ++ l)%list
             else inr (type_error py)
  end.
Proof.
  intros ND ps. induction ps as [|p ps IH]; intros ds fmt i min pre used vs K Lp NK U F.
  - destruct ds as [|d ds]; cbn [fits] in F; [|contradiction].
    cbn [map scan ideal]. unfold leftovers. rewrite F. cbn [negb].
    cbn [map] in K. rewrite app_nil_r in K. subst used. rewrite <- K.
    destruct (List.length (rest (skipn (List.length args) kwlist) kwargs)) as [|n] eqn:En; cbn [Nat.ltb Nat.leb Nat.eqb].
    + rewrite app_nil_r. reflexivity.
    + destruct (existsb (fun k => match item kwargs k with Some _ => true | None => false end)
                        (firstn (List.length args) kwlist)) eqn:E1; [reflexivity|].
      destruct (existsb (fun kv => negb (existsb (String.eqb (fst kv)) kwlist)) kwargs) eqn:E2; [reflexivity|].
      exfalso. destruct (rest (skipn (List.length args) kwlist) kwargs) as [|[k o] l] eqn:Er; [discriminate|].
      assert (I : In (k, o) (rest (skipn (List.length args) kwlist) kwargs)) by (rewrite Er; left; reflexivity).
      apply rest_In in I. destruct I as [Ik Nk].
      rewrite <- not_true_iff_false, existsb_exists in E2. apply E2. exists (k, o). split; [exact Ik|].
      cbn [fst]. rewrite negb_true_iff, <- not_true_iff_false, existsb_In. intros Iw.
      rewrite <- (firstn_skipn (List.length args) kwlist) in Iw. apply in_app_or in Iw.
      destruct Iw as [Iw|Iw]; [|exact (Nk Iw)].
      rewrite <- not_true_iff_false, existsb_exists in E1. apply E1. exists k. split; [exact Iw|].
      rewrite (proj2 (item_In kwargs k o ND) Ik). reflexivity.
  - destruct ds as [|d ds]; cbn [fits] in F; [contradiction|].
    cbn [map scan ideal].
    destruct (bar i min fmt) as [[min' fmt1]|] eqn:B; [|contradiction].
    destruct fmt1 as [|c fmt']; [contradiction|]. destruct F as (-> & Rq & Su & F).
    assert (K' : kwlist = (map p_name (pre ++ [p]) ++ map p_name ps)%list).
    { rewrite map_app, <- app_assoc. exact K. }
    assert (Lp' : List.length (pre ++ [p]) = S i) by (rewrite app_length; cbn; lia).
    assert (Np : ~ In (p_name p) (map p_name pre)).
    { rewrite K in NK. cbn [map] in NK. apply NoDup_remove_2 in NK. intros I. apply NK. apply in_or_app. left. exact I. }
    assert (Nu : ~ In (p_name p) used).
    { intros I. apply Np. rewrite <- (firstn_skipn (List.length args) (map p_name pre)). apply in_or_app. right.
      rewrite <- U. exact I. }
    unfold given. destruct (nth_error args i) as [o|] eqn:Ea.
    + (* by position *)
      destruct (convert py (code (p_kind p)) o) as [v|e]; [|reflexivity].
      assert (La : (i < List.length args)%nat) by (apply nth_error_Some; congruence).
      assert (U' : used = skipn (List.length args) (map p_name (pre ++ [p]))).
      { rewrite U. rewrite !skipn_all2; [reflexivity| |]; rewrite map_length, ?Lp'; lia. }
      rewrite (IH ds fmt' (S i) min' (pre ++ [p])%list used (vs ++ [v])%list K' Lp' NK U' F).
      destruct (ideal args kwargs (S i) ps ds); [|reflexivity].
      rewrite <- app_assoc. reflexivity.
    + assert (La : (List.length args <= i)%nat) by (apply nth_error_None; exact Ea).
      assert (U' : (used ++ [p_name p])%list = skipn (List.length args) (map p_name (pre ++ [p]))).
      { rewrite U, map_app, skipn_app, map_length. cbn [map].
        replace (List.length args - List.length pre)%nat with 0%nat by lia. reflexivity. }
      pose proof (rest_length_cons used kwargs (p_name p) ND Nu) as Lr.
      destruct (item kwargs (p_name p)) as [o|] eqn:Ei.
      * (* by name *)
        rewrite Lr. cbn [Nat.add Nat.ltb Nat.leb pred].
        destruct (convert py (code (p_kind p)) o) as [v|e]; [|reflexivity].
        rewrite (IH ds fmt' (S i) min' (pre ++ [p])%list (used ++ [p_name p])%list (vs ++ [v])%list K' Lp' NK U' F).
        destruct (ideal args kwargs (S i) ps ds); [|reflexivity].
        rewrite <- app_assoc. reflexivity.
      * (* not passed *)
        cbn [Nat.add] in Lr.
        assert (E2 : (if Nat.ltb 0 (List.length (rest used kwargs)) then (@None obj, List.length (rest used kwargs))
                     else (@None obj, List.length (rest used kwargs))) = (None, List.length (rest used kwargs)))
          by (destruct (Nat.ltb 0 (List.length (rest used kwargs))); reflexivity).
        rewrite E2. rewrite Rq.
        destruct (match min' with None => true | Some m => Nat.ltb i m end) eqn:Em; [reflexivity|].
        destruct (Nat.eqb_spec (List.length (rest used kwargs)) 0) as [E0|N0].
        -- (* nothing else is passed *)
           assert (Z : forall k, In k (map fst kwargs) -> In k used).
           { intros k Ik. apply in_map_iff in Ik. destruct Ik as ([k' o] & <- & Ik). cbn [fst].
             destruct (in_dec string_dec k' used) as [I|N]; [exact I|].
             assert (I : In (k', o) (rest used kwargs)) by (apply rest_In; split; assumption).
             destruct (rest used kwargs); [destruct I|discriminate E0]. }
           destruct min' as [m|]; [|discriminate Em]. apply Nat.ltb_ge in Em.
           assert (Un : forall q, In q ps -> item kwargs (p_name q) = None).
           { intros q Iq. apply item_None. intros I. apply Z in I. subst used.
             rewrite K in NK. cbn [map] in NK.
             assert (I' : In (p_name q) (map p_name pre)).
             { rewrite <- (firstn_skipn (List.length args) (map p_name pre)). apply in_or_app. right. exact I. }
             apply in_split in I'. destruct I' as (l1 & l2 & El). rewrite El in NK.
             rewrite <- app_assoc in NK. cbn [app] in NK. apply NoDup_remove_2 in NK. apply NK.
             apply in_or_app. right. apply in_or_app. right. right. apply in_map. exact Iq. }
           rewrite (ideal_nothing args kwargs ps ds (S i)); [|lia|exact Un| |exact (fits_length _ _ _ _ _ F)].
           2:{ apply (convert_not_required_all fmt' m (S i) ps ds F). lia. }
           assert (E3 : List.length (rest (skipn (List.length args) kwlist) kwargs) = 0%nat).
           { destruct (rest (skipn (List.length args) kwlist) kwargs) as [|[k o] l] eqn:Er; [reflexivity|].
             exfalso. assert (I : In (k, o) (rest (skipn (List.length args) kwlist) kwargs)) by (rewrite Er; left; reflexivity).
             apply rest_In in I. destruct I as [Ik Nk]. apply Nk. rewrite K, skipn_app. apply in_or_app. left.
             rewrite <- U. apply Z. change k with (fst (k, o)). apply in_map. exact Ik. }
           rewrite E3. cbn [Nat.eqb map]. reflexivity.
        -- rewrite Lr.
           rewrite (IH ds fmt' (S i) min' (pre ++ [p])%list (used ++ [p_name p])%list (vs ++ [initial d])%list K' Lp' NK U' F).
           destruct (ideal args kwargs (S i) ps ds); [|reflexivity].
           rewrite <- app_assoc. reflexivity.
Qed.

Definition matches (s : signature) (ps : list parameter) : Prop :=
  keywords s = map p_name ps /\ NoDup (map p_name ps) /\ fits (format s) None 0 ps (variables s).

Definition extra (ps : list parameter) (args : list obj) (kwargs : list (string * obj)) : Prop :=
  exists k o, In (k, o) kwargs /\ ~ In k (skipn (List.length args) (map p_name ps)).

Lemma rest_nil used (kwargs : list (string * obj)) : NoDup (map fst kwargs) ->
  Nat.eqb (List.length (rest used kwargs)) 0 = true <-> ~ exists k o, In (k, o) kwargs /\ ~ In k used.
Proof.
  intros ND. rewrite Nat.eqb_eq. split.
  - intros E (k & o & I & N). assert (I' : In (k, o) (rest used kwargs)) by (apply rest_In; split; assumption).
    destruct (rest used kwargs); [destruct I'|discriminate].
  - intros N. destruct (rest used kwargs) as [|[k o] l] eqn:E; [reflexivity|]. exfalso. apply N. exists k, o.
    apply rest_In. rewrite E. left. reflexivity.
Qed.

Lemma parse_ideal s ps args kwargs : matches s ps -> NoDup (map fst kwargs) ->
  parse py s args kwargs =
  if Nat.ltb (List.length ps) (List.length args + List.length kwargs) then inr (type_error py) else
  match ideal args kwargs 0 ps (variables s) with
  | inr e => inr e
  | inl l => if Nat.eqb (List.length (rest (skipn (List.length args) (map p_name ps)) kwargs)) 0 then inl l
             else inr (type_error py)
  end.
Proof.
  intros (K & NK & F) ND. unfold parse. rewrite K, map_length.
  destruct (Nat.ltb _ _); [reflexivity|].
  assert (E : List.length kwargs = List.length (rest [] kwargs)).
  { unfold rest. cbn [existsb negb]. induction kwargs as [|kv l IH]; [reflexivity|]. cbn [filter List.length].
    f_equal. apply IH. cbn [map] in ND. inversion ND; assumption. }
  rewrite E. apply (scan_ideal args kwargs (map p_name ps) ND ps (variables s) (format s) 0 None [] [] []);
    [reflexivity|reflexivity|exact NK|destruct (List.length args); reflexivity|exact F].
Qed.

(** The passed objects *)
Lemma passed_given args kwargs i k o : NoDup (map fst kwargs) ->
  passed args kwargs i k o <-> given args kwargs i k = Some o.
Proof.
  intros ND. unfold passed, given. destruct (nth_error args i) as [a|] eqn:E.
  - assert (L : (i < List.length args)%nat) by (apply nth_error_Some; congruence). split.
    + intros [E'|[L' _]]; [exact E'|lia].
    + intros [= ->]. left. reflexivity.
  - assert (L : (List.length args <= i)%nat) by (apply nth_error_None; exact E). rewrite item_In by exact ND. split.
    + intros [E'|[_ I]]; [discriminate|exact I].
    + intros I. right. split; assumption.
Qed.

(** The conversions *)
Definition raw_value (k : kind) (o : obj) (v : value obj) : Prop :=
  match k with ATruth => v = Object o | _ => has_value py k o v end.
Definition raw_error (k : kind) (o : obj) (e : exn) : Prop :=
  match k with ATruth => False | _ => has_error py k o e end.

Lemma convert_spec k o :
  match convert py (code k) o with
  | inl v => raw_value k o v /\ (forall e, ~ raw_error k o e)
  | inr e => forall e', raw_error k o e' <-> e' = e
  end.
Proof.
  destruct k; cbn [code raw_value raw_error has_value has_error]; unfold convert; cbn [Ascii.eqb Bool.eqb];
    try (split; [reflexivity|intros e []]).
  - destruct (long_of py o) as [z|e] eqn:E.
    + unfold INT_MAX, INT_MIN. destruct (Z.ltb_spec (2 ^ 31 - 1) z) as [L|L];
        [|destruct (Z.ltb_spec z (- 2 ^ 31)) as [L'|L']].
      * intros e'. split.
        -- intros [?|(z' & [= <-] & _ & ->)]; [congruence|reflexivity].
        -- intros ->. right. exists z. repeat split; lia.
      * intros e'. split.
        -- intros [?|(z' & [= <-] & _ & ->)]; [congruence|reflexivity].
        -- intros ->. right. exists z. repeat split; lia.
      * split; [exists z; repeat split; lia|].
        intros e [?|(z' & [= <-] & N & _)]; [congruence|]. apply N. lia.
    + intros e'. split; [intros [[= <-]|(z & ? & _)]; [reflexivity|congruence]|intros ->; left; reflexivity].
  - destruct (double_of py o) as [x|e] eqn:E.
    + split; [exists x; split; reflexivity|intros e ?; congruence].
    + intros e'. split; congruence.
  - destruct (text_of py o) as [x|e] eqn:E.
    + split; [exists x; split; reflexivity|intros e ?; congruence].
    + intros e'. split; congruence.
Qed.

(** The values computed by [ideal] *)
Lemma ideal_spec args kwargs : forall ps ds i,
  List.length ps = List.length ds ->
  match ideal args kwargs i ps ds with
  | inl l => List.length l = List.length ps /\
      forall j p d v, nth_error ps j = Some p -> nth_error ds j = Some d -> nth_error l j = Some v ->
      match given args kwargs (i + j) (p_name p) with
      | Some o => raw_value (p_kind p) o v /\ (forall e, ~ raw_error (p_kind p) o e)
      | None => is_required p = false /\ v = initial d
      end
  | inr e => exists j p, nth_error ps j = Some p /\
      (forall j' p' o e', (j' < j)%nat -> nth_error ps j' = Some p' ->
         given args kwargs (i + j') (p_name p') = Some o -> ~ raw_error (p_kind p') o e') /\
      match given args kwargs (i + j) (p_name p) with
      | Some o => raw_error (p_kind p) o e
      | None => is_required p = true /\ e = type_error py
      end
  end.
Proof.
  induction ps as [|p ps IH]; intros ds i L; destruct ds as [|d ds]; cbn [List.length] in L; try lia.
  - cbn [ideal List.length]. split; [reflexivity|]. intros [|j] p d v E; discriminate E.
  - cbn [ideal]. specialize (IH ds (S i) ltac:(lia)).
    assert (Sh : forall e, (exists j p0, nth_error ps j = Some p0 /\
        (forall j' p' o e', (j' < j)%nat -> nth_error ps j' = Some p' ->
           given args kwargs (S i + j') (p_name p') = Some o -> ~ raw_error (p_kind p') o e') /\
        match given args kwargs (S i + j) (p_name p0) with
        | Some o => raw_error (p_kind p0) o e
        | None => is_required p0 = true /\ e = type_error py
        end) ->
        (forall o e', given args kwargs i (p_name p) = Some o -> ~ raw_error (p_kind p) o e') ->
      exists j p0, nth_error (p :: ps) j = Some p0 /\
        (forall j' p' o e', (j' < j)%nat -> nth_error (p :: ps) j' = Some p' ->
           given args kwargs (i + j') (p_name p') = Some o -> ~ raw_error (p_kind p') o e') /\
        match given args kwargs (i + j) (p_name p0) with
        | Some o => raw_error (p_kind p0) o e
        | None => is_required p0 = true /\ e = type_error py
        end).
    { intros e (j & p0 & Ej & B & H) N. exists (S j), p0. split; [exact Ej|]. rewrite Nat.add_succ_r. split; [|exact H].
      intros [|j'] p' o e' Lj Ep G.
      - cbn in Ep. injection Ep as <-. rewrite Nat.add_0_r in G. apply N. exact G.
      - cbn in Ep. rewrite Nat.add_succ_r in G. apply (B j' p' o e'); [lia|exact Ep|exact G]. }
    destruct (given args kwargs i (p_name p)) as [o|] eqn:G.
    + pose proof (convert_spec (p_kind p) o) as C.
      destruct (convert py (code (p_kind p)) o) as [v|e].
      * destruct (ideal args kwargs (S i) ps ds) as [l|e].
        -- destruct IH as [Ll IH]. split; [cbn; lia|]. intros [|j] p0 d0 v0 Ep Ed Ev; cbn in Ep, Ed, Ev.
           ++ injection Ep as <-. injection Ev as <-. rewrite Nat.add_0_r, G. exact C.
           ++ rewrite Nat.add_succ_r. exact (IH j p0 d0 v0 Ep Ed Ev).
        -- apply (Sh e IH). intros o' e' [= <-]. apply (proj2 C).
      * exists 0%nat, p. split; [reflexivity|]. split; [intros; lia|]. rewrite Nat.add_0_r, G. apply C. reflexivity.
    + destruct (is_required p) eqn:Rp.
      * exists 0%nat, p. split; [reflexivity|]. split; [intros; lia|]. rewrite Nat.add_0_r, G. split; [exact Rp|reflexivity].
      * destruct (ideal args kwargs (S i) ps ds) as [l|e].
        -- destruct IH as [Ll IH]. split; [cbn; lia|]. intros [|j] p0 d0 v0 Ep Ed Ev; cbn in Ep, Ed, Ev.
           ++ injection Ep as <-. injection Ed as <-. injection Ev as <-. rewrite Nat.add_0_r, G. split; [exact Rp|reflexivity].
           ++ rewrite Nat.add_succ_r. exact (IH j p0 d0 v0 Ep Ed Ev).
        -- apply (Sh e IH). intros o' e' E. discriminate E.
Qed.

Lemma fits_suits fmt min i ps ds j p d : fits fmt min i ps ds ->
  nth_error ps j = Some p -> nth_error ds j = Some d -> suits p d.
Proof.
  revert fmt min i ds j. induction ps as [|q ps IH]; intros fmt min i ds j F Ep Ed; [destruct j; discriminate Ep|].
  destruct ds as [|d' ds]; cbn [fits] in F; [contradiction|].
  destruct (bar i min fmt) as [[min' [|c fmt']]|]; try contradiction. destruct F as (_ & _ & Su & F).
  destruct j as [|j]; cbn in Ep, Ed.
  - injection Ep as <-. injection Ed as <-. exact Su.
  - exact (IH _ _ _ _ _ F Ep Ed).
Qed.

(** [well_called] in terms of [given] *)
Lemma known_skipn (ps : list parameter) n k :
  In k (skipn n (map p_name ps)) <-> exists i p, nth_error ps i = Some p /\ p_name p = k /\ (n <= i)%nat.
Proof.
  revert ps. induction n as [|n IH]; intros ps.
  - cbn [skipn]. rewrite in_map_iff. split.
    + intros (p & E & I). apply In_nth_error in I. destruct I as [i I]. exists i, p. repeat split; [exact I|exact E|lia].
    + intros (i & p & I & E & _). exists p. split; [exact E|]. exact (nth_error_In _ _ I).
  - destruct ps as [|q ps]; cbn [map skipn].
    + split; [intros []|]. intros ([|i] & p & E & _); discriminate E.
    + rewrite IH. split.
      * intros (i & p & I & E & L). exists (S i), p. repeat split; [exact I|exact E|lia].
      * intros ([|i] & p & I & E & L); [lia|]. exists i, p. repeat split; [exact I|exact E|lia].
Qed.

Lemma too_many ps (args : list obj) (kwargs : list (string * obj)) : NoDup (map fst kwargs) -> NoDup (map p_name ps) -> well_called ps args kwargs ->
  Nat.ltb (List.length ps) (List.length args + List.length kwargs) = false.
Proof.
  intros ND NK [L K _]. apply Nat.ltb_ge.
  assert (I : incl (map fst kwargs) (skipn (List.length args) (map p_name ps))).
  { intros k Ik. apply in_map_iff in Ik. destruct Ik as ([k' o] & <- & Ik). cbn [fst]. apply known_skipn.
    exact (K k' o Ik). }
  apply (NoDup_incl_length ND) in I. rewrite map_length, skipn_length, map_length in I. lia.
Qed.

Lemma not_extra ps (args : list obj) (kwargs : list (string * obj)) : NoDup (map fst kwargs) -> well_called ps args kwargs ->
  Nat.eqb (List.length (rest (skipn (List.length args) (map p_name ps)) kwargs)) 0 = true.
Proof.
  intros ND [_ K _]. apply rest_nil; [exact ND|]. intros (k & o & I & N). apply N. apply known_skipn. exact (K k o I).
Qed.

Lemma is_required_iff p : is_required p = true <-> p_default p = None.
Proof. unfold is_required. destruct (p_default p); split; congruence. Qed.

Lemma well_called_of ps (args : list obj) (kwargs : list (string * obj)) l ds : NoDup (map fst kwargs) -> List.length ps = List.length ds ->
  Nat.ltb (List.length ps) (List.length args + List.length kwargs) = false ->
  ideal args kwargs 0 ps ds = inl l ->
  Nat.eqb (List.length (rest (skipn (List.length args) (map p_name ps)) kwargs)) 0 = true ->
  well_called ps args kwargs.
Proof.
  intros ND L T I X. apply Nat.ltb_ge in T. split.
  - lia.
  - intros k o Ik. apply known_skipn. apply rest_nil in X; [|exact ND].
    destruct (in_dec string_dec k (skipn (List.length args) (map p_name ps))) as [Y|N]; [exact Y|].
    exfalso. apply X. exists k, o. split; assumption.
  - intros i p Ep Dp. pose proof (ideal_spec args kwargs ps ds 0 L) as S0. rewrite I in S0. destruct S0 as [Ll S0].
    assert (Li : (i < List.length ps)%nat) by (apply nth_error_Some; congruence).
    destruct (nth_error ds i) as [d|] eqn:Ed; [|apply nth_error_None in Ed; lia].
    destruct (nth_error l i) as [v|] eqn:Ev; [|apply nth_error_None in Ev; lia].
    specialize (S0 i p d v Ep Ed Ev). cbn [Nat.add] in S0.
    destruct (given args kwargs i (p_name p)) as [o|] eqn:G.
    + exists o. apply passed_given; assumption.
    + destruct S0 as [Rq _]. apply is_required_iff in Dp. congruence.
Qed.

(** The flags *)
Lemma use_flags_spec : forall ds vs pending,
  List.length ds = List.length vs ->
  (forall i u o e, nth_error ds i = Some (FlagObject u) -> nth_error vs i = Some (Object o) -> truth_of py o <> inr e) ->
  exists vs', use_flags py ds vs pending = (vs', pending) /\ List.length vs' = List.length vs /\
  forall i d v v', nth_error ds i = Some d -> nth_error vs i = Some v -> nth_error vs' i = Some v' ->
    v' = match d with FlagObject u => fst (use_flag py u v) | _ => v end.
Proof.
  induction ds as [|d ds IH]; intros vs pending L T; destruct vs as [|v vs]; cbn [List.length] in L; try lia.
  - exists []. split; [reflexivity|]. split; [reflexivity|]. intros [|i] d v v' E; discriminate E.
  - cbn [use_flags].
    assert (E0 : exists v', (match d with FlagObject u => use_flag py u v | _ => (v, None) end) = (v', None) /\
                 v' = match d with FlagObject u => fst (use_flag py u v) | _ => v end).
    { destruct d as [| | | |u]; try (exists v; split; reflexivity).
      destruct v as [| |o| | | |]; cbn [use_flag]; try (eexists; split; reflexivity).
      specialize (T 0%nat u o). cbn in T. unfold is_true. destruct (truth_of py o) as [[]|e].
      - eexists; split; reflexivity.
      - eexists; split; reflexivity.
      - exfalso. exact (T e eq_refl eq_refl eq_refl). }
    destruct E0 as (v' & E0 & Ev'). rewrite E0.
    destruct (IH vs pending ltac:(lia)) as (vs' & E1 & L1 & S1).
    { intros i u o e Ed Ev. exact (T (S i) u o e Ed Ev). }
    rewrite E1. exists (v' :: vs'). split; [reflexivity|]. split; [cbn; lia|].
    intros [|i] d0 v0 v0' Ed Ev Ev0; cbn in Ed, Ev, Ev0.
    + injection Ed as <-. injection Ev as <-. injection Ev0 as <-. exact Ev'.
    + exact (S1 i d0 v0 v0' Ed Ev Ev0).
Qed.

Lemma raw_to_error k o e : raw_error k o e -> has_error py k o e.
Proof. destruct k; cbn [raw_error]; [exact (fun x => x)..|intros []]. Qed.

(** The main lemma *)
Lemma call_conforms s ps args kwargs : matches s ps -> NoDup (map fst kwargs) ->
  (truthful py \/ List.Forall (fun p => p_kind p <> ATruth) ps) ->
  let r := call py s args kwargs in
  (well_called ps args kwargs ->
    (forall i p o e, nth_error ps i = Some p -> passed args kwargs i (p_name p) o -> ~ has_error py (p_kind p) o e) ->
    exists vs, r = Continues vs None /\ receives py ps args kwargs vs) /\
  (well_called ps args kwargs -> forall i p o e,
    nth_error ps i = Some p -> passed args kwargs i (p_name p) o -> has_error py (p_kind p) o e ->
    (forall j p' o' e', (j < i)%nat -> nth_error ps j = Some p' -> passed args kwargs j (p_name p') o' ->
                        ~ has_error py (p_kind p') o' e') ->
    r = Raises e) /\
  (~ well_called ps args kwargs ->
    exists e, r = Raises e /\
      (e = type_error py \/
       exists i p o, nth_error ps i = Some p /\ passed args kwargs i (p_name p) o /\ has_error py (p_kind p) o e)).
Proof.
  intros M ND TF r. pose proof (parse_ideal s ps args kwargs M ND) as P. destruct M as (K & NK & F).
  pose proof (fits_length _ _ _ _ _ F) as Ld. pose proof (ideal_spec args kwargs ps (variables s) 0 Ld) as S0.
  cbn [Nat.add] in S0. unfold r, call. clear r.
  split; [|split].
  - intros W N. rewrite (too_many ps args kwargs ND NK W), (not_extra ps args kwargs ND W) in P. rewrite P. clear P.
    destruct (ideal args kwargs 0 ps (variables s)) as [l|e].
    + destruct S0 as [Ll S0].
      destruct (use_flags_spec (variables s) l None) as (vs' & E1 & L1 & S1).
      { lia. }
      { intros i u o e Ed Ev Te.
        assert (Li : (i < List.length ps)%nat) by (rewrite Ld; apply nth_error_Some; congruence).
        destruct (nth_error ps i) as [p|] eqn:Ep; [|apply nth_error_None in Ep; lia].
        pose proof (fits_suits _ _ _ _ _ i p _ F Ep Ed) as Su. specialize (S0 i p _ _ Ep Ed Ev).
        unfold suits in Su. destruct (p_kind p) eqn:Kp; try contradiction.
        destruct (given args kwargs i (p_name p)) as [o'|] eqn:G.
        - destruct S0 as [Rv _]. cbn [raw_value] in Rv. injection Rv as <-.
          apply (N i p o e Ep); [apply passed_given; assumption|]. rewrite Kp. exact Te.
        - destruct S0 as [_ Iv]. cbn [initial] in Iv. discriminate Iv. }
      rewrite E1. exists vs'. split; [reflexivity|]. split; [lia|].
      intros i p v Ep Ev.
      assert (Li : (i < List.length ps)%nat) by (apply nth_error_Some; congruence).
      destruct (nth_error (variables s) i) as [d|] eqn:Ed; [|apply nth_error_None in Ed; lia].
      destruct (nth_error l i) as [v0|] eqn:Ev0; [|apply nth_error_None in Ev0; lia].
      specialize (S0 i p d v0 Ep Ed Ev0). specialize (S1 i d v0 v Ed Ev0 Ev).
      pose proof (fits_suits _ _ _ _ _ i p d F Ep Ed) as Su. unfold suits in Su.
      destruct (given args kwargs i (p_name p)) as [o|] eqn:G.
      * left. exists o. assert (Pa : passed args kwargs i (p_name p) o) by (apply passed_given; assumption).
        split; [exact Pa|]. destruct S0 as [Rv _].
        destruct (p_kind p) eqn:Kp; cbn [raw_value] in Rv.
        1-4: destruct d; try contradiction; rewrite S1; exact Rv.
        destruct d as [| | | |u]; try contradiction. subst v0. cbn [use_flag] in S1.
        cbn [has_value]. destruct (truth_of py o) as [b|e] eqn:Te.
        -- exists b. split; [reflexivity|]. rewrite S1. unfold is_true. rewrite Te. destruct b, u; reflexivity.
        -- exfalso. apply (N i p o e Ep Pa). rewrite Kp. exact Te.
      * right. split.
        { intros o Pa. apply passed_given in Pa; [|exact ND]. congruence. }
        destruct S0 as [Rq Iv]. subst v0. unfold is_required in Rq.
        destruct (p_default p) as [df|] eqn:Dp; [|discriminate]. exists df. split; [reflexivity|]. rewrite S1.
        destruct (p_kind p), d as [| |z|x|u]; try contradiction; cbn [initial use_flag fst].
        -- destruct Su as [Su|Su]; [discriminate|]. injection Su as ->. reflexivity.
        -- destruct z; [|discriminate Su]. injection Su as ->. reflexivity.
        -- injection Su as ->. reflexivity.
        -- discriminate Su.
        -- destruct u; injection Su as ->; reflexivity.
    + exfalso. destruct S0 as (j & p & Ep & _ & H).
      destruct (given args kwargs j (p_name p)) as [o|] eqn:G.
      * apply (N j p o e Ep); [apply passed_given; assumption|apply raw_to_error; exact H].
      * destruct H as [Rq _]. apply is_required_iff in Rq. destruct W as [_ _ W]. destruct (W j p Ep Rq) as [o Po].
        apply passed_given in Po; [|exact ND]. congruence.
  - intros W i p o e Ep Pa He B.
    rewrite (too_many ps args kwargs ND NK W), (not_extra ps args kwargs ND W) in P. rewrite P. clear P.
    assert (Re : raw_error (p_kind p) o e).
    { destruct TF as [T|T].
      - destruct (p_kind p); cbn [raw_error]; try exact He. cbn [has_error] in He. destruct (T o) as [b Tb]. congruence.
      - rewrite Forall_forall in T. specialize (T p (nth_error_In _ _ Ep)).
        destruct (p_kind p); cbn [raw_error]; try exact He. congruence. }
    apply passed_given in Pa; [|exact ND].
    destruct (ideal args kwargs 0 ps (variables s)) as [l|e'].
    + exfalso. destruct S0 as [Ll S0].
      assert (Li : (i < List.length ps)%nat) by (apply nth_error_Some; congruence).
      destruct (nth_error (variables s) i) as [d|] eqn:Ed; [|apply nth_error_None in Ed; lia].
      destruct (nth_error l i) as [v0|] eqn:Ev0; [|apply nth_error_None in Ev0; lia].
      specialize (S0 i p d v0 Ep Ed Ev0). rewrite Pa in S0. destruct S0 as [_ Ne]. exact (Ne e Re).
    + destruct S0 as (j & p' & Ep' & B' & H). destruct (lt_eq_lt_dec j i) as [[Lt|<-]|Gt].
      * exfalso. destruct (given args kwargs j (p_name p')) as [o'|] eqn:G.
        -- apply (B j p' o' e' Lt Ep'); [apply passed_given; assumption|apply raw_to_error; exact H].
        -- destruct H as [Rq _]. apply is_required_iff in Rq. destruct W as [_ _ W]. destruct (W j p' Ep' Rq) as [o' Po].
           apply passed_given in Po; [|exact ND]. congruence.
      * rewrite Ep in Ep'. injection Ep' as <-. rewrite Pa in H. f_equal.
        pose proof (convert_spec (p_kind p) o) as C. destruct (convert py (code (p_kind p)) o) as [v|e0].
        -- exfalso. destruct C as [_ C]. exact (C e Re).
        -- apply C in H. apply C in Re. congruence.
      * exfalso. exact (B' i p o e Gt Ep Pa Re).
  - intros W. destruct (Nat.ltb (List.length ps) (List.length args + List.length kwargs)) eqn:T.
    + rewrite P. exists (type_error py). split; [reflexivity|left; reflexivity].
    + destruct (ideal args kwargs 0 ps (variables s)) as [l|e] eqn:I.
      * destruct (Nat.eqb (List.length (rest (skipn (List.length args) (map p_name ps)) kwargs)) 0) eqn:X.
        -- exfalso. apply W. exact (well_called_of ps args kwargs l (variables s) ND Ld T I X).
        -- rewrite P. exists (type_error py). split; [reflexivity|left; reflexivity].
      * rewrite P. exists e. split; [reflexivity|]. destruct S0 as (j & p & Ep & _ & H).
        destruct (given args kwargs j (p_name p)) as [o|] eqn:G.
        -- right. exists j, p, o. split; [exact Ep|]. split; [apply passed_given; assumption|apply raw_to_error; exact H].
        -- left. exact (proj2 H).
Qed.

(** The outcome depends on the passed objects only *)
Lemma ideal_ext args kwargs args' kwargs' : forall ps ds i,
  (forall j p, nth_error ps j = Some p ->
     given args kwargs (i + j) (p_name p) = given args' kwargs' (i + j) (p_name p)) ->
  ideal args kwargs i ps ds = ideal args' kwargs' i ps ds.
Proof.
  induction ps as [|p ps IH]; intros ds i G; [reflexivity|]. destruct ds as [|d ds]; [reflexivity|].
  cbn [ideal]. pose proof (G 0%nat p eq_refl) as G0. rewrite Nat.add_0_r in G0. rewrite G0.
  rewrite (IH ds (S i)); [reflexivity|]. intros j q Eq. specialize (G (S j) q Eq). rewrite Nat.add_succ_r in G. exact G.
Qed.

Lemma call_ext s ps args kwargs args' kwargs' : matches s ps ->
  NoDup (map fst kwargs) -> NoDup (map fst kwargs') ->
  (List.length args + List.length kwargs = List.length args' + List.length kwargs')%nat ->
  (forall j p, nth_error ps j = Some p -> given args kwargs j (p_name p) = given args' kwargs' j (p_name p)) ->
  ((exists k o, In (k, o) kwargs /\ ~ In k (skipn (List.length args) (map p_name ps))) <->
   (exists k o, In (k, o) kwargs' /\ ~ In k (skipn (List.length args') (map p_name ps)))) ->
  call py s args kwargs = call py s args' kwargs'.
Proof.
  intros M ND ND' L G X. unfold call. rewrite (parse_ideal s ps args kwargs M ND), (parse_ideal s ps args' kwargs' M ND').
  rewrite L, (ideal_ext args kwargs args' kwargs' ps (variables s) 0 G).
  pose proof (rest_nil (skipn (List.length args) (map p_name ps)) kwargs ND) as R1.
  pose proof (rest_nil (skipn (List.length args') (map p_name ps)) kwargs' ND') as R2.
  assert (E : Nat.eqb (List.length (rest (skipn (List.length args) (map p_name ps)) kwargs)) 0 =
              Nat.eqb (List.length (rest (skipn (List.length args') (map p_name ps)) kwargs')) 0).
  { apply eq_true_iff_eq. rewrite R1, R2, X. reflexivity. }
  rewrite E. reflexivity.
Qed.

Lemma skipn_S_names (ps : list parameter) n p : nth_error ps n = Some p ->
  skipn n (map p_name ps) = p_name p :: skipn (S n) (map p_name ps).
Proof.
  revert ps. induction n as [|n IH]; intros [|q ps] E; cbn in E; try discriminate E.
  - injection E as ->. reflexivity.
  - cbn [map skipn]. rewrite (IH ps E). reflexivity.
Qed.

(** An argument passed by name instead of by position *)
Lemma call_by_name s ps args o kwargs p : matches s ps ->
  nth_error ps (List.length args) = Some p -> NoDup (p_name p :: map fst kwargs) ->
  call py s (args ++ [o]) kwargs = call py s args ((p_name p, o) :: kwargs).
Proof.
  intros M Ep ND. pose proof M as (K & NK & F). inversion ND as [|? ? Np ND']; subst.
  apply (call_ext s ps); [exact M|exact ND'|exact ND| | |].
  - rewrite app_length. cbn. lia.
  - intros j q Eq. unfold given. destruct (lt_eq_lt_dec j (List.length args)) as [[Lt| ->]|Gt].
    + rewrite nth_error_app1 by exact Lt. destruct (nth_error args j) eqn:E; [reflexivity|].
      apply nth_error_None in E. lia.
    + rewrite nth_error_app2, Nat.sub_diag by lia. cbn [nth_error].
      rewrite (proj2 (nth_error_None args (List.length args))) by lia. cbn [item].
      rewrite Ep in Eq. injection Eq as <-. rewrite String.eqb_refl. reflexivity.
    + rewrite (proj2 (nth_error_None (args ++ [o]) j)) by (rewrite app_length; cbn; lia).
      rewrite (proj2 (nth_error_None args j)) by lia. cbn [item].
      destruct (String.eqb_spec (p_name p) (p_name q)) as [E|_]; [|reflexivity].
      exfalso. assert (E2 : List.length args = j).
      { assert (Lj : (List.length args < List.length (map p_name ps))%nat).
        { rewrite map_length. apply nth_error_Some. congruence. }
        apply (proj1 (NoDup_nth_error (map p_name ps)) NK); [exact Lj|].
        rewrite !nth_error_map, Ep, Eq. cbn. congruence. }
      lia.
  - rewrite app_length. cbn [List.length]. rewrite Nat.add_1_r, (skipn_S_names ps _ p Ep).
    split.
    + intros (k & o' & I & N). exists k, o'. split; [right; exact I|]. intros [E|I']; [|exact (N I')].
      apply Np. rewrite E. change k with (fst (k, o')). apply in_map. exact I.
    + intros (k & o' & [E|I] & N).
      * injection E as <- <-. exfalso. apply N. left. reflexivity.
      * exists k, o'. split; [exact I|]. intros I'. apply N. right. exact I'.
Qed.

(** The order of the keyword arguments *)
Lemma call_order s ps args kwargs kwargs' : matches s ps -> NoDup (map fst kwargs) -> Permutation kwargs kwargs' ->
  call py s args kwargs = call py s args kwargs'.
Proof.
  intros M ND P.
  assert (ND' : NoDup (map fst kwargs')) by (apply (Permutation_NoDup (l := map fst kwargs)); [apply Permutation_map; exact P|exact ND]).
  apply (call_ext s ps); [exact M|exact ND|exact ND'| | |].
  - rewrite (Permutation_length P). reflexivity.
  - intros j p _. unfold given. destruct (nth_error args j); [reflexivity|].
    destruct (item kwargs' (p_name p)) as [o|] eqn:E.
    + apply item_In; [exact ND|]. apply item_In in E; [|exact ND']. exact (Permutation_in _ (Permutation_sym P) E).
    + apply item_None. apply item_None in E. intros I. apply E. apply (Permutation_in _ (Permutation_map fst P)). exact I.
  - split; intros (k & o & I & N); exists k, o; (split; [|exact N]).
    + exact (Permutation_in _ P I).
    + exact (Permutation_in _ (Permutation_sym P) I).
Qed.

(** A flag whose truth value cannot be found *)
Lemma use_flags_plain : forall ds vs pending,
  (forall u, ~ In (FlagObject u) ds) -> use_flags py ds vs pending = (vs, pending).
Proof.
  induction ds as [|d ds IH]; intros [|v vs] pending N; try reflexivity. cbn [use_flags].
  assert (E : (match d with FlagObject u => use_flag py u v | _ => (v, None) end) = (v, None)).
  { destruct d as [| | | |u]; try reflexivity. exfalso. apply (N u). left. reflexivity. }
  rewrite E, IH; [reflexivity|]. intros u I. apply (N u). right. exact I.
Qed.

Lemma use_flags_fails : forall ds vs i u o e pending,
  nth_error ds i = Some (FlagObject u) -> nth_error vs i = Some (Object o) -> truth_of py o = inr e ->
  (forall j u', j <> i -> nth_error ds j <> Some (FlagObject u')) ->
  exists vs', use_flags py ds vs pending = (vs', Some e) /\
    nth_error vs' i = Some (Flag (match u with EqualsOne => false | _ => true end)).
Proof.
  induction ds as [|d ds IH]; intros [|v vs] [|i] u o e pending Ed Ev T N; cbn in Ed, Ev; try discriminate.
  - injection Ed as ->. injection Ev as ->. cbn [use_flags use_flag]. unfold is_true. rewrite T.
    rewrite use_flags_plain.
    + eexists. split; [reflexivity|]. destruct u; reflexivity.
    + intros u' I. apply In_nth_error in I. destruct I as [j I]. exact (N (S j) u' ltac:(lia) I).
  - cbn [use_flags].
    assert (E : (match d with FlagObject u => use_flag py u v | _ => (v, None) end) = (v, None)).
    { destruct d as [| | | |u']; try reflexivity. exfalso. exact (N 0%nat u' ltac:(lia) eq_refl). }
    rewrite E. destruct (IH vs i u o e pending Ed Ev T) as (vs' & E' & Ev').
    { intros j u' D. apply (N (S j) u'). lia. }
    rewrite E'. exists (v :: vs'). split; [reflexivity|exact Ev'].
Qed.

Lemma call_truth_fails s ps args kwargs i p o e u : matches s ps -> NoDup (map fst kwargs) ->
  well_called ps args kwargs ->
  nth_error ps i = Some p -> nth_error (variables s) i = Some (FlagObject u) ->
  (forall j u', j <> i -> nth_error (variables s) j <> Some (FlagObject u')) ->
  passed args kwargs i (p_name p) o -> truth_of py o = inr e ->
  (forall j p' o' e', j <> i -> nth_error ps j = Some p' -> passed args kwargs j (p_name p') o' ->
     ~ has_error py (p_kind p') o' e') ->
  exists vs, call py s args kwargs = Continues vs (Some e) /\
    nth_error vs i = Some (Flag (match u with EqualsOne => false | _ => true end)).
Proof.
  intros M ND W Ep Ed U Pa T N. pose proof (parse_ideal s ps args kwargs M ND) as P. pose proof M as (K & NK & F).
  pose proof (fits_length _ _ _ _ _ F) as Ld. pose proof (ideal_spec args kwargs ps (variables s) 0 Ld) as S0.
  cbn [Nat.add] in S0. unfold call.
  rewrite (too_many ps args kwargs ND NK W), (not_extra ps args kwargs ND W) in P. rewrite P. clear P.
  pose proof (fits_suits _ _ _ _ _ i p _ F Ep Ed) as Su.
  assert (Kp : p_kind p = ATruth) by (unfold suits in Su; destruct (p_kind p); try contradiction; reflexivity).
  apply passed_given in Pa; [|exact ND].
  destruct (ideal args kwargs 0 ps (variables s)) as [l|e'].
  - destruct S0 as [Ll S0]. assert (Li : (i < List.length ps)%nat) by (apply nth_error_Some; congruence).
    destruct (nth_error l i) as [v0|] eqn:Ev0; [|apply nth_error_None in Ev0; lia].
    specialize (S0 i p _ v0 Ep Ed Ev0). rewrite Pa, Kp in S0. destruct S0 as [S0 _]. cbn [raw_value] in S0. subst v0.
    destruct (use_flags_fails (variables s) l i u o e None Ed Ev0 T U) as (vs' & E & E').
    rewrite E. exists vs'. split; [reflexivity|exact E'].
  - exfalso. destruct S0 as (j & q & Eq & _ & H). destruct (given args kwargs j (p_name q)) as [o'|] eqn:G.
    + destruct (Nat.eq_dec j i) as [->|D].
      * rewrite Ep in Eq. injection Eq as <-. rewrite Kp in H. exact H.
      * apply (N j q o' e' D Eq); [apply passed_given; assumption|apply raw_to_error; exact H].
    + destruct H as [Rq _]. apply is_required_iff in Rq. destruct W as [_ _ W]. destruct (W j q Eq Rq) as [o' Po].
      apply passed_given in Po; [|exact ND]. congruence.
Qed.

End CallProofs.

Ltac names := repeat (constructor; [cbn; intuition discriminate|]); constructor.

Ltac suit := match goal with
  | |- _ \/ _ => first [left; reflexivity|right; reflexivity]
  | |- _ = _ => first [reflexivity|repeat f_equal; lra]
  end.

Ltac matching := split; [reflexivity|split; [names|
  cbn -[Rdiv Rmult IZR Rplus]; repeat (split; [suit|]); suit]].

Ltac no_flags := right; repeat (constructor; [discriminate|]); constructor.

Lemma plain_match : forall name ps, In (name, ps) (documented_plain ++ documented_flags ++ undocumented) ->
  exists s, find (fun m => String.eqb (fst m) name) methods = Some (name, s) /\ matches s ps.
Proof.
  intros name ps I.
  cbn [documented_plain documented_flags undocumented app In coord_types scales fourier2d_parameters spharpot_parameters] in I.
  repeat match type of I with
  | _ \/ _ => destruct I as [I|I];
      [injection I as <- <-; eexists; split; [reflexivity|matching]|]
  | False => destruct I
  end.
Qed.

Lemma conforms_plain {obj exn} (py : python obj exn) name ps : In (name, ps) documented_plain -> conforms py name ps.
Proof.
  intros I args kwargs ND.
  destruct (plain_match name ps) as (s & E & M); [apply in_or_app; left; exact I|].
  unfold call_function. rewrite E. eexists. split; [reflexivity|]. apply call_conforms; [exact M|exact ND|]. right.
  cbn [documented_plain In coord_types] in I.
  repeat match type of I with
  | _ \/ _ => destruct I as [I|I]; [injection I as <- <-; repeat (constructor; [discriminate|]); constructor|]
  | False => destruct I
  end.
Qed.

Lemma conforms_wrong {obj exn} (py : python obj exn) name ps : In (name, ps) undocumented -> conforms py name ps.
Proof.
  intros I args kwargs ND.
  destruct (plain_match name ps) as (s & E & M); [apply in_or_app; right; apply in_or_app; right; exact I|].
  unfold call_function. rewrite E. eexists. split; [reflexivity|]. apply call_conforms; [exact M|exact ND|]. right.
  cbn [undocumented In fourier2d_parameters spharpot_parameters] in I.
  repeat match type of I with
  | _ \/ _ => destruct I as [I|I]; [injection I as <- <-; repeat (constructor; [discriminate|]); constructor|]
  | False => destruct I
  end.
Qed.

Lemma conforms_flags {obj exn} (py : python obj exn) name ps : truthful py -> In (name, ps) documented_flags ->
  conforms py name ps.
Proof.
  intros T I args kwargs ND.
  destruct (plain_match name ps) as (s & E & M); [apply in_or_app; right; apply in_or_app; left; exact I|].
  unfold call_function. rewrite E. eexists. split; [reflexivity|]. apply call_conforms; [exact M|exact ND|]. left. exact T.
Qed.

Lemma flags_truth {obj exn} (py : python obj exn) name ps args kwargs i p o e :
  In (name, ps) documented_flags -> NoDup (map fst kwargs) -> well_called ps args kwargs ->
  nth_error ps i = Some p -> p_kind p = ATruth -> passed args kwargs i (p_name p) o -> truth_of py o = inr e ->
  (forall j p' o' e', j <> i -> nth_error ps j = Some p' -> passed args kwargs j (p_name p') o' ->
     ~ has_error py (p_kind p') o' e') ->
  exists vs, call_function py name args kwargs = Some (Continues vs (Some e)) /\
    nth_error vs i = Some (Flag (negb (String.eqb name "eval_qdlatlon"))).
Proof.
  intros I ND W Ep Kp Pa T N.
  destruct (plain_match name ps) as (s & E & M); [apply in_or_app; right; apply in_or_app; left; exact I|].
  unfold call_function. rewrite E.
  assert (D : exists u, nth_error (variables s) i = Some (FlagObject u) /\
    (match u with EqualsOne => false | _ => true end) = negb (String.eqb name "eval_qdlatlon") /\
    (forall j u', j <> i -> nth_error (variables s) j <> Some (FlagObject u'))).
  { clear M Pa N W. cbn [documented_flags app In coord_types scales] in I.
    repeat match type of I with
    | _ \/ _ => destruct I as [I|I]; [injection I as <- <-; injection E as <-; clear ND T|]
    | False => destruct I
    end;
    (do 11 (destruct i as [|i];
       [cbn in Ep; first [discriminate Ep|injection Ep as <-; first [discriminate Kp|
          eexists; split; [reflexivity|split; [reflexivity|
            intros j u' D; do 11 (destruct j as [|j]; [cbn; first [lia|discriminate]|]); destruct j; discriminate]]]]|]);
     destruct i; discriminate Ep). }
  destruct D as (u & Eu & Bu & Un). rewrite <- Bu.
  destruct (call_truth_fails py s ps args kwargs i p o e u M ND W Ep Eu Un Pa T N) as (vs & Ec & Ev).
  exists vs. rewrite Ec. split; [reflexivity|exact Ev].
Qed.

Lemma by_name_all {obj exn} (py : python obj exn) name ps args o kwargs p :
  In (name, ps) (documented_plain ++ documented_flags ++ undocumented) ->
  nth_error ps (List.length args) = Some p -> NoDup (p_name p :: map fst kwargs) ->
  call_function py name (args ++ [o]) kwargs = call_function py name args ((p_name p, o) :: kwargs).
Proof.
  intros I Ep ND. destruct (plain_match name ps I) as (s & E & M). unfold call_function. rewrite E. f_equal.
  exact (call_by_name py s ps args o kwargs p M Ep ND).
Qed.

Lemma order_all {obj exn} (py : python obj exn) name args kwargs kwargs' :
  NoDup (map fst kwargs) -> Permutation kwargs kwargs' ->
  call_function py name args kwargs = call_function py name args kwargs'.
Proof.
  intros ND P. unfold call_function.
  destruct (find (fun m => String.eqb (fst m) name) methods) as [[n s]|] eqn:E; [|reflexivity]. f_equal.
  apply find_some in E. destruct E as [I E]. cbn [fst] in E. clear E.
  assert (M : exists ps, matches s ps).
  { assert (J : exists ps, In (n, ps) (documented_plain ++ documented_flags ++ undocumented) /\
                find (fun m => String.eqb (fst m) n) methods = Some (n, s)).
    { cbn [methods In] in I. repeat match type of I with
      | _ \/ _ => destruct I as [I|I]; [injection I as <- <-; eexists; split; [|reflexivity];
          cbn [documented_plain documented_flags undocumented app In]; repeat (first [left; reflexivity|right])|]
      | False => destruct I
      end. }
    destruct J as (ps & J & F). destruct (plain_match n ps J) as (s' & F' & M). rewrite F in F'. injection F' as <-.
    exists ps. exact M. }
  destruct M as [ps M]. exact (call_order py s ps args kwargs kwargs' M ND P).
Qed.

Lemma all_documented name s : In (name, s) methods ->
  exists ps, In (name, ps) (documented_plain ++ documented_flags ++ documented_wrongly).
Proof.
  intros I. cbn [methods In] in I. repeat match type of I with
  | _ \/ _ => destruct I as [I|I]; [injection I as <- <-; eexists;
      cbn [documented_plain documented_flags documented_wrongly app In]; repeat (first [left; reflexivity|right])|]
  | False => destruct I
  end.
Qed.

(** The functions documented wrongly *)
Lemma well_objects {obj} (ps : list parameter) (args : list obj) kwargs :
  (List.length args <= List.length ps)%nat ->
  (forall k o, In (k, o) kwargs -> exists i p, nth_error ps i = Some p /\ p_name p = k /\ (List.length args <= i)%nat) ->
  (forall i p, nth_error ps i = Some p -> p_default p = None ->
     exists o, nth_error args i = Some o \/ (List.length args <= i)%nat /\ In (p_name p, o) kwargs) ->
  well_called ps args kwargs.
Proof. intros A B C. split; assumption. Qed.

Lemma wrongly {obj exn} (py : python obj exn) (o : obj) name ps : In (name, ps) documented_wrongly ->
  exists args kwargs, NoDup (map fst kwargs) /\ well_called ps args kwargs /\
    (forall i p o, nth_error ps i = Some p -> passed args kwargs i (p_name p) o -> p_kind p = AnObject) /\
    call_function py name args kwargs = Some (Raises (type_error py)).
Proof.
  intros I. cbn [documented_wrongly In] in I.
  destruct I as [I|[I|[I|[I|[]]]]]; injection I as <- <-.
  - exists [o; o], [("coeff0", o)]. split; [names|]. split; [|split; [|reflexivity]].
    + split.
      * cbn; lia.
      * intros k o' [E|[]]. injection E as <- <-. exists 2%nat. eexists. split; [reflexivity|]. split; [reflexivity|cbn; lia].
      * intros [|[|[|i]]] p Ep Dp; cbn in Ep.
        -- exists o. left. reflexivity.
        -- exists o. left. reflexivity.
        -- injection Ep as <-. exists o. right. split; [cbn; lia|left; reflexivity].
        -- do 4 (destruct i as [|i]; [injection Ep as <-; discriminate Dp|]). destruct i; discriminate Ep.
    + intros [|[|[|i]]] p o' Ep Pa; cbn in Ep; try (injection Ep as <-; reflexivity).
      exfalso. destruct Pa as [Pa|[_ [Pa|[]]]].
      * destruct i; discriminate Pa.
      * do 4 (destruct i as [|i]; [injection Ep as <-; discriminate Pa|]). destruct i; discriminate Ep.
  - exists [o; o; o], [("rrp", o); ("lcs", o)]. split; [names|]. split; [|split; [|reflexivity]].
    + split.
      * cbn; lia.
      * intros k o' [E|[E|[]]]; injection E as <- <-.
        -- exists 3%nat. eexists. split; [reflexivity|]. split; [reflexivity|cbn; lia].
        -- exists 4%nat. eexists. split; [reflexivity|]. split; [reflexivity|cbn; lia].
      * intros [|[|[|[|[|i]]]]] p Ep Dp; cbn in Ep.
        -- exists o. left. reflexivity.
        -- exists o. left. reflexivity.
        -- exists o. left. reflexivity.
        -- injection Ep as <-. exists o. right. split; [cbn; lia|left; reflexivity].
        -- injection Ep as <-. exists o. right. split; [cbn; lia|right; left; reflexivity].
        -- do 1 (destruct i as [|i]; [injection Ep as <-; discriminate Dp|]). destruct i; discriminate Ep.
    + intros [|[|[|[|[|i]]]]] p o' Ep Pa; cbn in Ep; try (injection Ep as <-; reflexivity).
      exfalso. destruct Pa as [Pa|[_ Pa]].
      * destruct i; discriminate Pa.
      * destruct i as [|i]; [injection Ep as <-; destruct Pa as [Pa|[Pa|[]]]; discriminate Pa|]. destruct i; discriminate Ep.
  - exists [], [("decimal_year", o)]. split; [names|]. split; [|split; [|reflexivity]].
    + split.
      * cbn; lia.
      * intros k o' [E|[]]. injection E as <- <-. exists 0%nat. eexists. split; [reflexivity|]. split; [reflexivity|cbn; lia].
      * intros [|[|i]] p Ep Dp; cbn in Ep; try discriminate Ep.
        injection Ep as <-. exists o. right. split; [cbn; lia|left; reflexivity].
    + intros [|[|i]] p o' Ep Pa; cbn in Ep; try discriminate Ep. injection Ep as <-. reflexivity.
  - exists [o; o; o], []. split; [constructor|]. split; [|split; [|reflexivity]].
    + split.
      * cbn; lia.
      * intros k o' [].
      * intros [|[|[|[|i]]]] p Ep Dp; cbn in Ep; try discriminate Ep; exists o; left; reflexivity.
    + intros [|[|[|[|i]]]] p o' Ep Pa; cbn in Ep; try discriminate Ep; injection Ep as <-; reflexivity.
Qed.

Lemma wrongly_refuted {obj exn} (py : python obj exn) (o : obj) name ps : In (name, ps) documented_wrongly ->
  ~ conforms py name ps.
Proof.
  intros I C. destruct (wrongly py o name ps I) as (args & kwargs & ND & W & A & E).
  destruct (C args kwargs ND) as (r & E' & C1 & _). rewrite E in E'. injection E' as <-.
  destruct (C1 W) as (vs & V & _); [|discriminate V].
  intros i p o' e Ep Pa. rewrite (A i p o' Ep Pa). intros [].
Qed.
