(** The calls of sheval, shevaltemp and sheval2dfs for arrays in memory. *)

From Coq Require Import Bool List Reals ZArith Lia Arith.
From Verif Require Import ArrModel LegendreModel GeoModel SizeModel SizeProofs CoefModel ShEvalModel ShEvalSpec
  ShEvalProofs ShEvalLinProofs TempModel FourierModel StridedModel StridedSpec StridedProofs
  StridedEvalModel StridedEvalSpec StridedEvalProofs.
Import ListNotations.
Open Scope Z_scope.

Lemma offset_linear : forall ds idx, offset ds idx = linear ds idx.
Proof. induction ds as [|d ds IH]; intros [|i idx]; cbn [offset linear]; try rewrite IH; reflexivity. Qed.

Lemma dot_app : forall idx st i, (length idx < length st)%nat -> dot (idx ++ [i]) st = dot idx st + Z.of_nat i * nth (length idx) st 0.
Proof.
  induction idx as [|j idx IH]; intros [|s st] i H; cbn [length] in H; try lia.
  - cbn [app length nth]. rewrite dot_cons, !dot_nil. lia.
  - cbn [app length nth]. rewrite !dot_cons, IH by lia. lia.
Qed.

Lemma forall2_len (l l' : list nat) : index_of l l' -> length l' = length l.
Proof. unfold index_of. intro H. induction H; cbn; congruence. Qed.

Lemma load_of_element m a idx v addr : element m a idx = Some v -> addr = address a idx -> load m addr = Ok v.
Proof. intros H ->. now apply load_element. Qed.

Lemma last_nth (l : list Z) d n : length l = S n -> nth n l d = last l d.
Proof.
  revert n. induction l as [|a l IH]; intros n H; [discriminate|]. destruct n as [|n].
  - destruct l; [reflexivity|discriminate].
  - cbn [nth]. destruct l as [|b l]; [discriminate|]. rewrite (IH n) by (cbn in *; lia). reflexivity.
Qed.

Lemma raw_of_positions m x nx : positions m x nx -> packed x -> raw_positions m x nx.
Proof.
  intros (Hs & Hl & H) Hp. split; [now exists 3%nat|]. split; [exact Hl|]. intros idx Hi.
  specialize (H idx Hi). unfold vector in H.
  destruct (element m x (idx ++ [0%nat])) as [a|] eqn:E0; [|discriminate].
  destruct (element m x (idx ++ [1%nat])) as [b|] eqn:E1; [|discriminate].
  destruct (element m x (idx ++ [2%nat])) as [c|] eqn:E2; [|discriminate].
  injection H as H. rewrite <- H. cbn [fst snd].
  assert (Ln : length (stride x) = S (length idx)).
  { rewrite Hl, Hs, app_length, (forall2_len _ _ Hi). cbn. lia. }
  assert (A : forall i, address x (idx ++ [i]) = address x idx + 8 * Z.of_nat i).
  { intro i. rewrite !address_dot, dot_app by lia. rewrite (last_nth _ 0 _ Ln). unfold packed in Hp. rewrite Hp. lia. }
  split; [|split]; eapply load_of_element; try eassumption; rewrite A; lia.
Qed.

Lemma raw_of_numbers m t nt : numbers m t nt -> raw_numbers m t nt.
Proof. intros (Hs & Hl & H). split; [exact Hs|]. split; [exact Hl|]. intros idx Hi. now apply load_element, H. Qed.

Lemma offset_app : forall ds idx n k c, index_of ds idx ->
  linear (ds ++ [n; 2%nat]) (idx ++ [k; c]) = (linear ds idx * (n * 2) + k * 2 + c)%nat.
Proof.
  induction ds as [|d ds IH]; intros idx n k c H; inversion H as [|i' ? l ? Hi Hl]; subst; cbn [app linear].
  - cbn [size fold_right]. lia.
  - rewrite IH by assumption.
    assert (S : size (ds ++ [n; 2%nat]) = (size ds * (n * 2))%nat).
    { clear. induction ds as [|d ds IH]; cbn [app size fold_right]; [lia|]. fold (size (ds ++ [n; 2%nat])). fold (size ds). rewrite IH. lia. }
    rewrite S. lia.
Qed.

Lemma raw_of_coefficients m a csize nc K : coefficients m a csize nc -> c_contiguous a -> (K <= csize)%nat ->
  raw_coefs m K (Rows a) nc.
Proof.
  intros (Hs & Hl & H) Hc HK. apply (raw_rows m K a nc csize 2%nat); [exact Hs|exact Hl|].
  intros idx k Hi Hk. destruct (H idx k Hi ltac:(lia)) as (A & B).
  assert (Len : length idx = length (dims nc)) by now apply forall2_len.
  assert (Ln : length (stride a) = S (S (length idx))).
  { rewrite Hl, Hs, app_length, Len. cbn. lia. }
  assert (Ix : forall k c, (k < csize)%nat -> (c < 2)%nat -> index_of (shape a) (idx ++ [k; c])).
  { intros k' c Hk' Hc'. rewrite Hs. apply Forall2_app; [exact Hi|]. constructor; [exact Hk'|constructor; [exact Hc'|constructor]]. }
  assert (Z0 : address a idx = address a (idx ++ [0%nat; 0%nat])).
  { rewrite !address_dot. replace (idx ++ [0%nat; 0%nat]) with ((idx ++ [0%nat]) ++ [0%nat]) by (now rewrite <- app_assoc).
    rewrite !dot_app by (rewrite ?app_length; cbn; lia). cbn [Z.of_nat]. lia. }
  assert (Ad : forall c, (c < 2)%nat -> address a (idx ++ [k; c]) = address a idx + 16 * Z.of_nat k + 8 * Z.of_nat c).
  { intros c Hc'. rewrite Z0, !Hc by (apply Ix; lia). rewrite Hs, !offset_linear, !offset_app by exact Hi. lia. }
  split; eapply load_of_element; try eassumption; rewrite Ad by lia; lia.
Qed.

Lemma scale_ok m scale sg m1 : scales m scale sg -> (forall k v, m k = Some v -> m1 k = Some v) ->
  gradient_scale m1 scale = Ok sg.
Proof.
  intros H Hm. destruct scale as [a|]; cbn [scales gradient_scale] in *; [|now rewrite H].
  assert (L : forall addr v, load m addr = Ok v -> load m1 addr = Ok v).
  { intros addr v. unfold load. destruct (addr mod 8 =? 0); [|discriminate].
    destruct (m (addr / 8)) as [w|] eqn:E; [|discriminate]. now rewrite (Hm _ _ E). }
  destruct H as (Hl & [(Hs & v & Hv & ->)|(Hs & Hv)]); unfold extract_1d; rewrite Hs.
  - apply load_element in Hv. rewrite address_dot, dot_nil, Z.add_0_r in Hv. now rewrite (L _ _ Hv).
  - rewrite Hs in Hl. destruct (stride a) as [|s [|? ?]] eqn:Es; try discriminate. cbn [Nat.eqb].
    unfold vector in Hv. cbn [app] in Hv.
    destruct (element m a [0%nat]) as [x|] eqn:E0; [|discriminate].
    destruct (element m a [1%nat]) as [y|] eqn:E1; [|discriminate].
    destruct (element m a [2%nat]) as [z|] eqn:E2; [|discriminate].
    injection Hv as <-.
    assert (A : forall i, address a [i] = data a + Z.of_nat i * s).
    { intro i. rewrite address_dot, Es, dot_cons, dot_nil. lia. }
    rewrite (L (data a) x) by (eapply load_of_element; [exact E0|rewrite A; lia]). cbn [bind].
    rewrite (L (data a + s) y) by (eapply load_of_element; [exact E1|rewrite A; lia]). cbn [bind].
    rewrite (L (data a + 2 * s) z) by (eapply load_of_element; [exact E2|rewrite A; lia]). reflexivity.
Qed.

Lemma ct_code_ok ct : check_coord_type (ct_code ct) = Ok ct.
Proof. destruct ct; reflexivity. Qed.
Lemma mode_code_ok mode : check_sheval_mode (mode_code mode) = Ok mode.
Proof. destruct mode; reflexivity. Qed.

Lemma drop_last_app (ds l : list nat) n : length l = n -> drop_last n (ds ++ l) = ds.
Proof.
  intro H. unfold drop_last. rewrite app_length, H. replace (length ds + n - n)%nat with (length ds + 0)%nat by lia.
  rewrite firstn_app_2. cbn. apply app_nil_r.
Qed.

Lemma eff_fits csize deg : (0 <= csize < 2 ^ 50)%Z -> (0 <= size_to_degree csize)%Z ->
  (nterm_of (eff_degree csize deg) <= Z.to_nat csize)%nat.
Proof.
  intros Hc Hd. destruct (degree_largest csize Hc) as (_ & F & _).
  assert (E : (Z.of_nat (eff_degree csize deg) <= size_to_degree csize)%Z).
  { unfold eff_degree. destruct (Z.ltb_spec deg 0); cbn [orb]; [lia|].
    destruct (Z.ltb_spec (size_to_degree csize) deg); lia. }
  unfold nterm_of. set (e := eff_degree csize deg) in *.
  apply Nat.div_le_upper_bound; [lia|]. nia.
Qed.

Lemma prefix_refl (a : list nat) : prefix a a.
Proof. exists []. now rewrite app_nil_r. Qed.

(** whatever the strides are, the positions which are evaluated are three doubles at the address
    of the position *)
Lemma sheval_raw m bp bg junk x nx coef csize nc ci co mode internal deg sp scale sg mem :
  raw_positions m x nx -> coefficients m coef csize nc -> c_contiguous coef -> (Z.of_nat csize < 2 ^ 50)%Z ->
  scales m scale sg -> room m bp bg mode (longer (dims nx) (dims nc)) ->
  same_result mode m (sheval nx (Z.of_nat csize) nc ci co mode internal deg sp sg mem)
    (sheval_array m bp bg junk x coef (ct_code ci) (ct_code co) (mode_code mode) internal deg sp scale mem).
Proof.
  intros Hx Hcf Hcc Hsz Hsc Hr. unfold sheval, sheval_array.
  rewrite !ct_code_ok, mode_code_ok. cbn [bind].
  destruct Hx as ((n & Hxs) & Hxl & Hx). destruct Hcf as (Hcs & Hcl & Hcf).
  rewrite Hxs, Hcs, !app_length. cbn [length].
  destruct (Nat.ltb_spec (length (dims nx) + 1) 1); [lia|].
  destruct (Nat.ltb_spec (length (dims nc) + 2) 2); [lia|].
  replace (length (dims nc) + 2 - 2)%nat with (length (dims nc) + 0)%nat by lia.
  rewrite app_nth2_plus. cbn [nth].
  rewrite (drop_last_app (dims nx) [n] 1 eq_refl), (drop_last_app (dims nc) [csize; 2%nat] 2 eq_refl).
  set (md := size_to_degree (Z.of_nat csize)).
  destruct (Z.ltb_spec md 0) as [L0|L0]; [reflexivity|].
  destruct ((2147483647 <? md) && (deg <? 0)); [reflexivity|].
  cbv zeta.
  assert (Eo : (if Nat.ltb (length (dims nx)) (length (dims nc)) then dims nc else dims nx) = longer (dims nx) (dims nc)).
  { unfold longer. destruct (Nat.ltb_spec (length (dims nx)) (length (dims nc))), (Nat.leb_spec (length (dims nc)) (length (dims nx))); try reflexivity; lia. }
  rewrite Eo. set (od := longer (dims nx) (dims nc)) in *.
  destruct (compare_dimensions od (dims nx)) eqn:C1; [reflexivity|]. destruct (compare_dimensions od (dims nc)) eqn:C2; [reflexivity|].
  cbn [orb].
  assert (Ll : (length (dims nx) <= length od /\ length (dims nc) <= length od)%nat).
  { unfold od, longer. destruct (Nat.leb_spec (length (dims nc)) (length (dims nx))); lia. }
  apply compare_prefix in C1; [|apply Ll]. apply compare_prefix in C2; [|apply Ll].
  replace (last (dims nc ++ [csize; 2%nat]) 0%nat) with 2%nat.
  2: { change [csize; 2%nat] with ([csize] ++ [2%nat]). rewrite app_assoc, last_last. reflexivity. }
  cbn [Nat.eqb negb].
  pose proof (new_outputs_ok m bp bg junk mode od Hr) as NO.
  destruct (new_outputs m bp bg junk mode od) as [[m1 pot] grd]. destruct NO as (G1 & -> & ->).
  rewrite (scale_ok m scale sg m1 Hsc (proj1 G1)). cbn [bind].
  change (Z.to_nat (if (deg <? 0) || (md <? deg) then md else deg)) with (eff_degree (Z.of_nat csize) deg).
  pose proof (model_init_ok internal (eff_degree (Z.of_nat csize) deg) ci co sp sg mem) as M.
  assert (Ed : degree (fst (model_init internal (eff_degree (Z.of_nat csize) deg) ci co sp sg mem)) = eff_degree (Z.of_nat csize) deg).
  { unfold model_init. destruct mem as [[[[[? ?] ?] ?] ?] ?]. destruct sg as [[? ?] ?]. reflexivity. }
  destruct (model_init internal (eff_degree (Z.of_nat csize) deg) ci co sp sg mem) as [cfg st]. cbn [fst] in Ed. destruct M as (M1 & M2).
  pose proof (room_facts _ _ _ _ _ Hr) as (Fp & Fg & Fd).
  pose proof (finish m bp bg mode od Hr (state_ok cfg)
    (sheval_rec cfg mode od (pot_at mode (bp / 8) 0 od) (grd_at mode (bg / 8) 0 od) x (Rows coef))
    (fun st => Some (sheval_items cfg mode od nx nc st)) m1 st) as Fin.
  cbv beta iota in Fin.
  destruct (sheval_items cfg mode od nx nc st) as [out st']. cbn [fst].
  destruct Fin as (m' & st2 & E & O).
  - apply sim_sheval.
    + intros Hp k Hk. destruct (Fp Hp) as (_ & F). apply F. exact Hk.
    + intros Hg k Hk. destruct (Fg Hg) as (_ & F). apply F. lia.
    + exact Fd.
    + exact M1.
    + split; [now exists n|]. split; [exact Hxl|exact Hx].
    + rewrite Ed. apply (raw_of_coefficients m coef csize nc); [now split|exact Hcc|].
      rewrite <- (Nat2Z.id csize) at 2. apply eff_fits; [lia|exact L0].
    + exact C1.
    + exact C2.
    + lia.
  - exact G1.
  - exact M2.
  - rewrite E. cbn [bind]. exists m', (pot_at mode (bp / 8) 0 od), (grd_at mode (bg / 8) 0 od). split; [reflexivity|exact O].
Qed.

Lemma sheval_packed m bp bg junk x nx coef csize nc ci co mode internal deg sp scale sg mem :
  positions m x nx -> packed x -> coefficients m coef csize nc -> c_contiguous coef -> (Z.of_nat csize < 2 ^ 50)%Z ->
  scales m scale sg -> room m bp bg mode (longer (dims nx) (dims nc)) ->
  same_result mode m (sheval nx (Z.of_nat csize) nc ci co mode internal deg sp sg mem)
    (sheval_array m bp bg junk x coef (ct_code ci) (ct_code co) (mode_code mode) internal deg sp scale mem).
Proof. intros H1 H2. apply sheval_raw. now apply raw_of_positions. Qed.

Lemma common_prefix : forall a b, common_dims_match a b = true -> prefix a (longer a b) /\ prefix b (longer a b).
Proof.
  intros a b H. unfold longer.
  assert (G : forall a b, common_dims_match a b = true -> (length a <= length b)%nat -> prefix a b).
  { clear. induction a as [|x a IH]; intros [|y b] H L; cbn [length common_dims_match] in *; try lia.
    - exists []. reflexivity.
    - now exists (y :: b).
    - destruct (Nat.eqb_spec x y) as [->|]; [|discriminate]. destruct (IH b H ltac:(lia)) as (c & ->). now exists c. }
  assert (S : forall a b, common_dims_match a b = common_dims_match b a).
  { clear. induction a as [|x a IH]; intros [|y b]; cbn [common_dims_match]; try reflexivity.
    rewrite (Nat.eqb_sym x y). destruct (Nat.eqb y x); [apply IH|reflexivity]. }
  destruct (Nat.leb_spec (length b) (length a)).
  - split; [apply prefix_refl|]. rewrite S in H. now apply G.
  - split; [apply G; [exact H|lia]|apply prefix_refl].
Qed.

Lemma shevaltemp_packed m bp bg junk t nt x nx sets ci co mode internal sp scale sg mem :
  numbers m t nt -> positions m x nx -> packed x -> scales m scale sg -> room m bp bg mode (longer (dims nt) (dims nx)) ->
  same_result mode m (shevaltemp nt nx sets ci co mode internal sp sg mem)
    (shevaltemp_array m bp bg junk t x sets (ct_code ci) (ct_code co) (mode_code mode) internal sp scale mem).
Proof.
  intros Ht Hx Hp Hsc Hr. unfold shevaltemp, shevaltemp_array.
  rewrite !ct_code_ok, mode_code_ok. cbn [bind].
  destruct (length sets <? 1)%nat; [reflexivity|]. destruct (16 <? length sets)%nat; [reflexivity|].
  destruct (parse_coefsets sets) as [css|]; [|reflexivity]. cbv zeta.
  pose proof (raw_of_positions m x nx Hx Hp) as Hx'. pose proof (raw_of_numbers m t nt Ht) as Ht'.
  destruct Hx as (Hxs & Hxl & Hx). destruct Ht as (Hts & Htl & Ht).
  rewrite Hxs, Hts, app_length. cbn [length].
  destruct (Nat.ltb_spec (length (dims nx) + 1) 1); [lia|].
  rewrite last_last, (drop_last_app (dims nx) [3%nat] 1 eq_refl). cbn [Nat.eqb negb].
  destruct (common_dims_match (dims nt) (dims nx)) eqn:Cm; [|reflexivity]. cbn [negb].
  rewrite (scale_ok m scale sg m Hsc ltac:(auto)). cbn [bind].
  change (if (length (dims nx) <=? length (dims nt))%nat then dims nt else dims nx) with (longer (dims nt) (dims nx)).
  destruct (common_prefix _ _ Cm) as (C1 & C2).
  set (od := longer (dims nt) (dims nx)) in *.
  pose proof (new_outputs_ok m bp bg junk mode od Hr) as NO.
  destruct (new_outputs m bp bg junk mode od) as [[m1 pot] grd]. destruct NO as (G1 & -> & ->).
  set (dg := Z.to_nat (fold_left (fun d cs => Z.max d (cs_degree cs)) css 0)).
  pose proof (model_init_ok internal dg ci co sp sg mem) as M.
  destruct (model_init internal dg ci co sp sg mem) as [cfg st]. destruct M as (M1 & M2).
  pose proof (room_facts _ _ _ _ _ Hr) as (Fp & Fg & Fd).
  set (st0 := {| ts_coef := _; ts_time_last := _; ts_idx_last := _; ts_sh := _ |}).
  pose proof (finish m bp bg mode od Hr (fun st => state_ok cfg (ts_sh st))
    (shevaltemp_rec cfg (nterm_of dg) css mode (dims nt) od (pot_at mode (bp / 8) 0 od) (grd_at mode (bg / 8) 0 od) t x)
    (shevaltemp_items cfg (nterm_of dg) css mode (dims nt) od nt nx) m1 st0) as Fin.
  destruct (shevaltemp_items cfg (nterm_of dg) css mode (dims nt) od nt nx st0) as [[out st']|].
  - destruct Fin as (m' & st2 & E & O).
    + apply sim_shevaltemp; try assumption; try reflexivity.
      * intros Hp' k Hk. destruct (Fp Hp') as (_ & F). apply F. exact Hk.
      * intros Hg k Hk. destruct (Fg Hg) as (_ & F). apply F. lia.
    + exact G1.
    + exact M2.
    + rewrite E. cbn [bind]. exists m', (pot_at mode (bp / 8) 0 od), (grd_at mode (bg / 8) 0 od). split; [reflexivity|exact O].
  - cbn [same_result]. rewrite Fin; [reflexivity| |exact G1|exact M2].
    apply sim_shevaltemp; try assumption; try reflexivity.
    + intros Hp' k Hk. destruct (Fp Hp') as (_ & F). apply F. exact Hk.
    + intros Hg k Hk. destruct (Fg Hg) as (_ & F). apply F. lia.
Qed.

Lemma fs_longer a b c : fs_out_dims a b c = longer (longer a b) c.
Proof.
  unfold fs_out_dims, longer. cbv zeta.
  destruct (Nat.leb_spec (length b) (length a)).
  - destruct (Nat.leb_spec (length c) (length a)).
    + destruct (Nat.eqb_spec (length a) (Nat.max (Nat.max (length a) (length b)) (length c))); [reflexivity|lia].
    + destruct (Nat.eqb_spec (length a) (Nat.max (Nat.max (length a) (length b)) (length c))); [lia|].
      destruct (Nat.eqb_spec (length b) (Nat.max (Nat.max (length a) (length b)) (length c))); [lia|reflexivity].
  - destruct (Nat.eqb_spec (length a) (Nat.max (Nat.max (length a) (length b)) (length c))); [lia|].
    destruct (Nat.leb_spec (length c) (length b)).
    + destruct (Nat.eqb_spec (length b) (Nat.max (Nat.max (length a) (length b)) (length c))); [reflexivity|lia].
    + destruct (Nat.eqb_spec (length b) (Nat.max (Nat.max (length a) (length b)) (length c))); [lia|reflexivity].
Qed.

Lemma prefix_trans (a b c : list nat) : prefix a b -> prefix b c -> prefix a c.
Proof. intros (u & ->) (v & ->). exists (u ++ v). now rewrite app_assoc. Qed.

Lemma common3 a b c : common_dims_match a b = true -> common_dims_match a c = true -> common_dims_match b c = true ->
  let o := longer (longer a b) c in prefix a o /\ prefix b o /\ prefix c o.
Proof.
  intros H1 H2 H3 o. destruct (common_prefix a b H1) as (A1 & A2).
  assert (H4 : common_dims_match (longer a b) c = true) by (unfold longer; destruct (Nat.leb _ _); assumption).
  destruct (common_prefix _ _ H4) as (B1 & B2). fold o in B1, B2.
  split; [|split]; [now apply (prefix_trans _ (longer a b))..|exact B2].
Qed.

Lemma sheval2dfs_packed m bp bg junk t1 nt1 t2 nt2 x nx s ci co mode internal sp scale sg mem fmem :
  numbers m t1 nt1 -> numbers m t2 nt2 -> positions m x nx -> packed x -> scales m scale sg ->
  room m bp bg mode (longer (longer (dims nt1) (dims nt2)) (dims nx)) ->
  same_result mode m (sheval2dfs nt1 nt2 nx s ci co mode internal sp sg mem fmem)
    (sheval2dfs_array m bp bg junk t1 t2 x s (ct_code ci) (ct_code co) (mode_code mode) internal sp scale mem fmem).
Proof.
  intros Ht1 Ht2 Hx Hp Hsc Hr. unfold sheval2dfs, sheval2dfs_array.
  rewrite !ct_code_ok, mode_code_ok. cbn [bind]. cbv zeta.
  pose proof (raw_of_positions m x nx Hx Hp) as Hx'.
  pose proof (raw_of_numbers m t1 nt1 Ht1) as Ht1'. pose proof (raw_of_numbers m t2 nt2 Ht2) as Ht2'.
  destruct Hx as (Hxs & Hxl & Hx). destruct Ht1 as (Hts1 & Htl1 & Ht1). destruct Ht2 as (Hts2 & Htl2 & Ht2).
  rewrite Hxs, Hts1, Hts2, app_length. cbn [length].
  destruct (Nat.ltb_spec (length (dims nx) + 1) 1); [lia|].
  rewrite last_last, (drop_last_app (dims nx) [3%nat] 1 eq_refl). cbn [Nat.eqb negb].
  destruct (common_dims_match (dims nt1) (dims nt2)) eqn:K1; [|reflexivity].
  destruct (common_dims_match (dims nt1) (dims nx)) eqn:K2; [|reflexivity].
  destruct (common_dims_match (dims nt2) (dims nx)) eqn:K3; [|reflexivity]. cbn [negb].
  rewrite (scale_ok m scale sg m Hsc ltac:(auto)). cbn [bind]. rewrite fs_longer.
  destruct (common3 _ _ _ K1 K2 K3) as (C1 & C2 & C3).
  set (od := longer (longer (dims nt1) (dims nt2)) (dims nx)) in *.
  pose proof (new_outputs_ok m bp bg junk mode od Hr) as NO.
  destruct (new_outputs m bp bg junk mode od) as [[m1 pot] grd]. destruct NO as (G1 & -> & ->).
  set (fc := match f2d_coefset_parse s with Some fc => fc | None => _ end).
  set (f2d := match f2d_coefset_parse s with Some _ => _ | None => null_f2d fmem end).
  set (dg := Z.to_nat (fc_degree fc)).
  pose proof (model_init_ok internal dg ci co sp sg mem) as M.
  destruct (model_init internal dg ci co sp sg mem) as [cfg st]. destruct M as (M1 & M2).
  pose proof (room_facts _ _ _ _ _ Hr) as (Fp & Fg & Fd).
  set (st0 := {| fst_coef := _; fst_last1 := _; fst_last2 := _; fst_f2d := _; fst_sh := _ |}).
  set (fuel := Nat.max (length (dims nt1)) (length (dims nt2))).
  pose proof (finish m bp bg mode od Hr (fun st => state_ok cfg (fst_sh st))
    (sheval2dfs_rec cfg (nterm_of dg) (fc_rows fc) mode fuel od (pot_at mode (bp / 8) 0 od) (grd_at mode (bg / 8) 0 od) t1 t2 x)
    (sheval2dfs_items cfg (nterm_of dg) (fc_rows fc) mode fuel od nt1 nt2 nx) m1 st0) as Fin.
  assert (Sim : sim m mode (bp / 8) (bg / 8) (size od) (fun st => state_ok cfg (fst_sh st)) (size od) 0
    (sheval2dfs_rec cfg (nterm_of dg) (fc_rows fc) mode fuel od (pot_at mode (bp / 8) 0 od) (grd_at mode (bg / 8) 0 od) t1 t2 x)
    (sheval2dfs_items cfg (nterm_of dg) (fc_rows fc) mode fuel od nt1 nt2 nx)).
  { apply sim_sheval2dfs; try assumption; try reflexivity.
    - intros Hp' k Hk. destruct (Fp Hp') as (_ & F). apply F. exact Hk.
    - intros Hg k Hk. destruct (Fg Hg) as (_ & F). apply F. lia. }
  specialize (Fin Sim G1 M2).
  destruct (sheval2dfs_items cfg (nterm_of dg) (fc_rows fc) mode fuel od nt1 nt2 nx st0) as [[out st']|].
  - destruct Fin as (m' & st2 & E & O). rewrite E. cbn [bind].
    destruct (f2d_coefset_parse s); [|reflexivity].
    exists m', (pot_at mode (bp / 8) 0 od), (grd_at mode (bg / 8) 0 od). split; [reflexivity|exact O].
  - rewrite Fin. reflexivity.
Qed.
