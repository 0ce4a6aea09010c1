(** Without influence of the pledge (a0 = 0) the choice between the first three reward schemes makes no difference (C87). *)
From Coq Require Import ZArith QArith Qcanon List Bool Arith Lia.
From Verif Require Import Num Py QcTac Rewards RewardFacts SortedKeyList World Stakeholder Helper Sched Sim Init Reach ListFacts SimInv PropSched PropInit PropRewards PropMove PropPhase ExactInv PropReporters PropMain PropIncome PropDocs PropSchemes SameRewards Demo.
Import ListNotations.
Open Scope Qc_scope.

(** ** Specification: the same in everything except the name of the reward scheme *)
Definition differ_in_scheme (w w' : world QcA) : Prop := exists c, w' = with_rss (with_scheme c (w_rss w)) w.
Record same_results (s s' : sim QcA) : Prop := {
  sr_conf : s_c s' = s_c s;  sr_n : s_n s' = s_n s;  sr_maxit : s_maxit s' = s_maxit s;  sr_order : s_order s' = s_order s;  sr_graphs : s_graphs s' = s_graphs s;
  sr_steps : s_steps s' = s_steps s;  sr_cons : s_cons s' = s_cons s;  sr_phase : s_phase s' = s_phase s;  sr_eq : s_eq s' = s_eq s;  sr_piv : s_piv s' = s_piv s;  sr_running : s_running s' = s_running s;
  (* the state, what the data collector saw in every round, and what is exported at the end *)
  sr_world : differ_in_scheme (s_w s) (s_w s');
  sr_rows : Forall2 (fun x y => fst y = fst x /\ differ_in_scheme (snd x) (snd y)) (s_rows s) (s_rows s');
  sr_out : Forall2 (fun x y => f_converged y = f_converged x /\ differ_in_scheme (f_world x) (f_world y)) (s_out s) (s_out s')
}.
(** the same command line with another number of a reward scheme *)
Definition choose_scheme (i : Z) (g : args QcA) : args QcA :=
  mkArgs (A := QcA) (g_n g) (g_k g) (g_a0 g) (g_rel g) (g_abs g) (g_maxit g) (g_phi g) (g_order g) (g_graphs g) i (g_inactive g) (g_known g) (g_itac g).

(** ** the replacement of the scheme *)
Definition plain (r : rss QcA) : bool := match r_scheme r with CIP50 => false | _ => Qc_eqb (r_a0 r) 0 && Qc_ltb 0 (r_thr r) end.
Definition rename (c : scheme) (r : rss QcA) : rss QcA := if plain r then with_scheme c r else r.

Section Rename.
  Variable c : scheme.
  Hypothesis c_ok : c <> CIP50.
  Lemma plain_spec r : plain r = true <-> r_scheme r <> CIP50 /\ r_a0 r = 0 /\ 0 < r_thr r.
  Proof.
    unfold plain. split.
    - intros H. destruct (r_scheme r); try discriminate; (apply andb_true_iff in H as [H1 H2]; split; [discriminate|]; split; [now destruct (Qc_eqb_spec (r_a0 r) 0) | now destruct (Qc_ltb_spec 0 (r_thr r))]).
    - intros (H1 & H2 & H3). assert (E1 : Qc_eqb (r_a0 r) 0 = true) by (destruct (Qc_eqb_spec (r_a0 r) 0); [reflexivity | contradiction]). assert (E2 : Qc_ltb 0 (r_thr r) = true) by (destruct (Qc_ltb_spec 0 (r_thr r)); [reflexivity | contradiction]). rewrite E1, E2. destruct (r_scheme r); try reflexivity. contradiction.
  Qed.
  Lemma rename_k r : r_k (rename c r) = r_k r.  Proof. unfold rename. now destruct (plain r). Qed.
  Lemma rename_thr r : r_thr (rename c r) = r_thr r.  Proof. unfold rename. now destruct (plain r). Qed.
  Lemma rename_threshold r (p : Qc) : pool_threshold (rename c r) p = pool_threshold r p.
  Proof. unfold rename. destruct (plain r) eqn:E; [|reflexivity]. apply plain_spec in E as (E & _). unfold pool_threshold. cbn [r_scheme with_scheme]. destruct c, (r_scheme r); congruence || reflexivity. Qed.
  Lemma flat_reward (r : rss QcA) (p s : Qc) : r_scheme r <> CIP50 -> r_a0 r = 0 -> 0 < r_thr r -> reward r p s = Qcmin s (r_thr r).
  Proof.
    intros H1 H2 H3. unfold reward. rewrite H2. assert (r_thr r <> 0) by qlra. set (b := r_thr r) in *. set (p' := Qcmin p b). set (s' := Qcmin s b). clearbody p' s'. change (T QcA) with Qc in *. assert (1 + 0 <> 0) by discriminate.
    destruct (r_scheme r); [| | |contradiction]; unfold f_cardano, f_simplified, f_flat; field; auto.
  Qed.
  Lemma rename_reward r (p s : Qc) : pool_reward (rename c r) p s = pool_reward r p s.
  Proof.
    unfold rename. destruct (plain r) eqn:E; [|reflexivity]. apply plain_spec in E as (E1 & E2 & E3). assert (R : rss_ok r) by (split; [assumption|]; rewrite E2; apply Qcle_refl). rewrite !pool_reward_ok by (assumption || (now apply with_scheme_ok)). f_equal. rewrite !flat_reward by assumption. reflexivity.
  Qed.

  Definition plainly (r : rss QcA) : Prop := plain r = true.
  Definition okv (v : setting QcA) : Prop := match v with SetK x => 0 < x | SetA0 x => x = 0 | _ => True end.
  Lemma rename_plain r  : plainly r -> rename c r = with_scheme c r.
  Proof. unfold plainly, rename. now intros ->. Qed.
  Lemma plain_k r (x : Qc) r'  : plainly r -> okv (SetK (A := QcA) x) -> set_k (A := QcA) r x = Ok r' -> plainly r'.
  Proof.
    unfold plainly. intros H Hx E. apply plain_spec in H as (H1 & H2 & H3). cbn in Hx. unfold set_k in E. change (@eqb QcA) with Qc_eqb in E. change (@zero QcA) with 0 in E. destruct (Qc_eqb_spec x 0); [discriminate|]. rewrite pdiv_ok in E by assumption. cbn [bind] in E. apply Ok_inj in E. subst r'. apply plain_spec. cbn [r_scheme r_a0 r_thr]. split; [assumption|]. split; [assumption|]. apply Qcdiv_pos; [reflexivity | assumption].
  Qed.
  Lemma with_k r x : set_k (A := QcA) (with_scheme c r) x = let! r' := set_k (A := QcA) r x in Ok (with_scheme c r').
  Proof. unfold set_k. destruct (eqb x zero); [reflexivity|]. destruct (pdiv _ x); reflexivity. Qed.
  Lemma same_k_rename r (x : Qc)  : plainly r -> okv (SetK (A := QcA) x) -> set_k (A := QcA) (rename c r) x = let! r' := set_k (A := QcA) r x in Ok (rename c r').
  Proof. intros H Hx. rewrite rename_plain by assumption. rewrite with_k. destruct (set_k (A := QcA) r x) as [r'|] eqn:E; [|reflexivity]. cbn [bind]. now rewrite rename_plain by (now apply (plain_k r x)). Qed.
  Lemma plain_a0 r (x : Qc)  : plainly r -> okv (SetA0 (A := QcA) x) -> plainly (set_a0 (A := QcA) r x).
  Proof. unfold plainly. intros H Hx. cbn in Hx. subst x. apply plain_spec in H as (H1 & _ & H3). apply plain_spec. now repeat split. Qed.
  Lemma same_a0_rename r (x : Qc)  : plainly r -> okv (SetA0 (A := QcA) x) -> set_a0 (A := QcA) (rename c r) x = rename c (set_a0 (A := QcA) r x).
  Proof. intros H Hx. rewrite !rename_plain by (assumption || now apply plain_a0). reflexivity. Qed.

  Lemma renamed_run so ch s : ok_sim QcA plainly okv s -> run_model so ch (sws QcA (rename c) s) = lifts QcA (rename c) (run_model so ch s).
  Proof. intros H. apply (sws_run_model QcA so (rename c) rename_k rename_thr rename_threshold rename_reward plainly okv plain_k same_k_rename plain_a0 same_a0_rename). exact H. Qed.
  Lemma renamed_world w : differ_in_scheme w (sw QcA (rename c) w).
  Proof. unfold differ_in_scheme, sw, rename. destruct (plain (w_rss w)); [now exists c|]. exists (r_scheme (w_rss w)). destruct w as [[? ? ? ?]]. reflexivity. Qed.
  Lemma renamed_results s : same_results s (sws QcA (rename c) s).
  Proof.
    constructor; try reflexivity; [apply renamed_world | |].
    - cbn [s_rows sws]. induction (s_rows s) as [|x l IH]; constructor; [|assumption]. split; [reflexivity | apply renamed_world].
    - cbn [s_out sws]. induction (s_out s) as [|x l IH]; constructor; [|assumption]. split; [reflexivity | apply renamed_world].
  Qed.

  (** the constructor *)
  Lemma field_with s f : set_field (A := QcA) (sws QcA (with_scheme c) s) f = lifts QcA (with_scheme c) (set_field s f).
  Proof.
    assert (K : forall r (x : Qc), True -> (fun _ : setting QcA => True) (SetK (A := QcA) x) -> set_k (A := QcA) (with_scheme c r) x = let! r' := set_k (A := QcA) r x in Ok (with_scheme c r')) by (intros; apply with_k).
    assert (S : forall v s, apply_setting v (sws QcA (with_scheme c) s) = lifts QcA (with_scheme c) (apply_setting v s)) by (intros v x; apply (sws_setting QcA (with_scheme c) (fun _ => True) (fun _ => True)); auto; intros; apply with_k).
    destruct f as [v|l]; cbn [set_field]; [apply S|]. destruct (py_index l 0) as [v|]; [|reflexivity]. cbn [bind]. rewrite S. destruct (apply_setting v s); reflexivity.
  Qed.
  Lemma fields_with l s : foldM set_field l (sws QcA (with_scheme c) s) = lifts QcA (with_scheme c) (foldM (set_field (A := QcA)) l s).
  Proof. revert s. induction l as [|f l IH]; intros s; [reflexivity|]. cbn [foldM]. rewrite field_with. destruct (set_field s f); [apply IH | reflexivity]. Qed.
End Rename.

Definition scheme_of (i : Z) : scheme := match i with 0%Z => Cardano | 1%Z => Simplified | _ => Flat end.
Definition one_of_three (i : Z) : Prop := i = 0%Z \/ i = 1%Z \/ i = 2%Z.
Lemma scheme_of_ok i : scheme_of i <> CIP50.  Proof. unfold scheme_of. destruct i as [|[p|p|]|]; discriminate. Qed.
Lemma make_three i j : one_of_three i -> one_of_three j -> make_rss (A := QcA) j = let! r := make_rss (A := QcA) i in Ok (with_scheme (scheme_of j) r).
Proof. intros [->|[->| ->]] [->|[->| ->]]; reflexivity. Qed.
Lemma init_with (g : args QcA) profiles (stakes costs : list Qc) j : one_of_three (g_scheme g) -> one_of_three j ->
  init (choose_scheme j g) profiles stakes costs = lifts QcA (with_scheme (scheme_of j)) (init g profiles stakes costs).
Proof.
  intros Hi Hj. unfold init. cbn [g_scheme choose_scheme g_known g_inactive g_itac]. rewrite (make_three _ _ Hi Hj). destruct (make_rss (A := QcA) (g_scheme g)) as [r0|]; [|reflexivity]. cbn [bind].
  change (blank (with_scheme (scheme_of j) r0)) with (sws QcA (with_scheme (scheme_of j)) (blank r0)). change (fields (choose_scheme j g)) with (fields g). rewrite fields_with. destruct (foldM set_field (fields g) (blank r0)) as [s1|]; [|reflexivity]. cbn [bind lifts].
  set (c := scheme_of j).
  assert (E : (if g_known g then let! k' := pdiv (ofZ (r_k (w_rss (s_w (sws QcA (with_scheme c) s1))))) (sub one (g_inactive g)) in set_k (w_rss (s_w (sws QcA (with_scheme c) s1))) k' else Ok (w_rss (s_w (sws QcA (with_scheme c) s1)))) =
    let! r1 := (if g_known g then let! k' := pdiv (ofZ (r_k (w_rss (s_w s1)))) (sub one (g_inactive g)) in set_k (w_rss (s_w s1)) k' else Ok (w_rss (s_w s1))) in Ok (with_scheme c r1)).
  { destruct (g_known g); [|reflexivity]. cbn [s_w sws sw with_rss w_rss r_k with_scheme]. destruct (pdiv _ _) as [k'|]; [|reflexivity]. cbn [bind]. apply with_k. }
  rewrite E. match goal with |- bind (bind ?m _) _ = _ => destruct m as [r1|]; [|reflexivity] end. cbn [bind]. cbn [s_n sws s_w].
  match goal with |- bind ?m _ = _ => destruct m as [ags|]; [|reflexivity] end. cbn [bind].
  match goal with |- bind ?m _ = _ => destruct m as [tot|]; [|reflexivity] end. cbn [bind]. match goal with |- (if ?b then _ else _) = _ => destruct b; [reflexivity|] end.
  match goal with |- bind ?m _ = _ => destruct m as [[ags' tot']|]; [|reflexivity] end. reflexivity.
Qed.

(** ** C87 *)
Definition whole_run so ch (g : args QcA) profiles (stakes costs : list Qc) : res (sim QcA) := let! s0 := init g profiles stakes costs in run_model so ch s0.

Theorem C87_scheme_is_irrelevant_without_a0 : forall so ch (g : args QcA) profiles (stakes costs : list Qc) i, one_of_three (g_scheme g) -> one_of_three i ->
  g_inactive g < 1 -> (forall k : Qc, In k (phase_values (g_k g)) -> 0 < k) -> (forall a0 : Qc, In a0 (phase_values (g_a0 g)) -> a0 = 0) ->
  match whole_run so ch g profiles stakes costs, whole_run so ch (choose_scheme i g) profiles stakes costs with
  | Ok s, Ok s' => same_results s s' /\ r_scheme (w_rss (s_w s')) = scheme_of i
  | Err e, Err e' => e = e'
  | _, _ => False
  end.
Proof.
  intros so ch g profiles stakes costs i Hg Hi Hf Hk Ha. unfold whole_run. rewrite init_with by assumption. destruct (init g profiles stakes costs) as [s0|e] eqn:E0; [|reflexivity]. cbn [bind lifts]. set (c := scheme_of i).
  assert (I0 : plainly (w_rss (s_w s0))).
  { apply plain_spec. split; [|split].
    - intros E. assert (R := cip50_scheme g profiles stakes costs s0 E0 E). rewrite R in Hg. destruct Hg as [G|[G|G]]; discriminate.
    - apply Ha. exact (visible_a0 so g profiles stakes costs s0 _ E0 (vis_between QcA so s0 s0 (reach_start QcA so s0))).
    - now apply (init_threshold g profiles stakes costs). }
  assert (F := init_fresh _ _ _ _ _ E0).
  assert (M : forall X (f : X -> setting QcA) (p : pv X) (l : list (setting QcA)), Multi l = pv_map f p -> forall v, In v l -> exists x, v = f x /\ In x (phase_values p)).
  { intros X f p l E v Hv. destruct p as [x|xs]; cbn [pv_map] in E; [discriminate|]. injection E as E. subst l. apply in_map_iff in Hv as (x & <- & Hx). now exists x. }
  assert (O : ok_sim QcA plainly okv s0).
  { split; [exact I0|]. apply Forall_forall. intros l Hl. apply Forall_forall. intros v Hv. apply (fs_multi _ _ _ _ _ F) in Hl. unfold fields in Hl. cbn [In] in Hl.
    destruct Hl as [E|[E|[E|[E|[E|[E|[E|[E|[E|[]]]]]]]]]]; symmetry in E; destruct (M _ _ _ _ E v Hv) as (x & -> & Hx); cbn [okv]; auto. }
  assert (S : sws QcA (with_scheme c) s0 = sws QcA (rename c) s0).
  { destruct (fs_start _ _ _ _ _ F) as (_ & _ & _ & _ & _ & _ & Er & Eo & _). unfold sws, sw. rewrite (rename_plain c _ I0), Er, Eo. reflexivity. }
  assert (E0' : init (choose_scheme i g) profiles stakes costs = Ok (sws QcA (with_scheme c) s0)) by (rewrite init_with by assumption; rewrite E0; reflexivity).
  assert (R : forall s', run_model so ch (sws QcA (with_scheme c) s0) = Ok s' -> r_scheme (w_rss (s_w s')) = c).
  { intros s' H. assert (F' := init_fresh _ _ _ _ _ E0'). apply (run_model_reach so ch _ _ (fs_idseq _ _ _ _ _ F')) in H. now rewrite (reach_scheme so _ _ _ _ _ _ E0' H). }
  destruct (run_model so ch (sws QcA (with_scheme c) s0)) as [s'|e'] eqn:E1.
  - specialize (R s' eq_refl). rewrite S, (renamed_run c (scheme_of_ok i) so ch s0 O) in E1. destruct (run_model so ch s0) as [s|e]; [|discriminate]. apply Ok_inj in E1. split; [subst s'; apply renamed_results | exact R].
  - rewrite S, (renamed_run c (scheme_of_ok i) so ch s0 O) in E1. destruct (run_model so ch s0) as [s|e]; [discriminate|]. cbn [lifts] in E1. now injection E1.
Qed.

(** ** The hypotheses are met, and a0 = 0 cannot be dropped *)
Definition pledge_args (a0 : Qc) : args QcA :=
  mkArgs (A := QcA) (Single 4%Z) (Single (Q2Qc 2)) (Single a0) (Single 0) (Single (Q2Qc (1#1000000))) (Single 100%Z) (Single (Q2Qc 2)) (Single Sequential) (Single true) 0 0 false 2.
Notation demo_run g := (whole_run so_id (fun _ => no_choice) g demo_profiles demo_stakes demo_costs).
Definition margin_is (id : nat) (x : Qc) (s : sim QcA) : bool := match get (w_heap (s_w s)) id with Some p => Qc_eqb (p_margin (A := QcA) p) x | None => false end.
Lemma run_check (m : res (sim QcA)) (c : sim QcA -> bool) : match m with Ok s => c s | Err _ => false end = true -> exists s, m = Ok s /\ c s = true.
Proof. destruct m as [s|]; [|discriminate]. intros H. now exists s. Qed.

Example C87_instance : exists s, demo_run (pledge_args 0) = Ok s /\ s_steps s = 4%nat /\ s_running s = false /\ margin_is 7 (Q2Qc (48499 # 248500)) s = true /\
  one_of_three (g_scheme (pledge_args 0)) /\ g_inactive (pledge_args 0) < 1 /\ (forall k : Qc, In k (phase_values (g_k (pledge_args 0))) -> 0 < k) /\ (forall a0 : Qc, In a0 (phase_values (g_a0 (pledge_args 0))) -> a0 = 0).
Proof.
  destruct (run_check (demo_run (pledge_args 0)) (fun s => Nat.eqb (s_steps s) 4 && negb (s_running s) && margin_is 7 (Q2Qc (48499 # 248500)) s)) as (s & E & H); [vm_compute; reflexivity|].
  apply andb_true_iff in H as [H H3]. apply andb_true_iff in H as [H1 H2]. exists s. split; [exact E|]. split; [now apply Nat.eqb_eq|]. split; [now apply negb_true_iff|]. split; [exact H3|].
  split; [now left|]. split; [reflexivity|]. split; cbn; intros x [<-|[]]; reflexivity.
Qed.
Theorem C87_scheme_matters_with_a0 : exists s s', demo_run (pledge_args (Q2Qc (1#2))) = Ok s /\ demo_run (choose_scheme 2 (pledge_args (Q2Qc (1#2)))) = Ok s' /\ ~ same_results s s'.
Proof.
  destruct (run_check (demo_run (pledge_args (Q2Qc (1#2)))) (margin_is 6 (Q2Qc (517997 # 518000)))) as (s & E & H); [vm_compute; reflexivity|].
  destruct (run_check (demo_run (choose_scheme 2 (pledge_args (Q2Qc (1#2))))) (margin_is 6 (Q2Qc (545497 # 545500)))) as (s' & E' & H'); [vm_compute; reflexivity|].
  exists s, s'. split; [exact E|]. split; [exact E'|]. intros [_ _ _ _ _ _ _ _ _ _ _ [c W] _ _]. clear E E'. unfold margin_is in H, H'. rewrite W in H'. change (w_heap (with_rss (with_scheme c (w_rss (s_w s))) (s_w s))) with (w_heap (s_w s)) in H'.
  destruct (get (w_heap (s_w s)) 6) as [p|]; [|discriminate]. destruct (Qc_eqb_spec (p_margin (A := QcA) p) (Q2Qc (517997 # 518000))) as [X|]; [|discriminate]. rewrite X in H'. vm_compute in H'. discriminate.
Qed.
