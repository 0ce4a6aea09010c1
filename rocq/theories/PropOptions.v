(** The options of the command line (C68). *)
From Coq Require Import String.
From Coq Require Import ZArith QArith Qcanon List Bool Lia.
From Verif Require Import Num Py QcTac Rewards SortedKeyList World Stakeholder Helper Sched Sim Init ListFacts Reporters Export Main.
Import ListNotations.
Open Scope Qc_scope.

Lemma Ok_inj {X} (a b : X) : Ok a = Ok b -> a = b.
Proof. congruence. Qed.
Lemma bind_intro {X Y} {m : res X} {x} {k : X -> res Y} {r} : m = Ok x -> k x = r -> bind m k = r.
Proof. intros ->. exact (fun H => H). Qed.
(** [y] is the default if the option [o] was left out, and otherwise a value that the text after the option stands for *)
Definition left_out_or {X Y} (o : option X) (default : Y) (stands_for : X -> Y -> Prop) (y : Y) : Prop := match o with None => y = default | Some x => stands_for x y end.
(** int(v) = z *)
Notation is_int v z := (py_int (A := QcA) v = Ok z).
Definition natural (v : pyval QcA) (z : Z) : Prop := is_int v z /\ (0 < z)%Z.
Definition non_negative (x y : Qc) : Prop := y = x /\ 0 <= x.

(** What a command line stands for: docs/configuration.md, except for the default of --metrics; each value within the stated range is used as it is *)
Record stands_for (o : cmdline QcA) (ac : accepted QcA) : Prop := mkStands {
  so_n : exists n, g_n (ac_args ac) = Single n /\ left_out_or (o_n o) 1000%Z natural n;
  so_k : left_out_or (o_k o) (Single (Q2Qc 100)) (fun vs ks => exists zs, vs <> [] /\ Forall2 natural vs zs /\ ks = Multi (map Qc_ofZ zs)) (g_k (ac_args ac));
  so_a0 : left_out_or (o_a0 o) (Single (Q2Qc (3#10))) (fun xs ys => xs <> [] /\ (forall x : Qc, In x xs -> 0 <= x) /\ ys = Multi xs) (g_a0 (ac_args ac));
  so_scheme : left_out_or (o_scheme o) 0%Z (fun z s => s = z /\ (0 <= z <= 4)%Z) (g_scheme (ac_args ac));
  so_weights : left_out_or (o_weights o) [1; 0; 0] (fun xs ys => length xs = 3%nat /\ (forall x : Qc, In x xs -> 0 <= x) /\ ys = xs) (ac_weights ac);
  so_cost_min : left_out_or (o_cost_min o) (Q2Qc (1#100000)) non_negative (ac_cost_min ac);
  so_cost_max : left_out_or (o_cost_max o) (Q2Qc (1#10000)) non_negative (ac_cost_max ac);
  so_phi : exists x : Qc, g_phi (ac_args ac) = Single x /\ left_out_or (o_phi o) (Q2Qc (4#10)) non_negative x;
  so_order : exists x, g_order (ac_args ac) = Single x /\ left_out_or (o_order o) Random (fun x y => y = x) x;
  so_abs : exists x : Qc, g_abs (ac_args ac) = Single x /\ left_out_or (o_abs o) (Q2Qc (1#1000000000)) non_negative x;
  so_rel : exists x : Qc, g_rel (ac_args ac) = Single x /\ left_out_or (o_rel o) 0 non_negative x;
  so_source : left_out_or (o_source o) FromPareto (fun x y => y = x) (ac_source ac);
  so_pareto : left_out_or (o_pareto o) (Q2Qc 2) (fun (x y : Qc) => y = x /\ 0 < x) (ac_pareto ac);
  so_inactive : left_out_or (o_inactive o) 0 (fun (x y : Qc) => y = x /\ 0 <= x /\ x <= 1) (g_inactive (ac_args ac));
  so_known : g_known (ac_args ac) = o_known o;
  so_itac : left_out_or (o_itac o) 10%Z (fun x y => y = x) (g_itac (ac_args ac));
  so_maxit : exists m, g_maxit (ac_args ac) = Single m /\ left_out_or (o_maxit o) 2000%Z natural m;
  so_metrics : left_out_or (o_metrics o) [1; 2; 6; 9; 17; 18; 25]%Z (fun l l' => l <> [] /\ (forall i, In i l -> (1 <= i <= 30)%Z) /\ l' = l) (ac_metrics ac);
  so_graphs : g_graphs (ac_args ac) = Single (o_graphs o);
  so_seed : left_out_or (o_seed o) None (fun v z => exists s, is_int v s /\ (0 <= s)%Z /\ z = Some s) (ac_seed ac)
}.

Lemma optional_iff {X Y} (o : option X) (t : X -> res Y) (d : Y) (P : X -> Y -> Prop) : (forall x y, t x = Ok y <-> P x y) -> forall y, optional o t d = Ok y <-> left_out_or o d P y.
Proof. intros H y. destruct o as [x|]; cbn; [apply H|]. split; [intros E; apply Ok_inj in E; congruence | intros ->; reflexivity]. Qed.
Lemma positive_int_iff (v : pyval QcA) z : positive_int v = Ok z <-> natural v z.
Proof.
  unfold positive_int, natural. split.
  - intros H. apply bind_ok in H as (i & E & H). destruct (Z.leb_spec i 0); [discriminate|]. apply Ok_inj in H. subst. auto.
  - intros (E & H). rewrite E. cbn [bind]. destruct (Z.leb_spec z 0); [lia | reflexivity].
Qed.
Lemma nnf_iff (x y : Qc) : non_negative_float (A := QcA) x = Ok y <-> non_negative x y.
Proof.
  unfold non_negative_float, non_negative. change (ltb (a := QcA)) with Qc_ltb. change (@zero QcA) with 0. destruct (Qc_ltb_spec x 0) as [L|L].
  - split; [discriminate|]. intros [_ H]. exfalso. revert L. now apply Qcle_not_lt.
  - split; [intros H; apply Ok_inj in H; split; [congruence | now apply Qcnot_lt_le] | intros [-> _]; reflexivity].
Qed.
Lemma pf_iff (x y : Qc) : positive_float (A := QcA) x = Ok y <-> y = x /\ 0 < x.
Proof.
  unfold positive_float. change (leb (a := QcA)) with Qc_leb. change (@zero QcA) with 0. destruct (Qc_leb_spec x 0) as [L|L].
  - split; [discriminate|]. intros [_ H]. exfalso. revert H. now apply Qcle_not_lt.
  - split; [intros H; apply Ok_inj in H; split; [congruence | now apply Qcnot_le_lt] | intros [-> _]; reflexivity].
Qed.
Lemma fraction_iff (x y : Qc) : fraction (A := QcA) x = Ok y <-> y = x /\ 0 <= x /\ x <= 1.
Proof.
  unfold fraction. change (ltb (a := QcA)) with Qc_ltb. change (@zero QcA) with 0. change (@one QcA) with 1. destruct (Qc_ltb_spec x 0) as [L|L]; cbn [orb].
  - split; [discriminate|]. intros (_ & H & _). exfalso. revert L. now apply Qcle_not_lt.
  - destruct (Qc_ltb_spec 1 x) as [L'|L'].
    + split; [discriminate|]. intros (_ & _ & H). exfalso. revert L'. now apply Qcle_not_lt.
    + split; [intros H; apply Ok_inj in H; split; [congruence | split; now apply Qcnot_lt_le] | intros [-> _]; reflexivity].
Qed.
Lemma between_iff a b x y : between a b x = Ok y <-> y = x /\ (a <= x < b)%Z.
Proof.
  unfold between. destruct (Z.leb_spec a x), (Z.ltb_spec x b); cbn [andb];
    solve [split; [discriminate | intros [-> ?]; lia] | split; [intros E; apply Ok_inj in E; split; [congruence | lia] | intros [-> ?]; reflexivity]].
Qed.
Lemma mapM_iff {X Y} (t : X -> res Y) (P : X -> Y -> Prop) : (forall x y, t x = Ok y <-> P x y) -> forall l l', mapM t l = Ok l' <-> Forall2 P l l'.
Proof.
  intros H l. induction l as [|x l IH]; intros l'; cbn [mapM].
  - split; [intros E; apply Ok_inj in E; subst; constructor | intros F; inversion F; reflexivity].
  - split.
    + intros E. apply bind_ok in E as (y & E1 & E). apply bind_ok in E as (ys & E2 & E). apply Ok_inj in E. subst l'. constructor; [now apply H | now apply IH].
    + intros F. inversion F as [|? y ? ys F1 F2]; subst. apply H in F1. apply IH in F2. rewrite F1. cbn [bind]. rewrite F2. reflexivity.
Qed.
Lemma Forall2_same {X} (P : X -> Prop) (l l' : list X) : Forall2 (fun x y => y = x /\ P x) l l' <-> (forall x, In x l -> P x) /\ l' = l.
Proof.
  split.
  - intros F. induction F as [|x y l l' [-> H] F [IH1 IH2]]; [split; [intros ? [] | reflexivity]|]. split; [intros z [<-|J]; auto | now f_equal].
  - intros [H ->]. induction l as [|x l IH]; constructor; [split; [reflexivity | apply H; now left] | apply IH; intros; apply H; now right].
Qed.
Lemma several_iff {X Y} (o : option (list X)) (t : X -> res Y) (d : Y) (P : X -> Y -> Prop) : (forall x y, t x = Ok y <-> P x y) ->
  forall p, several o t d = Ok p <-> left_out_or o (Single d) (fun l p => l <> [] /\ exists l', Forall2 P l l' /\ p = Multi l') p.
Proof.
  intros H p. destruct o as [[|x l]|]; cbn [several left_out_or].
  - split; [discriminate | intros [N _]; congruence].
  - split.
    + intros E. apply bind_ok in E as (ys & E & E'). apply Ok_inj in E'. apply (mapM_iff t P H) in E. split; [discriminate | eauto].
    + intros (_ & l' & F & ->). apply (mapM_iff t P H) in F. rewrite F. reflexivity.
  - split; [intros E; apply Ok_inj in E; congruence | intros ->; reflexivity].
Qed.
Lemma left_out_iff {X Y} (o : option X) (d : Y) (P Q : X -> Y -> Prop) y : (forall x y, P x y <-> Q x y) -> left_out_or o d P y <-> left_out_or o d Q y.
Proof. intros H. destruct o; cbn; [apply H | tauto]. Qed.
Lemma k_iff (o : option (list (pyval QcA))) p : several o (fun v => let! z := positive_int v in Ok (ofZ (a := QcA) z)) (ofZ (a := QcA) 100) = Ok p <->
  left_out_or o (Single (Q2Qc 100)) (fun vs ks => exists zs, vs <> [] /\ Forall2 natural vs zs /\ ks = Multi (map Qc_ofZ zs)) p.
Proof.
  rewrite (several_iff _ _ _ (fun v k => exists z, natural v z /\ k = Qc_ofZ z)).
  2:{ intros v y. split; [intros E; apply bind_ok in E as (z & E & E'); apply Ok_inj in E'; apply positive_int_iff in E; eauto | intros (z & E & ->); apply positive_int_iff in E; rewrite E; reflexivity]. }
  change (ofZ (a := QcA) 100) with (Q2Qc 100). apply left_out_iff. intros vs ks. split.
  - intros (N & l' & F & ->). assert (exists zs, Forall2 natural vs zs /\ l' = map Qc_ofZ zs) as (zs & F1 & ->). { clear N. induction F as [|v y vs l' (z & E & ->) F (zs & I1 & ->)]; [exists []; split; constructor|]. exists (z :: zs). split; [now constructor | reflexivity]. } eauto.
  - intros (zs & N & F & ->). split; [assumption|]. eexists. split; [|reflexivity]. clear N. induction F; constructor; eauto.
Qed.
Lemma metrics_iff (o : option (list Z)) l : match o with None => Ok [1; 2; 6; 9; 17; 18; 25]%Z | Some [] => Err ArgumentTypeError | Some l => mapM (between 1 31) l end = Ok l <->
  left_out_or o [1; 2; 6; 9; 17; 18; 25]%Z (fun l l' => l <> [] /\ (forall i, In i l -> (1 <= i <= 30)%Z) /\ l' = l) l.
Proof.
  destruct o as [[|x l0]|]; cbn [left_out_or].
  - split; [discriminate | intros [N _]; congruence].
  - rewrite (mapM_iff _ _ (between_iff 1 31)). rewrite (Forall2_same (fun x => (1 <= x < 31)%Z)). split.
    + intros [H ->]. split; [discriminate|]. split; [intros i J; specialize (H i J); lia | reflexivity].
    + intros (_ & H & ->). split; [intros i J; specialize (H i J); lia | reflexivity].
  - split; [intros E; apply Ok_inj in E; congruence | intros ->; reflexivity].
Qed.
Lemma weights_iff (o : option (list Qc)) l : optional o (fun l => if Nat.eqb (length l) 3 then mapM (non_negative_float (A := QcA)) l else Err ArgumentTypeError) [one (a := QcA); zero; zero] = Ok l <->
  left_out_or o [1; 0; 0] (fun xs ys => length xs = 3%nat /\ (forall x : Qc, In x xs -> 0 <= x) /\ ys = xs) l.
Proof.
  apply (optional_iff o). intros x y. destruct (Nat.eqb_spec (length x) 3) as [E|N]; [|split; [discriminate | tauto]].
  rewrite (mapM_iff _ _ nnf_iff). unfold non_negative. rewrite (Forall2_same (fun x : Qc => 0 <= x)). tauto.
Qed.
Lemma a0_iff (o : option (list Qc)) p : several o (non_negative_float (A := QcA)) (decimal (A := QcA) 3 10) = Ok p <-> left_out_or o (Single (Q2Qc (3#10))) (fun xs ys => xs <> [] /\ (forall x : Qc, In x xs -> 0 <= x) /\ ys = Multi xs) p.
Proof.
  rewrite (several_iff _ _ _ _ nnf_iff). assert (E : decimal (A := QcA) 3 10 = Q2Qc (3#10)) by (apply Qc_is_canon; reflexivity). rewrite E. apply left_out_iff. intros xs ys. split.
  - intros (N & l' & F & ->). unfold non_negative in F. apply (Forall2_same (fun x : Qc => 0 <= x)) in F as [F ->]. auto.
  - intros (N & H & ->). split; [assumption|]. exists xs. split; [|reflexivity]. unfold non_negative. apply (Forall2_same (fun x : Qc => 0 <= x)). auto.
Qed.
Lemma seed_iff (o : option (pyval QcA)) z : match o with None => Ok None | Some v => let! z := non_negative_int v in Ok (Some z) end = Ok z <-> left_out_or o None (fun v z => exists s, is_int v s /\ (0 <= s)%Z /\ z = Some s) z.
Proof.
  destruct o as [v|]; cbn [left_out_or]; [|split; [intros E; apply Ok_inj in E; congruence | intros ->; reflexivity]]. unfold non_negative_int. split.
  - intros H. apply bind_ok in H as (i & E & H). apply Ok_inj in H. apply bind_ok in E as (s & E & H'). destruct (Z.ltb_spec s 0); [discriminate|]. apply Ok_inj in H'. subst. eauto.
  - intros (s & E & H & ->). rewrite E. cbn [bind]. destruct (Z.ltb_spec s 0); [lia | reflexivity].
Qed.
Lemma decimals : decimal (A := QcA) 1 100000 = Q2Qc (1#100000) /\ decimal (A := QcA) 1 10000 = Q2Qc (1#10000) /\ decimal (A := QcA) 4 10 = Q2Qc (4#10) /\ decimal (A := QcA) 1 1000000000 = Q2Qc (1#1000000000).
Proof. repeat split; apply Qc_is_canon; reflexivity. Qed.

(** Parsing accepts a command line exactly if every value is in its range, and then hands on the values given, and the defaults for the options left out. *)
Theorem C68_options_mean_what_they_say : forall (o : cmdline QcA) ac, parse o = Ok ac <-> stands_for o ac.
Proof.
  intros o ac. destruct decimals as (D1 & D2 & D3 & D4). split.
  - intros H. unfold parse in H.
    apply bind_ok in H as (n & Hn & H). apply bind_ok in H as (k & Hk & H). apply bind_ok in H as (a0 & Ha & H). apply bind_ok in H as (sc & Hs & H). apply bind_ok in H as (ws & Hw & H).
    apply bind_ok in H as (cmin & H1 & H). apply bind_ok in H as (cmax & H2 & H). apply bind_ok in H as (phi & H3 & H). apply bind_ok in H as (abs & H4 & H). apply bind_ok in H as (rel & H5 & H).
    apply bind_ok in H as (par & Hp & H). apply bind_ok in H as (ina & Hi & H). apply bind_ok in H as (M & HM & H). apply bind_ok in H as (ms & Hms & H). apply bind_ok in H as (seed & H6 & H). apply Ok_inj in H. subst ac.
    apply (optional_iff _ _ _ _ positive_int_iff) in Hn, HM. apply k_iff in Hk. apply a0_iff in Ha. apply (optional_iff _ _ _ _ (between_iff 0 5)) in Hs. apply weights_iff in Hw.
    rewrite D1 in H1. rewrite D2 in H2. rewrite D3 in H3. rewrite D4 in H4. apply (optional_iff _ _ _ _ nnf_iff) in H1, H2, H3, H4, H5. apply (optional_iff _ _ _ _ pf_iff) in Hp. apply (optional_iff _ _ _ _ fraction_iff) in Hi. apply metrics_iff in Hms. apply seed_iff in H6.
    constructor; cbn [ac_args ac_weights ac_cost_min ac_cost_max ac_source ac_pareto ac_metrics ac_seed g_n g_k g_a0 g_rel g_abs g_maxit g_phi g_order g_graphs g_scheme g_inactive g_known g_itac]; try eassumption; try (eexists; split; [reflexivity | eassumption]); try reflexivity.
    + revert Hs. apply left_out_iff. intros x y. intuition lia.
    + exists (match o_order o with Some x => x | None => Random end). split; [reflexivity|]. destruct (o_order o); reflexivity.
    + destruct (o_source o); reflexivity.
    + destruct (o_itac o); reflexivity.
  - intros [(n & En & Hn) Hk Ha Hs Hw H1 H2 (phi & E3 & H3) (ord & Eo & Ho) (abs & E4 & H4) (rel & E5 & H5) Hsrc Hp Hi Hkn Hit (M & EM & HM) Hms Hg H6]. unfold parse. rewrite D1, D2, D3, D4.
    refine (bind_intro (proj2 (optional_iff _ _ _ _ positive_int_iff _) Hn) _). refine (bind_intro (proj2 (k_iff _ _) Hk) _). refine (bind_intro (proj2 (a0_iff _ _) Ha) _).
    assert (Hs' : left_out_or (o_scheme o) 0%Z (fun z s => s = z /\ (0 <= z < 5)%Z) (g_scheme (ac_args ac))) by (revert Hs; apply left_out_iff; intros x y; intuition lia).
    refine (bind_intro (proj2 (optional_iff _ _ _ _ (between_iff 0 5) _) Hs') _). refine (bind_intro (proj2 (weights_iff _ _) Hw) _).
    refine (bind_intro (proj2 (optional_iff _ _ _ _ nnf_iff _) H1) _). refine (bind_intro (proj2 (optional_iff _ _ _ _ nnf_iff _) H2) _). refine (bind_intro (proj2 (optional_iff _ _ _ _ nnf_iff _) H3) _).
    refine (bind_intro (proj2 (optional_iff _ _ _ _ nnf_iff _) H4) _). refine (bind_intro (proj2 (optional_iff _ _ _ _ nnf_iff _) H5) _). refine (bind_intro (proj2 (optional_iff _ _ _ _ pf_iff _) Hp) _).
    refine (bind_intro (proj2 (optional_iff _ _ _ _ fraction_iff _) Hi) _). refine (bind_intro (proj2 (optional_iff _ _ _ _ positive_int_iff _) HM) _). refine (bind_intro (proj2 (metrics_iff _ _) Hms) _). refine (bind_intro (proj2 (seed_iff _ _) H6) _).
    f_equal. destruct ac as [[] ? ? ? ? ? ? ?]. cbn in *. subst. f_equal; [f_equal|].
    + destruct (o_order o); cbn in Ho; congruence.
    + destruct (o_itac o); cbn in Hit; congruence.
    + destruct (o_source o); cbn in Hsrc; congruence.
Qed.

(** REFUTED for --metrics: the documentation gives the default [1, 2, 3, 4, 6, 17, 18, 24, 25], the help text another one; both differ from what is used. *)
Definition no_options : cmdline QcA := mkCmd (A := QcA) None None None None None None None None None None None None None None false None None None true None.
Theorem C68_default_metrics_refuted : exists ac, parse no_options = Ok ac /\ ac_metrics ac = [1; 2; 6; 9; 17; 18; 25]%Z /\ ac_metrics ac <> [1; 2; 3; 4; 6; 17; 18; 24; 25]%Z /\ ac_metrics ac <> [1; 2; 3; 4; 6; 17; 18; 26; 27]%Z.
Proof. eexists. split; [reflexivity|]. cbn [ac_metrics]. split; [reflexivity|]. split; discriminate. Qed.
(** REFUTED for two ranges: --iterations_after_convergence is documented as a natural number and --cost_max as greater than --cost_min; other values are accepted. *)
Theorem C68_documented_ranges_refuted : exists (o : cmdline QcA) (ac : accepted QcA), parse o = Ok ac /\ (g_itac (ac_args ac) < 0)%Z /\ ac_cost_max ac < ac_cost_min ac.
Proof.
  exists (mkCmd (A := QcA) None None None None None (Some 1) (Some 0) None None None None None None None false (Some (-5)%Z) None None true None). eexists. split; [reflexivity|].
  cbn [ac_args g_itac ac_cost_max ac_cost_min]. split; reflexivity.
Qed.
Example C68_instance : exists ac, stands_for no_options ac.
Proof. eexists. apply C68_options_mean_what_they_say. reflexivity. Qed.
Example C68_rejected : ~ exists ac, parse (mkCmd (A := QcA) (Some (VStr "0"%string)) None None None None None None None None None None None None None false None None None true None) = Ok ac.
Proof. intros (ac & H). discriminate H. Qed.
