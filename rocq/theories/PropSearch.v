(** C21: the search for the number of pools (stakeholder.py:131-151). *)
From Coq Require Import ZArith QArith Qcanon List Bool Lia.
From Verif Require Import Num Py QcTac Rewards SortedKeyList World Stakeholder ListFacts Eval Demo Sim Init PropInit.
Import ListNotations.
Open Scope Z_scope.

(** [f] has a value and a utility for every number of pools between 1 and [k] *)
Definition defined_on {A : Arith} {X} (f : Z -> res (X * T A)) (k : Z) (u : Z -> T A) : Prop := forall t, 1 <= t <= k -> exists x, f t = Ok (x, u t).
(** strictly increasing up to [m], strictly decreasing from there *)
Definition unimodal {A : Arith} (u : Z -> T A) (k m : Z) : Prop :=
  1 <= m <= k /\ (forall t, 1 <= t < m -> ltb (u t) (u (t + 1)) = true) /\ (forall t, m <= t < k -> ltb (u (t + 1)) (u t) = true).

Section Search.
  Context {A : Arith} (O : OrdLaws A) {X : Type}.
  Variables (f : Z -> res (X * T A)) (k : Z) (u : Z -> T A).
  Hypothesis D : defined_on f k u.
  Lemma asym x y : ltb (a := A) x y = true -> ltb y x = false.
  Proof. intros H. destruct (ltb y x) eqn:E; [|reflexivity]. assert (Z := ol_ltb_trans _ O _ _ _ H E). rewrite (ol_ltb_irrefl _ O) in Z. discriminate. Qed.

  Lemma search_spec fuel : forall a b, 1 <= a -> a <= b <= k -> (Z.to_nat (b - a) < fuel)%nat ->
    (1 < a -> ltb (u a) (u (a - 1)) = false) -> (b < k -> ltb (u b) (u (b + 1)) = false) ->
    exists t x, search f fuel a b = Ok (t, x) /\ a <= t <= b /\ f t = Ok (x, u t) /\
      (1 < t -> ltb (u t) (u (t - 1)) = false) /\ (t < k -> ltb (u t) (u (t + 1)) = false).
  Proof.
    induction fuel as [|fuel IH]; intros a b H1 H2 Hf Ha Hb; [lia|]. cbn [search]. set (c := (a + b) / 2).
    assert (Hc : a <= c <= b) by (unfold c; split; [apply Z.div_le_lower_bound | apply Z.div_le_upper_bound]; lia). clearbody c.
    destruct (D c) as (x & Ex); [lia|]. rewrite Ex. cbn [bind fst snd].
    assert (Plus : (1 < c -> ltb (u c) (u (c - 1)) = false) ->
       exists t y, (if c <? b then let! xp := f (c + 1) in if ltb (u c) (snd xp) then search f fuel (c + 1) b else Ok (c, x) else Ok (c, x)) = Ok (t, y) /\ a <= t <= b /\ f t = Ok (y, u t) /\
        (1 < t -> ltb (u t) (u (t - 1)) = false) /\ (t < k -> ltb (u t) (u (t + 1)) = false)).
    { intros Hl. destruct (Z.ltb_spec c b) as [Lb|Lb].
      - destruct (D (c + 1)) as (xp & Ep); [lia|]. rewrite Ep. cbn [bind snd]. destruct (ltb (u c) (u (c + 1))) eqn:E.
        + destruct (IH (c + 1) b) as (t & y & S & R & F & N1 & N2); [lia | lia | lia | | assumption |].
          * intros _. replace (c + 1 - 1) with c by lia. now apply asym.
          * exists t, y. repeat (split; [assumption || lia|]). assumption.
        + exists c, x. repeat (split; [assumption || lia || reflexivity|]). intros _. exact E.
      - exists c, x. repeat (split; [assumption || lia || reflexivity|]). intros Hk. assert (c = b) by lia. subst b. auto. }
    destruct (Z.ltb_spec a c) as [La|La].
    - destruct (D (c - 1)) as (xm & Em); [lia|]. rewrite Em. cbn [bind snd]. destruct (ltb (u c) (u (c - 1))) eqn:E.
      + destruct (IH a (c - 1)) as (t & y & S & R & F & N1 & N2); [lia | lia | lia | assumption | |].
        * intros _. replace (c - 1 + 1) with c by lia. now apply asym.
        * exists t, y. repeat (split; [assumption || lia|]). assumption.
      + apply Plus. reflexivity.
    - apply Plus. intros Hl. assert (c = a) by lia. rewrite H. apply Ha. lia.
  Qed.
End Search.

(** The search terminates for every utility function, with a number between 1 and k none of whose neighbours is better. *)
Theorem C21_search_ends_at_a_local_maximum : forall (A : Arith), OrdLaws A -> forall X (f : Z -> res (X * T A)) k u, 1 <= k -> defined_on f k u ->
  exists t x, search f (search_fuel k) 1 k = Ok (t, x) /\ 1 <= t <= k /\ f t = Ok (x, u t) /\
    (1 < t -> ltb (u t) (u (t - 1)) = false) /\ (t < k -> ltb (u t) (u (t + 1)) = false).
Proof.
  intros A O X f k u Hk D. destruct (search_spec O f k u D (search_fuel k) 1 k) as (t & x & S & R & F & N1 & N2); try lia; [unfold search_fuel; lia|]. exists t, x. auto.
Qed.

Lemma unimodal_max {A : Arith} (O : OrdLaws A) (u : Z -> T A) k m : unimodal u k m -> forall t, 1 <= t <= k -> t <> m -> ltb (u t) (u m) = true.
Proof.
  intros (Hm & Up & Down) t Ht Ne. destruct (Z.lt_ge_cases t m) as [L|L].
  - assert (H : forall n : nat, t < t + 1 + Z.of_nat n <= m -> ltb (u t) (u (t + 1 + Z.of_nat n)) = true).
    { induction n as [|n IH]; intros Hn; [rewrite Z.add_0_r; apply Up; lia|]. eapply (ol_ltb_trans _ O); [apply IH; lia|].
      replace (t + 1 + Z.of_nat (S n)) with (t + 1 + Z.of_nat n + 1) by lia. apply Up. lia. }
    specialize (H (Z.to_nat (m - t - 1))). rewrite Z2Nat.id in H by lia. replace (t + 1 + (m - t - 1)) with m in H by lia. apply H. lia.
  - assert (H : forall n : nat, m < m + 1 + Z.of_nat n <= k -> ltb (u (m + 1 + Z.of_nat n)) (u m) = true).
    { induction n as [|n IH]; intros Hn; [rewrite Z.add_0_r; apply Down; lia|]. eapply (ol_ltb_trans _ O); [|apply IH; lia].
      replace (m + 1 + Z.of_nat (S n)) with (m + 1 + Z.of_nat n + 1) by lia. apply Down. lia. }
    specialize (H (Z.to_nat (t - m - 1))). rewrite Z2Nat.id in H by lia. replace (m + 1 + (t - m - 1)) with t in H by lia. apply H. lia.
Qed.

(** If the utility is strictly unimodal, the search finds the number of pools with the greatest utility. *)
Theorem C21_global_maximum_if_unimodal : forall (A : Arith), OrdLaws A -> forall X (f : Z -> res (X * T A)) k u m, defined_on f k u -> unimodal u k m ->
  (exists x, search f (search_fuel k) 1 k = Ok (m, x)) /\ forall t, 1 <= t <= k -> t <> m -> ltb (u t) (u m) = true.
Proof.
  intros A O X f k u m D U. split; [|now apply (unimodal_max O u k m)]. destruct U as (Hm & Up & Down).
  destruct (C21_search_ends_at_a_local_maximum A O X f k u) as (t & x & S & R & F & N1 & N2); [lia | assumption|].
  assert (t = m) as ->; [|eauto]. destruct (Z.lt_trichotomy t m) as [L|[L|L]]; [|assumption|].
  - rewrite (Up t) in N2 by lia. now discriminate N2; lia.
  - specialize (Down (t - 1)). replace (t - 1 + 1) with t in Down by lia. rewrite Down in N1 by lia. now discriminate N1; lia.
Qed.

(** The search propagates exceptions of the utility function, and ends whatever the function does. *)
Theorem C21_search_always_ends : forall (A : Arith), OrdLaws A -> forall X (f : Z -> res (X * T A)) k, 1 <= k -> (forall t, f t <> Err OutOfFuel) -> search f (search_fuel k) 1 k <> Err OutOfFuel.
Proof.
  intros A O X f k Hk Hf.
  assert (G : forall fuel a b, a <= b -> (Z.to_nat (b - a) < fuel)%nat -> search f fuel a b <> Err OutOfFuel).
  { induction fuel as [|fuel IH]; intros a b H2 Hl; [lia|]. cbn [search]. set (c := (a + b) / 2).
    assert (Hc : a <= c <= b) by (unfold c; split; [apply Z.div_le_lower_bound | apply Z.div_le_upper_bound]; lia).
    assert (F : forall t e, f t = Err e -> e <> OutOfFuel) by (intros t e E ->; now apply (Hf t)).
    destruct (f c) as [[x0 u0]|e] eqn:E0; cbn [bind fst snd]; [|intros [= ->]; now apply (F c _ E0)].
    assert (Plus : (if c <? b then let! xp := f (c + 1) in if ltb u0 (snd xp) then search f fuel (c + 1) b else Ok (c, x0) else Ok (c, x0)) <> Err OutOfFuel).
    { destruct (Z.ltb_spec c b) as [Lb|Lb]; [|discriminate]. destruct (f (c + 1)) as [[xp up]|e] eqn:Ep; cbn [bind snd]; [|intros [= ->]; now apply (F (c + 1) _ Ep)].
      destruct (ltb u0 up); [|discriminate]. apply IH; lia. }
    destruct (Z.ltb_spec a c) as [La|La]; [|exact Plus]. destruct (f (c - 1)) as [[xm um]|e] eqn:Em; cbn [bind snd]; [|intros [= ->]; now apply (F (c - 1) _ Em)].
    destruct (ltb u0 um); [|exact Plus]. apply IH; lia. }
  apply G; [lia | unfold search_fuel; lia].
Qed.

(** The number of pools an agent decides to operate: whenever the decision is made, it maximises utility locally. *)
Theorem C21_chosen_number_of_pools : forall (A : Arith), OrdLaws A -> forall so (w w' : world A) ag v new, 1 <= r_k (w_rss w) -> choose_pool_strategy so w ag = Ok (w', v, new) ->
  forall u, defined_on (margins_and_utility w ag) (r_k (w_rss w)) u ->
  exists n, 1 <= n <= r_k (w_rss w) /\ (exists s, new = Some s) /\ (exists margins, search (margins_and_utility w ag) (search_fuel (r_k (w_rss w))) 1 (r_k (w_rss w)) = Ok (n, margins)) /\
    (1 < n -> ltb (u n) (u (n - 1)) = false) /\ (n < r_k (w_rss w) -> ltb (u n) (u (n + 1)) = false).
Proof.
  intros A O so w w' ag v new Hk H u D. destruct (C21_search_ends_at_a_local_maximum A O _ _ _ u Hk D) as (t & x & S & R & F & N1 & N2).
  unfold choose_pool_strategy in H. rewrite S in H. cbn [bind] in H. destruct (Z.ltb_spec 0 t); [|lia].
  apply bind_ok in H as ([w1 d] & _ & H). apply bind_ok in H as ([w2 s] & _ & H). apply bind_ok in H as (v2 & _ & H). injection H as _ _ <-.
  exists t. split; [assumption|]. split; [eauto|]. split; [eauto|]. auto.
Qed.

(** The maximum need not be global otherwise: with utilities 3, 2, 1, 0, 5 for 1 to 5 pools the search starts at 3 and ends at 1. *)
Definition bumpy (t : Z) : res (unit * Qc) := Ok (tt, nth (Z.to_nat (t - 1)) [Q2Qc 3; Q2Qc 2; Q2Qc 1; Q2Qc 0; Q2Qc 5] 0%Qc).
Theorem C21_not_global_in_general : exists (f : Z -> res (unit * Qc)) u, defined_on (A := QcA) f 5 u /\ search (A := QcA) f (search_fuel 5) 1 5 = Ok (1, tt) /\ (u 1%Z < u 5%Z)%Qc.
Proof.
  exists bumpy, (fun t => nth (Z.to_nat (t - 1)) [Q2Qc 3; Q2Qc 2; Q2Qc 1; Q2Qc 0; Q2Qc 5] 0%Qc). split; [intros t _; exists tt; reflexivity|]. split; [vm_compute; reflexivity | reflexivity].
Qed.

(** a strictly unimodal function *)
Example C21_unimodal_instance : unimodal (A := QcA) (fun t => Qc_ofZ (- (t - 3) * (t - 3))) 7 3 /\ defined_on (A := QcA) (fun t => Ok (tt, Qc_ofZ (- (t - 3) * (t - 3)))) 7 (fun t => Qc_ofZ (- (t - 3) * (t - 3))).
Proof.
  split; [|intros t _; now exists tt]. split; [lia|]. cbn [ltb QcA].
  assert (M : forall x y : Z, x < y -> Qc_ltb (Qc_ofZ x) (Qc_ofZ y) = true).
  { intros x y H. destruct (Qc_ltb_spec (Qc_ofZ x) (Qc_ofZ y)) as [|N]; [reflexivity|]. exfalso. apply N. unfold Qc_ofZ, Qclt, Q2Qc, this. rewrite !Qred_correct. unfold Qlt, inject_Z. cbn [Qnum Qden]. lia. }
  split; intros t Ht; apply M; nia.
Qed.
