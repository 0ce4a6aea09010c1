(** C101: what an agent delegates in one move, in the arithmetic of the machine. *)
From Coq Require Import ZArith Reals Lra Lia Psatz List Bool.
From Coq Require Import PrimFloat.
Set Warnings "-inexact-float".
From Verif Require Import Num NumFloat FloatOrd Py Rewards Binary64 RealArith FloatReward FloatError PropFloat SortedKeyList World Stakeholder Spec ListFacts FloatRange PropDrift PropTargetFloat PropSplitFloat Greedy.
From Flocq Require Core PrimFloat.
Import Flocq.Core.Core.
Import ListNotations.
Local Open Scope R_scope.

Definition proper_amounts (d : dict (T FloatA)) : Prop := forall k v, In (k, v) d -> ffin v /\ 0 <= fval v.
Lemma sumD_app (d d' : dict (T FloatA)) : sumD (d ++ d') = sumD d + sumD d'.
Proof. induction d as [|[k v] d IH]; [change (sumD d' = 0 + sumD d'); lra|]. change (fval v + sumD (d ++ d') = fval v + sumD d + sumD d'). lra. Qed.
Lemma sumD_one k (v : T FloatA) : sumD [(k, v)] = fval v.  Proof. change (fval v + 0 = fval v). lra. Qed.
Lemma keys_app (d : dict (T FloatA)) k v : keys (d ++ [(k, v)]) = keys d ++ [k].
Proof. unfold keys. now rewrite map_app. Qed.
Lemma proper_app d k (v : T FloatA) : proper_amounts d -> ffin v -> 0 <= fval v -> proper_amounts (d ++ [(k, v)]).
Proof. intros H F P i y J. apply in_app_or in J as [J|[[= <- <-]|[]]]; [now apply (H i) | now split]. Qed.

Lemma greedy_sum rs (X : R) : X <= bpow radix2 400 -> forall el (x : T FloatA) d best d' r b, NoDup (map (@p_id FloatA) el) -> (forall p, In p el -> ~ In (p_id p) (keys d)) -> (forall id, best = Some id -> ~ In id (map (@p_id FloatA) el) /\ ~ In id (keys d)) ->
  ffin x -> 0 <= fval x <= X -> F_ltb x (min_stake_unit (a := FloatA)) = false -> proper_amounts d -> greedy rs el x d best = (d', r, b) ->
  proper_amounts d' /\ ffin r /\ 0 <= fval r <= X /\ Rabs (sumD d' + fval r - (sumD d + fval x)) <= (INR (length d') - INR (length d)) * (u * X + eta) /\
  (forall id, b = Some id -> ~ In id (keys d')) /\ incl (keys d) (keys d') /\ (F_ltb r (min_stake_unit (a := FloatA)) = true \/ b <> None \/ forall p, In p el -> In (p_id p) (keys d')).
Proof.
  intros XB. destruct small_u as [[U0 U1] [E0 E1]]. destruct min_fin as (Fm & Pm). assert (BG := big_ge 400 ltac:(lia)).
  induction el as [|p el IH]; intros x d best d' r b N Fr Hb Fx Bx Mx Hd H; cbn [greedy] in H.
  - injection H as <- <- <-. split; [exact Hd|]. split; [exact Fx|]. split; [exact Bx|]. split; [replace (sumD d + fval x - (sumD d + fval x)) with 0 by ring; rewrite Rabs_R0; lra|]. split; [intros id E; now apply Hb|]. split; [apply incl_refl|]. right. right. intros ? [].
  - cbn [map] in N. inversion_clear N as [|? ? Np Nel]. set (room := sub (pool_threshold rs (p_pledge p)) (p_stake p)) in H. change (ltb (a := FloatA) room min_stake_unit) with (F_ltb room (min_stake_unit (a := FloatA))) in H. destruct (F_ltb room (min_stake_unit (a := FloatA))) eqn:Er.
    + destruct (IH x d (match best with None => Some (p_id p) | Some _ => best end) d' r b Nel (fun q J => Fr q (or_intror J))) as (R1 & R2 & R3 & R4 & R5 & R6 & R7); try assumption.
      { intros id E. destruct best as [i|]; [destruct (Hb id E) as [B1 B2]; split; [intros J; apply B1; now right | exact B2]|]. injection E as <-. split; [exact Np | apply Fr; now left]. }
      split; [exact R1|]. split; [exact R2|]. split; [exact R3|]. split; [exact R4|]. split; [exact R5|]. split; [exact R6|]. destruct R7 as [R7|[R7|R7]]; [now left | right; now left|]. right. left. intros E. subst b.
      clear - H best. assert (G : forall el x d best d' r, best <> None -> greedy rs el x d best = (d', r, None) -> False); [|eapply (G el x d _ d' r); [|exact H]; destruct best; discriminate].
      clear. induction el as [|q el IH]; intros x d best d' r Hn H; cbn [greedy] in H; [injection H as _ _ E; contradiction|]. destruct (ltb (sub (pool_threshold rs (p_pledge q)) (p_stake q)) min_stake_unit); [apply IH in H; [exact H | destruct best; [discriminate | contradiction]]|].
      destruct (ltb (sub x (pmin x (sub (pool_threshold rs (p_pledge q)) (p_stake q)))) min_stake_unit); [injection H as _ _ E; contradiction | now apply IH in H].
    + set (a := pmin (A := FloatA) x room) in H. assert (Ya : ffin a /\ 0 <= fval a <= fval x).
      { unfold a, pmin. change (ltb (a := FloatA) room x) with (F_ltb room x). destruct (F_ltb room x) eqn:El; [|split; [exact Fx | lra]]. assert (Fo : ffin room) by exact (between_fin room _ _ Fm Fx Er El). apply (flt_val_false _ _ Fo Fm) in Er. apply (flt_val _ _ Fo Fx) in El. split; [exact Fo | lra]. }
      destruct Ya as (Fa & A0). destruct (sub_val x a Fx Fa) as [Fs Vs]; [apply Rabs_le; lra|]. change (PrimFloat.sub x a) with (sub (a := FloatA) x a) in Fs, Vs. set (x' := sub (a := FloatA) x a) in *.
      assert (S0 : 0 <= fval x' <= fval x) by (rewrite Vs; split; [apply rnd_pos; lra | rewrite <- (rnd_fval x) at 2; apply rnd_le; lra]). assert (Ds := rnd_err (fval x - fval a)). rewrite <- Vs, (Rabs_pos_eq (fval x - fval a)) in Ds by lra. apply abs_le_inv in Ds.
      assert (UX : u * (fval x - fval a) <= u * X) by (apply Rmult_le_compat_l; lra). assert (UX0 : 0 <= u * X) by (apply Rmult_le_pos; lra).
      assert (Nd : ~ In (p_id p) (keys d)) by (apply Fr; now left). rewrite (set_new d (p_id p) a Nd) in H. set (d1 := d ++ [(p_id p, a)]) in *.
      assert (P1 : proper_amounts d1) by (apply proper_app; [exact Hd | exact Fa | lra]). assert (Sd : sumD d1 = sumD d + fval a) by (unfold d1; rewrite sumD_app, sumD_one; reflexivity). assert (Ld : INR (length d1) = INR (length d) + 1) by (unfold d1; rewrite app_length, plus_INR; reflexivity).
      assert (K1 : keys d1 = keys d ++ [p_id p]) by apply keys_app. assert (I1 : incl (keys d) (keys d1)) by (rewrite K1; apply incl_appl, incl_refl). assert (Hp : In (p_id p) (keys d1)) by (rewrite K1; apply in_or_app; right; now left).
      assert (Hb1 : forall id, best = Some id -> ~ In id (map (@p_id FloatA) el) /\ ~ In id (keys d1)). { intros id E. destruct (Hb id E) as [B1 B2]. split; [intros J; apply B1; now right|]. rewrite K1. intros J. apply in_app_or in J as [J|[J|[]]]; [now apply B2 | apply B1; now left]. }
      change (ltb (a := FloatA) x' min_stake_unit) with (F_ltb x' (min_stake_unit (a := FloatA))) in H. destruct (F_ltb x' (min_stake_unit (a := FloatA))) eqn:Es.
      * injection H as <- <- <-. split; [exact P1|]. split; [exact Fs|]. split; [lra|]. split; [rewrite Sd, Ld; apply Rabs_le; lra|]. split; [intros id E; now apply Hb1|]. split; [exact I1 | now left].
      * destruct (IH x' d1 best d' r b Nel) as (R1 & R2 & R3 & R4 & R5 & R6 & R7); try assumption; [|lra|].
        { intros q J. rewrite K1. intros J'. apply in_app_or in J' as [J'|[J'|[]]]; [now apply (Fr q (or_intror J)) | apply Np; rewrite J'; now apply in_map]. }
        split; [exact R1|]. split; [exact R2|]. split; [exact R3|]. split; [apply Rabs_le_inv in R4; rewrite Sd, Ld in R4; apply Rabs_le; lra|]. split; [exact R5|]. split; [eapply incl_tran; [exact I1 | exact R6]|]. destruct R7 as [R7|[R7|R7]]; [now left | right; now left|]. right. right. intros q [<-|J]; [now apply R6 | now apply R7].
Qed.

(** The delegations of a move: none is negative, together they are at most the stake to be delegated up to one rounding for each of them, and what they leave is less than the smallest unit of stake unless every eligible pool has got its share. *)
Theorem C101_delegations_use_the_stake : forall (rs : rss FloatA) (el : list (pool FloatA)) (x : T FloatA), NoDup (map (@p_id FloatA) el) -> ffin x -> 0 <= fval x <= bpow radix2 400 -> F_ltb x (min_stake_unit (a := FloatA)) = false ->
  let d := greedy_allocations rs el x in let tol := INR (length d) * (u * fval x + eta) in
  (forall id v, In (id, v) d -> ffin v /\ 0 <= fval v) /\ sumD d <= fval x + tol /\ (fval x - tol - fval (min_stake_unit (a := FloatA)) <= sumD d \/ forall p, In p el -> In (p_id p) (keys d)).
Proof.
  intros rs el x N Fx [X0 XB] Mx d tol. unfold tol, d. clear tol d. unfold greedy_allocations. destruct (greedy rs el x [] None) as [[d r] b] eqn:E. destruct small_u as [[U0 U1] [E0 E1]]. assert (UX0 : 0 <= u * fval x) by (apply Rmult_le_pos; lra). destruct min_fin as (Fm & Pm).
  destruct (greedy_sum rs (fval x) XB el x [] None d r b N) as (R1 & R2 & R3 & R4 & R5 & R6 & R7); try assumption; [intros ? _ [] | discriminate | lra | intros ? ? []|]. change (sumD []) with 0 in R4. cbn [length INR] in R4. apply Rabs_le_inv in R4.
  assert (Small : F_ltb r (min_stake_unit (a := FloatA)) = true -> fval r <= fval (min_stake_unit (a := FloatA))) by (intros L; apply (flt_val _ _ R2 Fm) in L; lra).
  destruct b as [id|].
  - change (leb (a := FloatA) min_stake_unit r) with (F_leb (min_stake_unit (a := FloatA)) r). destruct (F_leb (min_stake_unit (a := FloatA)) r) eqn:L.
    + rewrite (set_new d id r (R5 id eq_refl)). rewrite sumD_app, sumD_one, app_length, plus_INR. cbn [length INR]. split; [intros i v; apply (proper_app d id r R1 R2 (proj1 R3))|]. split; [lra|]. left. lra.
    + split; [exact R1|]. split; [lra|]. left. assert (L' : F_ltb r (min_stake_unit (a := FloatA)) = true). { change (F_leb (min_stake_unit (a := FloatA)) r) with (leb (a := FloatA) min_stake_unit r) in L. rewrite (ol_leb _ FloatA_ord) in L. now apply negb_false_iff in L. } specialize (Small L'). lra.
  - split; [exact R1|]. split; [lra|]. destruct R7 as [R7|[R7|R7]]; [specialize (Small R7); left; lra | now contradiction R7 | now right].
Qed.

(** * Where the delegations go, in any arithmetic whose comparison is a total preorder (that of the machine is one: [FloatA_ord]) *)
Section Fit.
  Context {A : Arith} (O : OrdLaws A) (rs : rss A).
  Lemma fill_fit : forall pools s, let '(d, r, seen) := fill rs pools s in forall id v, In (id, v) d -> exists p, In p pools /\ p_id p = id /\ ltb (room rs p) v = false.
  Proof.
    assert (Fit : forall s p, ltb (room rs p) (pmin s (room rs p)) = false) by (intros s p; unfold pmin; destruct (ltb (room rs p) s) eqn:E; [apply (ol_ltb_irrefl A O) | exact E]).
    induction pools as [|p pools IH]; intros s; cbn [fill]; [intros ? ? []|]. destruct (saturated rs p).
    - specialize (IH s). destruct (fill rs pools s) as [[d r] seen]. intros id v J. destruct (IH id v J) as (q & Q1 & Q2). exists q. split; [now right | exact Q2].
    - destruct (ltb (sub s (pmin s (room rs p))) min_stake_unit).
      + intros id v [[= <- <-]|[]]. exists p. split; [now left|]. split; [reflexivity | apply Fit].
      + specialize (IH (sub s (pmin s (room rs p)))). destruct (fill rs pools _) as [[d r] seen]. intros id v [[= <- <-]|J]; [exists p; split; [now left|]; split; [reflexivity | apply Fit]|]. destruct (IH id v J) as (q & Q1 & Q2). exists q. split; [now right | exact Q2].
  Qed.
  Lemma find_in_app {X} (f : X -> bool) l l' : find f (l ++ l') = match find f l with Some x => Some x | None => find f l' end.
  Proof. induction l as [|a l IH]; cbn; [reflexivity|]. now destruct (f a). Qed.
  Lemma same_id (l : list (pool A)) p q : NoDup (map p_id l) -> In p l -> In q l -> p_id p = p_id q -> p = q.
  Proof.
    induction l as [|a l IH]; intros N [] [] E; cbn [map] in N; inversion_clear N; subst; [reflexivity | | | now apply IH].
    - exfalso. apply H1. rewrite E. now apply in_map.
    - exfalso. apply H1. rewrite <- E. now apply in_map.
  Qed.
End Fit.

(** Each delegation goes to an eligible pool and is at least the smallest unit of stake; it fits into the room the pool has left, unless the pool is full; a full pool gets a delegation only if all pools ranked above it are not full. *)
Theorem C101_delegations_fit : forall (A : Arith) (rs : rss A) (el : list (pool A)) (x : T A), OrdLaws A -> NoDup (map (@p_id A) el) -> ltb x min_stake_unit = false ->
  let d := greedy_allocations rs el x in let room_of p := sub (pool_threshold rs (p_pledge p)) (p_stake p) in let full p := ltb (room_of p) min_stake_unit = true in
  (forall id v, get d id = Some v -> ltb v min_stake_unit = false /\ exists p, In p el /\ p_id p = id /\ (full p \/ ltb (room_of p) v = false)) /\
  (forall before p after, el = before ++ p :: after -> full p -> In (p_id p) (keys d) -> forall q, In q before -> ~ full q).
Proof.
  intros A rs el x O N Hx. cbv zeta. split.
  - intros id v G. split; [exact (greedy_min rs O el x id v N Hx G)|]. rewrite greedy_allocations_fill in G by exact N. assert (F := fill_fit O rs el x). assert (S := fill_seen rs el x). destruct (fill rs el x) as [[d r] seen]. destruct S as (rest & E & I).
    assert (Old : get d id = Some v -> exists p, In p el /\ p_id p = id /\ (ltb (room rs p) min_stake_unit = true \/ ltb (room rs p) v = false)) by (intros G'; apply get_In in G'; destruct (F id v G') as (p & P1 & P2 & P3); exists p; split; [exact P1|]; split; [exact P2 | now right]).
    destruct (first_saturated rs seen) as [i|] eqn:Fs; [|now apply Old]. destruct (leb min_stake_unit r); [|now apply Old]. rewrite get_set in G. destruct (Nat.eqb_spec i id) as [->|]; [|now apply Old].
    apply first_saturated_In in Fs as (p & P1 & P2 & P3). exists p. split; [rewrite E; apply in_or_app; now left|]. split; [exact P3 | now left].
  - intros before p after E Fp K q Jq Fq. rewrite greedy_allocations_fill in K by exact N. assert (S := fill_seen rs el x). destruct (fill rs el x) as [[d r] seen]. destruct S as (rest & E' & I). assert (Ip : In p el) by (rewrite E; apply in_or_app; right; now left).
    assert (Nk : ~ In (p_id p) (keys d)). { intros J. apply I in J. apply in_map_iff in J as (z & Z1 & Z2). apply filter_In in Z2 as [Z2 Z3]. assert (z = p) by (apply (same_id el); [exact N | rewrite E'; apply in_or_app; now left | exact Ip | exact Z1]). subst z. unfold saturated, room in Z3. rewrite Fp in Z3. discriminate Z3. }
    destruct (first_saturated rs seen) as [i|] eqn:Fs; [|contradiction]. destruct (leb min_stake_unit r); [|contradiction]. assert (Ei : i = p_id p). { destruct (in_dec Nat.eq_dec i (keys d)) as [J|J]; [rewrite keys_set_in in K by exact J; contradiction|]. rewrite keys_set_new in K by exact J. apply in_app_or in K as [K|[K|[]]]; [contradiction | exact K]. }
    unfold first_saturated in Fs. destruct (find (saturated rs) seen) as [z|] eqn:Ez; [|discriminate Fs]. injection Fs as Fs.
    assert (Ee : find (saturated rs) el = Some z) by (rewrite E', find_in_app, Ez; reflexivity). rewrite E, find_in_app in Ee. destruct (find (saturated rs) before) as [y|] eqn:Ey.
    + injection Ee as ->. apply find_some in Ey as [Y _]. rewrite E, map_app in N. cbn [map] in N. apply NoDup_remove_2 in N. apply N. apply in_or_app. left. rewrite <- Ei, <- Fs. now apply in_map.
    + assert (Z := find_none _ _ Ey q Jq). unfold saturated, room in Z. rewrite Fq in Z. discriminate Z.
Qed.

(** a pool that holds 0.3 and two empty ones, with a saturation threshold of 1/2 *)
Definition half_scheme : rss FloatA := mkRss (A := FloatA) Simplified 2 0.3%float 0.5%float.
Definition half_pool (id : nat) (s : T FloatA) : pool FloatA := mkPool (A := FloatA) id 0.001%float 0.01%float s 0 false [] 0.1%float 0.1%float 0.1%float.
Lemma half_allocations : greedy_allocations half_scheme [half_pool 1 0.3%float; half_pool 2 0%float; half_pool 3 0%float] 1%float = [(1%nat, 0.2%float); (2%nat, 0.5%float); (3%nat, 0.30000000000000004%float)].
Proof. vm_compute. reflexivity. Qed.

(** Without the tolerance the claim is false: the delegations can be more than the stake. *)
Theorem C101_no_more_is_delegated_than_the_stake_refuted : exists (rs : rss FloatA) (el : list (pool FloatA)) (x : T FloatA), NoDup (map (@p_id FloatA) el) /\ unit x /\ F_ltb x (min_stake_unit (a := FloatA)) = false /\ fval x < sumD (greedy_allocations rs el x).
Proof.
  exists half_scheme, [half_pool 1 0.3%float; half_pool 2 0%float; half_pool 3 0%float], 1%float. split; [cbn; repeat constructor; cbn; lia|]. split; [exact (unit_unit 1%float eq_refl)|]. split; [vm_compute; reflexivity|]. rewrite half_allocations. destruct val_1 as [V1 _]. change (fval 1%float) with (fval PrimFloat.one). rewrite V1.
  change (1 < fval 0.2%float + (fval 0.5%float + (fval 0.30000000000000004%float + 0))). rewrite !fval_SF.
  assert (E1 : FloatOps.Prim2SF 0.2%float = SpecFloat.S754_finite false 7205759403792794 (-55)) by (vm_compute; reflexivity). assert (E2 : FloatOps.Prim2SF 0.5%float = SpecFloat.S754_finite false 4503599627370496 (-53)) by (vm_compute; reflexivity).
  assert (E3 : FloatOps.Prim2SF 0.30000000000000004%float = SpecFloat.S754_finite false 5404319552844596 (-54)) by (vm_compute; reflexivity). rewrite E1, E2, E3. unfold BinarySingleNaN.SF2R, F2R. cbn [Fnum Fexp SpecFloat.cond_Zopp].
  replace (bpow radix2 (-55)) with (/ 36028797018963968) by (cbn; lra). replace (bpow radix2 (-54)) with (/ 18014398509481984) by (cbn; lra). replace (bpow radix2 (-53)) with (/ 9007199254740992) by (cbn; lra). lra.
Qed.
(** the same three pools and the stake 1 meet the hypotheses of the theorem *)
Lemma C101_instance : NoDup (map (@p_id FloatA) [half_pool 1 0.3%float; half_pool 2 0%float; half_pool 3 0%float]) /\ ffin 1%float /\ 0 <= fval 1%float <= bpow radix2 400 /\ F_ltb 1%float (min_stake_unit (a := FloatA)) = false.
Proof.
  assert (B : 1 <= bpow radix2 400) by (apply (bpow_le radix2 0 400); lia). destruct (unit_unit 1%float eq_refl) as [F1 B1]. split; [cbn; repeat constructor; cbn; lia|]. split; [exact F1|]. split; [lra | vm_compute; reflexivity].
Qed.
(** a full pool ranked first and one with room 1/4: the second is filled and the full one gets the rest *)
Lemma C101_full_instance : NoDup (map (@p_id FloatA) [half_pool 1 0.5%float; half_pool 2 0.25%float]) /\ F_ltb 1%float (min_stake_unit (a := FloatA)) = false /\
  greedy_allocations half_scheme [half_pool 1 0.5%float; half_pool 2 0.25%float] 1%float = [(2%nat, 0.25%float); (1%nat, 0.75%float)].
Proof. split; [cbn; repeat constructor; cbn; lia|]. split; vm_compute; reflexivity. Qed.
