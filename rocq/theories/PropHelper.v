(** Properties of the helper functions: rankings of dictionaries (C10), the marginal pool (C11), memoisation (C12), argument validators (C46), synthetic
    distributions (C47), construction of reward schemes (C48). *)
From Coq Require Import ZArith QArith Qcanon List Bool Arith Lia Permutation Sorted String DecimalString DecimalZ DecimalPos Floats.
From Verif Require Import Num NumFloat Py QcTac Rewards SortedKeyList World Stakeholder Sched Sim Init RewardFacts Helper ListFacts.
Import ListNotations.
Open Scope nat_scope.

(** * C10 *)

(** The values by which a key is ranked: its value, then its values in the tie breaking dictionaries. *)
Definition rank_values {A} (d : dict (T A)) (ties : list (dict (T A))) (k : nat) (vs : list (T A)) : Prop :=
  exists v ts, get d k = Some v /\ Forall2 (fun t x => get t k = Some x) ties ts /\ vs = v :: ts.
(** [x] is lexicographically greater than [y]: greater at the first position where they are not equal *)
Definition lex_greater {A} (x y : list (T A)) : Prop :=
  exists i a b, nth_error x i = Some a /\ nth_error y i = Some b /\ ltb b a = true /\
    forall j a' b', j < i -> nth_error x j = Some a' -> nth_error y j = Some b' -> eqb a' b' = true.
Definition all_equal {A} (x y : list (T A)) : Prop := Forall2 (fun a b => @eqb A a b = true) x y.
(** k1 comes before k2 in the dictionary *)
Definition inserted_before {V} (d : dict V) (k1 k2 : nat) : Prop := exists l1 l2 l3, keys d = l1 ++ k1 :: l2 ++ k2 :: l3.
(** k1 deserves the better rank *)
Definition outranks {A} (rank_ids : bool) (d : dict (T A)) ties (k1 k2 : nat) : Prop :=
  exists x y, rank_values d ties k1 x /\ rank_values d ties k2 y /\
    (lex_greater x y \/ all_equal x y /\ if rank_ids then k1 < k2 else inserted_before d k1 k2).

Section C10.
  Context {A : Arith} (O : OrdLaws A).
  Notation num := (T A).
  Implicit Types (x y : list num).

  Lemma eqb_lt (a b : num) : eqb a b = true -> ltb a b = false.
  Proof. rewrite (num_eqb A O). intros H. now apply sw_eqb_true in H. Qed.
  Lemma eqb_sym' (a b : num) : eqb a b = eqb b a.
  Proof. rewrite !(num_eqb A O). apply sw_eqb_sym. Qed.

  (** the tuple comparison of the sort, on tuples of equal length *)
  Lemma tuple_ltb_greater x y tl : List.length x = List.length y -> lex_greater x y -> tuple_ltb y x tl = true.
  Proof.
    revert y. induction x as [|a x IH]; intros [|b y] L (i & p & q' & H1 & H2 & H3 & H4); cbn in L; try discriminate.
    - destruct i; discriminate.
    - cbn. destruct i; cbn in *.
      + injection H1 as ->. injection H2 as ->. destruct (eqb q' p) eqn:E; [apply eqb_lt in E; congruence | assumption].
      + rewrite eqb_sym', (H4 0 a b ltac:(lia) eq_refl eq_refl). apply IH; [lia|]. exists i, p, q'. repeat split; auto.
        intros j a' b' Hj E1 E2. apply (H4 (S j)); [lia | assumption | assumption].
  Qed.
  Lemma tuple_ltb_equal x y tl : all_equal x y -> tuple_ltb x y tl = tl.
  Proof. induction 1; cbn; [reflexivity|]. now rewrite H. Qed.
  Lemma all_equal_sym x y : all_equal x y -> all_equal y x.
  Proof. induction 1; constructor; auto. now rewrite eqb_sym'. Qed.
  Lemma tuple_cases x y : List.length x = List.length y -> lex_greater x y \/ lex_greater y x \/ all_equal x y.
  Proof.
    revert y. induction x as [|a x IH]; intros [|b y] L; cbn in L; try discriminate.
    - right; right; constructor.
    - destruct (eqb a b) eqn:E.
      + destruct (IH y ltac:(lia)) as [(i & p & q' & H1 & H2 & H3 & H4) | [(i & p & q' & H1 & H2 & H3 & H4) | H]].
        * left. exists (S i), p, q'. repeat split; auto. intros [|j] a' b' Hj E1 E2; cbn in *; [congruence | apply (H4 j); auto; lia].
        * right; left. exists (S i), p, q'. repeat split; auto. intros [|j] a' b' Hj E1 E2; cbn in *.
          { rewrite eqb_sym'. congruence. } { apply (H4 j); auto; lia. }
        * right; right. constructor; assumption.
      + destruct (ltb b a) eqn:L1.
        * left. exists 0, a, b. repeat split; auto. intros; lia.
        * right; left. exists 0, b, a. repeat split; auto; [|intros; lia].
          rewrite (num_eqb A O) in E. unfold sw_eqb in E. rewrite L1 in E. destruct (ltb a b); [reflexivity | discriminate].
  Qed.

  (** the sort order, restricted to tuples of a common length, is a strict weak order *)
  Lemma rank_ltb_props ids n :
    (forall p : rank_item A, rank_ltb ids p p = false) /\
    (forall p q : rank_item A, List.length (snd p) = n -> List.length (snd q) = n -> rank_ltb ids p q = true -> rank_ltb ids q p = false) /\
    (forall p q r : rank_item A, List.length (snd p) = n -> List.length (snd q) = n -> List.length (snd r) = n ->
       rank_ltb ids p q = false -> rank_ltb ids q r = false -> rank_ltb ids p r = false).
  Proof.
    assert (St : StrictWeak (fun a b : nat => ids && Nat.ltb b a)).
    { destruct ids; cbn; [apply (sw_flip _ sw_natltb) | constructor; auto]. }
    assert (key : forall m, exists lt : (list num * nat) -> (list num * nat) -> bool, StrictWeak lt /\
       forall p q, List.length (fst p) = m -> List.length (fst q) = m -> lt p q = tuple_ltb (fst p) (fst q) (ids && Nat.ltb (snd q) (snd p))).
    { induction m as [|m (lt & SW & E)].
      - exists (fun p q => ids && Nat.ltb (snd q) (snd p)). split; [apply (sw_comap snd _ St)|].
        intros [x i] [y j] H1 H2; cbn in *. destruct x, y; try discriminate. reflexivity.
      - exists (fun p q => lex_ltb (@ltb A) lt (hd zero (fst p), (tl (fst p), snd p)) (hd zero (fst q), (tl (fst q), snd q))). split.
        + apply (sw_comap (fun p => (hd zero (fst p), (tl (fst p), snd p)))). apply lex_sw; [now apply sw_num | assumption].
        + intros [x i] [y j] H1 H2; cbn in *. destruct x as [|a x], y as [|b y]; try discriminate. cbn in *. unfold lex_ltb; cbn.
          rewrite <- (num_eqb A O). destruct (eqb a b); [|reflexivity]. apply (E (x, i) (y, j)); cbn; lia. }
    destruct (key n) as (lt & SW & E).
    assert (E' : forall p q : rank_item A, List.length (snd p) = n -> List.length (snd q) = n -> rank_ltb ids p q = lt (snd p, fst p) (snd q, fst q)).
    { intros p q H1 H2. symmetry. apply E; assumption. }
    split; [| split].
    - intros [i x]. unfold rank_ltb; cbn [fst snd]. rewrite Nat.ltb_irrefl, andb_false_r.
      induction x as [|a x IHx]; cbn; [reflexivity|]. rewrite (num_eqb A O), (sw_eqb_refl (sw_num A O)). assumption.
    - intros p q H1 H2 H. rewrite E' in * by assumption. now apply (sw_asym SW).
    - intros p q r H1 H2 H3 Ha Hb. rewrite E' in * by assumption. eapply (sw_ntrans SW); eassumption.
  Qed.

  Section Sort.
    Variables (ids : bool) (n : nat) (bef : rank_item A -> rank_item A -> Prop).
    Definition ranked_ok (p q : rank_item A) : Prop := rank_ltb ids p q = false /\ (rank_ltb ids q p = false -> bef p q).
    Lemma rank_insert_perm (p : rank_item A) l : Permutation (rank_insert ids p l) (p :: l).
    Proof. induction l as [|q l IH]; cbn; [reflexivity|]. destruct (rank_ltb ids p q); [|reflexivity]. rewrite IH. apply perm_swap. Qed.
    Lemma rank_sort_perm (l : list (rank_item A)) : Permutation (rank_sort ids l) l.
    Proof. induction l as [|p l IH]; cbn; [reflexivity|]. unfold rank_sort in *. rewrite rank_insert_perm. now rewrite IH. Qed.
    Lemma rank_insert_sorted (p : rank_item A) l : List.length (snd p) = n -> Forall (fun q => List.length (snd q) = n) l -> Forall (bef p) l ->
      StronglySorted ranked_ok l -> StronglySorted ranked_ok (rank_insert ids p l).
    Proof.
      intros Hp Hl Hb Hs. destruct (rank_ltb_props ids n) as (_ & P2 & P3).
      induction l as [|q l IH]; cbn; [repeat constructor|].
      inversion Hl; subst. inversion Hb; subst. inversion Hs; subst.
      destruct (rank_ltb ids p q) eqn:E.
      - constructor.
        + apply IH; auto.
        + apply Forall_forall. intros z Hz. apply (Permutation_in _ (rank_insert_perm p l)) in Hz as [<-|Hz].
          * split; [now apply P2 | congruence].
          * now apply (proj1 (Forall_forall _ _) H6).
      - constructor; [assumption|]. constructor; [split; auto|].
        apply Forall_forall. intros z Hz. split.
        + apply P3 with q; auto; [now apply (proj1 (Forall_forall _ _) H2)|]. now apply (proj1 (Forall_forall _ _) H6).
        + intros _. now apply (proj1 (Forall_forall _ _) H4).
    Qed.
    Lemma rank_sort_sorted (l : list (rank_item A)) : Forall (fun q => List.length (snd q) = n) l -> StronglySorted bef l -> StronglySorted ranked_ok (rank_sort ids l).
    Proof.
      induction l as [|p l IH]; intros Hl Hb; cbn; [constructor|]. apply Forall_cons_iff in Hl as [Hp Hl]. apply StronglySorted_inv in Hb as [Hb Hpb].
      assert (S := IH Hl Hb). apply rank_insert_sorted; auto.
      - eapply Permutation_Forall; [symmetry; apply rank_sort_perm | assumption].
      - eapply Permutation_Forall; [symmetry; apply rank_sort_perm | assumption].
    Qed.
  End Sort.
End C10.

Lemma strongly_nth {X} (R : X -> X -> Prop) l i j x y : StronglySorted R l -> i < j -> nth_error l i = Some x -> nth_error l j = Some y -> R x y.
Proof.
  revert i j. induction l as [|a l IH]; intros i j S L H1 H2; [destruct i; discriminate|].
  inversion S; subst. destruct i, j; cbn in *; try lia.
  - injection H1 as <-. apply (proj1 (Forall_forall _ _) H4). eapply nth_error_In; eassumption.
  - apply (IH i j); [assumption | lia | assumption | assumption].
Qed.
Lemma get_combine_seq (ks : list nat) s k r : NoDup ks -> get (combine ks (seq s (List.length ks))) k = Some r -> s <= r /\ nth_error ks (r - s) = Some k.
Proof.
  revert s. induction ks as [|a ks IH]; intros s N H; cbn in H; [discriminate|]. inversion N; subst.
  destruct (Nat.eqb_spec k a).
  - injection H as <-. subst. rewrite Nat.sub_diag. split; [lia | reflexivity].
  - apply IH in H as [L E]; [|assumption]. split; [lia|]. replace (r - s) with (S (r - S s)) by lia. assumption.
Qed.
Lemma combine_fst {X Y} (l : list X) (l' : list Y) : List.length l = List.length l' -> map fst (combine l l') = l.
Proof. revert l'; induction l; intros [|b l'] H; cbn in *; try discriminate; [reflexivity|]. f_equal. apply IHl. lia. Qed.
Lemma combine_snd {X Y} (l : list X) (l' : list Y) : List.length l = List.length l' -> map snd (combine l l') = l'.
Proof. revert l'; induction l; intros [|b l'] H; cbn in *; try discriminate; [reflexivity|]. f_equal. apply IHl. lia. Qed.
Lemma nodup_before (l : list nat) : StronglySorted (fun a b => exists l1 l2 l3, l = l1 ++ a :: l2 ++ b :: l3) l.
Proof.
  assert (G : forall l0 l', l = l0 ++ l' -> StronglySorted (fun a b => exists l1 l2 l3, l = l1 ++ a :: l2 ++ b :: l3) l').
  { intros l0 l'. revert l0. induction l' as [|a l' IH]; intros l0 E; [constructor|]. constructor.
    - apply (IH (l0 ++ [a])). now rewrite <- app_assoc.
    - apply Forall_forall. intros b Hb. apply in_split in Hb as (l2 & l3 & ->). exists l0, l2, l3. assumption. }
  now apply (G []).
Qed.

(** Every key gets exactly one rank, the ranks are 1..n, and k1's rank is better than k2's exactly when k1 outranks k2. *)
Theorem C10_calculate_ranks (A : Arith) (O : OrdLaws A) (rank_ids : bool) (d : dict (T A)) (ties : list (dict (T A))) :
  NoDup (keys d) ->
  (forall k t, In k (keys d) -> In t ties -> exists v, get t k = Some v) ->
  exists ranks, calculate_ranks rank_ids d ties = Ok ranks /\
    Permutation (keys ranks) (keys d) /\
    values ranks = seq 1 (List.length d) /\
    forall k1 k2 r1 r2, get ranks k1 = Some r1 -> get ranks k2 = Some r2 -> (r1 < r2 <-> outranks rank_ids d ties k1 k2).
Proof.
  intros N HT. unfold rank_item in *.
  set (step := fun e : nat * T A => let! ts := mapM (fun t => of_option KeyError (get t (fst e))) ties in Ok (fst e, snd e :: ts)).
  assert (Hstep : forall e, In e d -> exists y, step e = Ok y /\ fst y = fst e /\ rank_values d ties (fst e) (snd y)).
  { intros [k v] He. unfold step; cbn.
    destruct (mapM_total (fun t => of_option KeyError (get t k)) ties) as [ts Hts].
    { intros t Ht. destruct (HT k t) as [x Hx]; auto; [change k with (fst (k, v)); now apply in_map|]. rewrite Hx. eexists; reflexivity. }
    rewrite Hts; cbn. eexists; split; [reflexivity|]. split; [reflexivity|]. exists v, ts. split; [now apply In_get|]. split; [|reflexivity].
    apply mapM_ok in Hts. clear -Hts. induction Hts; constructor; auto. now apply of_option_ok in H. }
  destruct (mapM_total step d) as [items Hitems]; [intros e He; destruct (Hstep e He) as (y & E & _); eauto|].
  unfold calculate_ranks. fold step. rewrite Hitems. cbn [bind].
  set (sorted := rank_sort rank_ids items : list (nat * list (T A))).
  assert (F2 : Forall2 (fun e y => fst y = fst e /\ rank_values d ties (fst e) (snd y)) d items).
  { apply mapM_ok in Hitems. clear -Hitems Hstep.
    assert (G : forall l items, Forall2 (fun x y => step x = Ok y) l items -> (forall e, In e l -> exists y, step e = Ok y /\ fst y = fst e /\ rank_values d ties (fst e) (snd y)) ->
       Forall2 (fun e y => fst y = fst e /\ rank_values d ties (fst e) (snd y)) l items).
    { induction 1; intros Hs; constructor.
      - destruct (Hs x) as (y' & E & R); [now left|]. rewrite H in E. injection E as <-. assumption.
      - apply IHForall2. intros; apply Hs; now right. }
    now apply G. }
  assert (Kitems : map fst items = keys d).
  { clear -F2. unfold keys. revert F2. generalize (rank_values d ties). intros R F2. induction F2; cbn; [reflexivity|]. destruct H. now f_equal. }
  assert (Vitems : forall y, In y items -> rank_values d ties (fst y) (snd y)).
  { clear -F2. revert F2. generalize (rank_values d ties). intros R F2 y Hy. induction F2; [destruct Hy|]. destruct Hy as [<-|Hy]; [destruct H as [-> HR]; assumption | auto]. }
  assert (Litems : Forall (fun q => List.length (snd q) = S (List.length ties)) items).
  { apply Forall_forall. intros y Hy. destruct (Vitems y Hy) as (v & ts & _ & Ht & ->). cbn. f_equal. clear -Ht. induction Ht; cbn; auto. }
  assert (P : Permutation sorted items) by apply rank_sort_perm.
  assert (Pk : Permutation (map fst sorted) (keys d)) by (rewrite <- Kitems; now apply Permutation_map).
  assert (Ll : List.length (map fst sorted) = List.length (seq 1 (List.length sorted))) by (rewrite seq_length, map_length; reflexivity).
  assert (Ns : NoDup (map fst sorted)) by (eapply Permutation_NoDup; [symmetry; exact Pk | assumption]).
  assert (S : StronglySorted (ranked_ok rank_ids (fun p q => inserted_before d (fst p) (fst q))) sorted).
  { apply (rank_sort_sorted O) with (n := S (List.length ties)); [assumption|].
    assert (B : StronglySorted (inserted_before d) (keys d)) by apply nodup_before. rewrite <- Kitems in B. clear -B.
    induction items as [|a l IH]; [constructor|]. cbn in B. inversion B; subst. constructor; [now apply IH|].
    apply Forall_forall. intros z Hz. apply (proj1 (Forall_forall _ _) H2). now apply in_map. }
  exists (combine (map fst sorted) (seq 1 (List.length sorted))). split; [reflexivity|]. split; [| split].
  - unfold keys at 1. rewrite combine_fst by assumption. assumption.
  - unfold values. rewrite combine_snd by assumption. f_equal. apply Permutation_length in Pk. unfold keys in Pk. rewrite !map_length in Pk. exact Pk.
  - intros k1 k2 r1 r2 H1 H2. assert (Ls : List.length sorted = List.length (map fst sorted)) by (symmetry; apply map_length). rewrite Ls in H1, H2.
    apply get_combine_seq in H1 as [L1 H1]; [|assumption]. apply get_combine_seq in H2 as [L2 H2]; [|assumption].
    assert (G : forall k r, nth_error (map fst sorted) r = Some k -> exists x, nth_error sorted r = Some (k, x) /\ rank_values d ties k x /\ List.length x = Datatypes.S (List.length ties)).
    { intros k r H. rewrite nth_error_map in H. destruct (nth_error sorted r) as [[k' x]|] eqn:E; [|discriminate]. cbn in H. injection H as ->.
      assert (I : In (k, x) items) by (eapply Permutation_in; [exact P | eapply nth_error_In; eassumption]).
      exists x. split; [reflexivity|]. split; [now apply (Vitems (k, x)) | now apply (proj1 (Forall_forall _ _) Litems (k, x))]. }
    destruct (G _ _ H1) as (x1 & E1 & V1 & X1). destruct (G _ _ H2) as (x2 & E2 & V2 & X2).
    assert (U : forall k x y, rank_values d ties k x -> rank_values d ties k y -> x = y).
    { intros k x y (v & ts & Hv & Ht & ->) (v' & ts' & Hv' & Ht' & ->). rewrite Hv in Hv'. injection Hv' as <-. f_equal.
      revert ts' Ht'. clear -Ht. induction Ht; intros ts' Ht'; inversion Ht'; subst; [reflexivity|]. f_equal; [congruence | auto]. }
    assert (Fwd : forall ka kb ra rb xa xb, nth_error sorted ra = Some (ka, xa) -> nth_error sorted rb = Some (kb, xb) -> rank_values d ties ka xa ->
       rank_values d ties kb xb -> List.length xa = Datatypes.S (List.length ties) -> List.length xb = Datatypes.S (List.length ties) -> ra < rb -> outranks rank_ids d ties ka kb).
    { intros ka kb ra rb xa xb Ea Eb Va Vb Xa Xb L. assert (R := strongly_nth _ _ _ _ _ _ S L Ea Eb). destruct R as [R1 R2]. cbn [fst snd] in *.
      exists xa, xb. split; [assumption|]. split; [assumption|].
      destruct (tuple_cases O xa xb ltac:(congruence)) as [C|[C|C]]; [now left | |].
      - exfalso. assert (rank_ltb rank_ids (ka, xa) (kb, xb) = true) by (unfold rank_ltb; cbn [fst snd]; apply (tuple_ltb_greater O); [congruence | assumption]). congruence.
      - right. split; [assumption|]. unfold rank_ltb in R1, R2; cbn [fst snd] in R1, R2. rewrite (tuple_ltb_equal xa xb) in R1 by assumption.
        rewrite (tuple_ltb_equal xb xa) in R2 by (now apply (all_equal_sym O)). destruct rank_ids; cbn in *; [|now apply R2].
        apply Nat.ltb_ge in R1. assert (ka <> kb); [|lia]. intros ->.
        assert (nth_error (map fst sorted) ra = nth_error (map fst sorted) rb) by (rewrite !nth_error_map, Ea, Eb; reflexivity).
        apply (NoDup_nth_error _) in H; [lia | assumption |]. apply nth_error_Some. rewrite nth_error_map, Ea. discriminate. }
    split; [intros L; apply (Fwd k1 k2 (r1 - 1) (r2 - 1) x1 x2); auto; lia|].
    intros (xa & xb & Va & Vb & C). rewrite (U _ _ _ Va V1) in *. rewrite (U _ _ _ Vb V2) in *.
    destruct (lt_eq_lt_dec r1 r2) as [[L|E]|L]; [assumption | exfalso | exfalso].
    + subst r2. assert (x1 = x2 /\ k1 = k2) as [<- <-] by (split; congruence).
      destruct C as [C|[_ C]].
      * assert (tuple_ltb x1 x1 false = true) by (apply (tuple_ltb_greater O); auto).
        assert (R := proj1 (rank_ltb_props O false (Datatypes.S (List.length ties))) (k1, x1)). unfold rank_ltb in R; cbn [fst snd andb] in R. congruence.
      * destruct rank_ids; [lia|]. destruct C as (l1 & l2 & l3 & E). rewrite E in N. apply NoDup_remove_2 in N. apply N. apply in_app_iff; right. apply in_app_iff; right; now left.
    + destruct (Fwd k2 k1 (r2 - 1) (r1 - 1) x2 x1) as (xa' & xb' & Va' & Vb' & C'); auto; [lia|].
      rewrite (U _ _ _ Va' V2) in *. rewrite (U _ _ _ Vb' V1) in *.
      assert (Anti : forall u v : list (T A), List.length u = List.length v -> lex_greater u v -> lex_greater v u -> False).
      { intros u v Lu G1 G2. apply (tuple_ltb_greater O) with (tl := false) in G1; [|congruence]. apply (tuple_ltb_greater O) with (tl := false) in G2; [|congruence].
        assert (R := proj1 (proj2 (rank_ltb_props O false (List.length u))) (0, u) (0, v) eq_refl (eq_sym Lu)). unfold rank_ltb in R; cbn [fst snd andb] in R.
        rewrite G2 in R. specialize (R eq_refl). congruence. }
      assert (NE : forall u v : list (T A), List.length u = List.length v -> lex_greater u v -> all_equal u v -> False).
      { intros u v Lu G1 G2. apply (tuple_ltb_greater O) with (tl := false) in G1; [|congruence]. apply all_equal_sym in G2; [|assumption]. rewrite tuple_ltb_equal in G1 by assumption. discriminate. }
      destruct C as [C|[C C1]], C' as [C'|[C' C1']].
      * apply (Anti x1 x2); auto; congruence.
      * apply (NE x1 x2); auto; [congruence | now apply all_equal_sym].
      * apply (NE x2 x1); auto; [congruence | now apply all_equal_sym].
      * destruct rank_ids; [lia|]. destruct C1 as (l1 & l2 & l3 & E). destruct C1' as (m1 & m2 & m3 & E').
        assert (Q : forall (l : list nat) a b, NoDup l -> (exists l1 l2 l3, l = l1 ++ a :: l2 ++ b :: l3) -> exists i j, i < j /\ nth_error l i = Some a /\ nth_error l j = Some b).
        { clear. intros l a b _ (l1 & l2 & l3 & ->). exists (List.length l1), (List.length (l1 ++ a :: l2)). split; [rewrite app_length; cbn; lia|]. split.
          - rewrite nth_error_app2 by lia. now rewrite Nat.sub_diag.
          - change (l1 ++ a :: l2 ++ b :: l3) with (l1 ++ (a :: l2) ++ b :: l3). rewrite app_assoc. rewrite nth_error_app2 by lia. now rewrite Nat.sub_diag. }
        destruct (Q (keys d) k1 k2 N) as (i & j & Hij & Hi & Hj); [eauto|]. destruct (Q (keys d) k2 k1 N) as (i' & j' & Hij' & Hi' & Hj'); [eauto|].
        assert (i = j'). { apply (proj1 (NoDup_nth_error (keys d)) N); [apply nth_error_Some; congruence | congruence]. }
        assert (j = i'). { apply (proj1 (NoDup_nth_error (keys d)) N); [apply nth_error_Some; congruence | congruence]. }
        lia.
Qed.

(** Two pools with equal values: the lower id is ranked first; with a tie breaker the tie breaker decides. *)
Example C10_example :
  calculate_ranks (A := QcA) true [(7, Q2Qc 2); (3, Q2Qc 2); (5, Q2Qc 9)] [] = Ok [(5, 1); (3, 2); (7, 3)] /\
  calculate_ranks (A := QcA) true [(7, Q2Qc 2); (3, Q2Qc 2)] [[(3, 0%Qc); (7, 1%Qc)]] = Ok [(7, 1); (3, 2)].
Proof. split; reflexivity. Qed.

(** * C11 *)

(** The stake that a list of pools can hold without any of them exceeding its saturation threshold. *)
Definition capacity {A} (rs : rss A) (l : list (pool A)) : T A :=
  match l with [] => zero | _ => fsum (map (fun p => pool_threshold rs (p_pledge p)) l) end.
(** The first pools of a ranking, none of which is a placeholder. *)
Definition front {A} (pools : list (option (pool A))) (l : list (pool A)) (rest : list (option (pool A))) : Prop := pools = map Some l ++ rest.

Section C11.
  Context {A : Arith}.
  Variables (rs : rss A) (target : T A).
  Lemma target_loop_front top l rest :
    (forall l1 p l2, l = l1 ++ p :: l2 -> leb target (capacity rs (top ++ l1)) = false) ->
    target_loop rs (map Some l ++ rest) target (capacity rs top) top (last (map Some top) None) =
    target_loop rs rest target (capacity rs (top ++ l)) (top ++ l) (last (map Some (top ++ l)) None).
  Proof.
    revert top. induction l as [|p l IH]; intros top H; cbn [map app]; [now rewrite app_nil_r|].
    cbn [target_loop].
    assert (E := H [] p l eq_refl). rewrite app_nil_r in E. rewrite E.
    replace (top ++ p :: l) with ((top ++ [p]) ++ l) by (now rewrite <- app_assoc).
    rewrite <- IH.
    - f_equal; [destruct top; reflexivity|]. rewrite map_app. cbn [map]. now rewrite last_last.
    - intros l1 q l2 El. rewrite <- app_assoc. cbn [app]. apply (H (p :: l1) q l2). now rewrite El.
  Qed.
End C11.

(** Case 1: [l] is the shortest prefix that covers the target.  The answer is its last pool (None if nothing has to be covered). *)
Theorem C11_covered (A : Arith) (rs : rss A) (target : T A) pools l rest :
  front pools l rest ->
  leb target (capacity rs l) = true ->
  (forall l1 p l2, l = l1 ++ p :: l2 -> leb target (capacity rs l1) = false) ->
  find_target_pool rs pools target = last (map Some l) None.
Proof.
  intros -> Hc Hs. unfold find_target_pool.
  assert (F := target_loop_front rs target [] l rest Hs). cbn in F. rewrite F.
  destruct rest; cbn [target_loop]; [reflexivity|]. now rewrite Hc.
Qed.
(** Case 2: a placeholder is reached before the target is covered. *)
Theorem C11_placeholder (A : Arith) (rs : rss A) (target : T A) pools l rest :
  front pools l (None :: rest) ->
  (forall l1 l2, l = l1 ++ l2 -> leb target (capacity rs l1) = false) ->
  find_target_pool rs pools target = None.
Proof.
  intros -> Hs. unfold find_target_pool.
  assert (F := target_loop_front rs target [] l (None :: rest)). cbn [app map last capacity] in F. rewrite F.
  - cbn [target_loop]. rewrite (Hs l []); [reflexivity | now rewrite app_nil_r].
  - intros l1 p l2 E. eapply Hs; exact E.
Qed.
(** Case 3: all pools together do not cover the target (or only just): the last pool, None for the empty list. *)
Theorem C11_exhausted (A : Arith) (rs : rss A) (target : T A) pools l :
  front pools l [] ->
  (forall l1 p l2, l = l1 ++ p :: l2 -> leb target (capacity rs l1) = false) ->
  find_target_pool rs pools target = last (map Some l) None.
Proof.
  intros -> Hs. unfold find_target_pool.
  assert (F := target_loop_front rs target [] l [] Hs). cbn [app map last capacity] in F. now rewrite F.
Qed.
(** One of the three cases always applies. *)
Theorem C11_cases_exhaustive (A : Arith) (rs : rss A) (target : T A) pools :
  exists l rest, front pools l rest /\
    (forall l1 p l2, l = l1 ++ p :: l2 -> leb target (capacity rs l1) = false) /\
    (leb target (capacity rs l) = true \/ rest = [] \/ (leb target (capacity rs l) = false /\ exists r, rest = None :: r)).
Proof.
  assert (G : forall rest l, (forall l1 p l2, l = l1 ++ p :: l2 -> leb target (capacity rs l1) = false) ->
    exists l' rest', map Some l ++ rest = map Some l' ++ rest' /\
      (forall l1 p l2, l' = l1 ++ p :: l2 -> leb target (capacity rs l1) = false) /\
      (leb target (capacity rs l') = true \/ rest' = [] \/ (leb target (capacity rs l') = false /\ exists r, rest' = None :: r))).
  { induction rest as [|[p|] rest IH]; intros l Hs.
    - exists l, []. auto.
    - destruct (leb target (capacity rs l)) eqn:E; [exists l, (Some p :: rest); auto|].
      destruct (IH (l ++ [p])) as (l' & rest' & E' & H1 & H2).
      + intros l1 q l2 El. destruct l2 as [|a l2] using rev_ind.
        * apply app_inj_tail in El as [-> _]. assumption.
        * rewrite app_comm_cons, app_assoc in El. apply app_inj_tail in El as [-> _]. eapply Hs. reflexivity.
      + exists l', rest'. rewrite map_app, <- app_assoc in E'. cbn in E'. auto.
    - destruct (leb target (capacity rs l)) eqn:E; exists l, (None :: rest); eauto 10. }
  destruct (G pools []) as (l & rest & E & H1 & H2).
  - intros [|] ? ? E; discriminate.
  - exists l, rest. auto.
Qed.
(** In exact arithmetic with non-negative thresholds capacities only grow, so "shortest prefix" is unambiguous. *)
Theorem C11_capacity_monotone (rs : rss QcA) l1 l2 :
  (forall p, In p (l1 ++ l2) -> 0 <= pool_threshold rs (p_pledge p))%Qc -> (capacity rs l1 <= capacity rs (l1 ++ l2))%Qc.
Proof.
  intros H.
  assert (E : forall l, capacity rs l = Qc_sum (map (fun p => pool_threshold rs (p_pledge p)) l)) by (destruct l; reflexivity).
  rewrite !E. induction l1 as [|p l1 IH]; cbn [app map Qc_sum fold_right] in *.
  - induction l2 as [|q l2 IH2]; cbn [map fold_right]; [apply Qcle_refl|].
    assert (0 <= pool_threshold rs (p_pledge q))%Qc by (apply H; now left).
    assert (0 <= fold_right Qcplus 0 (map (fun p => pool_threshold rs (p_pledge p)) l2))%Qc by (apply IH2; intros; apply H; now right).
    change 0%Qc with (0 + 0)%Qc. now apply Qcplus_le_compat.
  - apply Qcplus_le_compat; [apply Qcle_refl|]. apply IH. intros; apply H. now right.
Qed.

(** Thresholds 1/2 each: the first two of three pools cover 3/4; with a placeholder in second place nothing is found. *)
Example C11_example :
  let rs := mkRss (A := QcA) Cardano 2 0%Qc (Q2Qc (1 # 2)) in
  let p i := mkPool (A := QcA) i 0%Qc 0%Qc 0%Qc 0 false [] 0%Qc 0%Qc 0%Qc in
  option_map p_id (find_target_pool rs [Some (p 1); Some (p 2); Some (p 3)] (Q2Qc (3 # 4))) = Some 2 /\
  find_target_pool rs [Some (p 1); None; Some (p 3)] (Q2Qc (3 # 4)) = None.
Proof. split; reflexivity. Qed.

(** * C12 *)
Section C12.
  Variables (K V : Type) (keq : K -> K -> bool) (f : K -> res V) (maxsize : nat).
  Variable R : V -> V -> Prop.   (* "the same value": equality, or equality up to the sign of zero *)
  Hypothesis R_refl : forall v, R v v.
  (** equal arguments give the same value *)
  Hypothesis f_resp : forall k k' v', keq k k' = true -> f k' = Ok v' -> exists v, f k = Ok v /\ R v' v.
  Definition same_result (r1 r2 : res V) : Prop :=
    match r1, r2 with Ok v1, Ok v2 => R v1 v2 | Err e1, Err e2 => e1 = e2 | _, _ => False end.

  Definition cache_ok (c : list (K * V)) : Prop := Forall (fun e => f (fst e) = Ok (snd e)) c /\ List.length c <= maxsize.
  Lemma lru_find_spec k c e rest : lru_find K V keq k c = Some (e, rest) -> In e c /\ keq k (fst e) = true /\ Permutation (e :: rest) c.
  Proof.
    revert rest. induction c as [|e0 c IH]; cbn; intros rest H; [discriminate|].
    destruct (keq k (fst e0)) eqn:E.
    - injection H as <- <-. split; [now left|]. split; [assumption | reflexivity].
    - destruct (lru_find K V keq k c) as [[e' r]|]; [|discriminate]. injection H as <- <-. destruct (IH r eq_refl) as (H1 & H2 & H3).
      split; [now right|]. split; [assumption|]. rewrite <- H3. apply perm_swap.
  Qed.
  Lemma removelast_incl {X} (l : list X) x : In x (removelast l) -> In x l.
  Proof. induction l as [|a l IH]; cbn; [auto|]. destruct l; [intros []|]. intros [<-|H]; [now left | right; auto]. Qed.
  Lemma removelast_length {X} (l : list X) : List.length (removelast l) = List.length l - 1.
  Proof. induction l as [|a l IH]; cbn [removelast]; [reflexivity|]. destruct l; [reflexivity|]. cbn [List.length]. rewrite IH. cbn. lia. Qed.
  Lemma lru_call_ok c k : 1 <= maxsize -> cache_ok c -> cache_ok (fst (lru_call K V keq f maxsize c k)) /\ same_result (snd (lru_call K V keq f maxsize c k)) (f k).
  Proof.
    intros Hm [Hc Hl]. unfold lru_call. destruct (lru_find K V keq k c) as [[e rest]|] eqn:E; cbn [fst snd].
    - apply lru_find_spec in E as (I & Q & P). split; [split|].
      + eapply Permutation_Forall; [symmetry; exact P | assumption].
      + now rewrite (Permutation_length P).
      + destruct (f_resp k (fst e) (snd e) Q) as (v & -> & Rv); [now apply (proj1 (Forall_forall _ _) Hc)|]. exact Rv.
    - destruct (f k) as [v|x] eqn:Ef; cbn [fst snd]; [|split; [split; assumption | reflexivity]].
      split; [|apply R_refl]. destruct (Nat.leb_spec maxsize (List.length c)).
      + split.
        * constructor; [assumption|]. apply Forall_forall. intros e He. apply removelast_incl in He. now apply (proj1 (Forall_forall _ _) Hc).
        * cbn [List.length]. rewrite removelast_length. lia.
      + split; [constructor; assumption | cbn [List.length]; lia].
  Qed.
  Lemma lru_calls_ok ks : forall c, 1 <= maxsize -> cache_ok c ->
    let '(c', rs, ns) := lru_calls K V keq f maxsize c ks in
    cache_ok c' /\ Forall2 same_result rs (map f ks) /\ Forall (fun n => n <= maxsize) ns.
  Proof.
    induction ks as [|k ks IH]; intros c Hm Hc; cbn [lru_calls map]; [auto|].
    destruct (lru_call_ok c k Hm Hc) as [H1 H2]. destruct (lru_call K V keq f maxsize c k) as [c1 r] eqn:E1. cbn [fst snd] in *.
    specialize (IH c1 Hm H1). destruct (lru_calls K V keq f maxsize c1 ks) as [[c2 rs] ns]. destruct IH as (I1 & I2 & I3).
    split; [assumption|]. split; [now constructor|]. constructor; [apply H1 | assumption].
  Qed.
End C12.

(** For every function and every sequence of calls on an initially empty cache: the results are those of the plain function, exceptions included, and the
    cache never holds more than [maxsize] entries. *)
Theorem C12_memoisation_transparent (K V : Type) (keq : K -> K -> bool) (f : K -> res V) (R : V -> V -> Prop) (maxsize : nat) (ks : list K) :
  1 <= maxsize -> (forall v, R v v) ->
  (forall k k' v', keq k k' = true -> f k' = Ok v' -> exists v, f k = Ok v /\ R v' v) ->
  let '(_, results, sizes) := lru_calls K V keq f maxsize [] ks in
  Forall2 (same_result V R) results (map f ks) /\ Forall (fun n => n <= maxsize) sizes.
Proof.
  intros Hm HR Hf. assert (H := lru_calls_ok K V keq f maxsize R HR Hf ks [] Hm).
  destruct (lru_calls K V keq f maxsize [] ks) as [[c rs] ns]. destruct H as (_ & H); [split; [constructor | cbn; lia] | exact H].
Qed.

(** The cached helpers, with the argument tuples by which they are called. *)
Section C12_helpers.
  Variable A : Arith.
  Notation num := (T A).
  Inductive cached :=   (* which decorated function is called, with which arguments *)
    | CDelegatorReward (margin cost reward frac : num) | COperatorReward (margin cost reward frac : num) | CCostPerPool (n : Z) (cost frac : num)
    | CSuitableMargin (pp target : num) | CDesirability (margin pp : num) | CNonMyopic (pledge stake thr : num) (top : bool) | CPledgePerPool (stake thr : num) (n : Z).
  Definition plain (c : cached) : res num :=
    match c with
    | CDelegatorReward a b c d => Ok (delegator_reward a b c d)
    | COperatorReward a b c d => Ok (operator_reward a b c d)
    | CCostPerPool n a b => cost_per_pool n a b
    | CSuitableMargin a b => suitable_margin a b
    | CDesirability a b => Ok (desirability a b)
    | CNonMyopic a b c t => Ok (non_myopic_from_rank a b c t)
    | CPledgePerPool a b n => pledge_per_pool a b n
    end.
  Definition same_args (x y : cached) : bool :=
    match x, y with
    | CDelegatorReward a b c d, CDelegatorReward a' b' c' d' => eqb a a' && eqb b b' && eqb c c' && eqb d d'
    | COperatorReward a b c d, COperatorReward a' b' c' d' => eqb a a' && eqb b b' && eqb c c' && eqb d d'
    | CCostPerPool n a b, CCostPerPool n' a' b' => Z.eqb n n' && eqb a a' && eqb b b'
    | CSuitableMargin a b, CSuitableMargin a' b' => eqb a a' && eqb b b'
    | CDesirability a b, CDesirability a' b' => eqb a a' && eqb b b'
    | CNonMyopic a b c t, CNonMyopic a' b' c' t' => eqb a a' && eqb b b' && eqb c c' && Bool.eqb t t'
    | CPledgePerPool a b n, CPledgePerPool a' b' n' => eqb a a' && eqb b b' && Z.eqb n n'
    | _, _ => false
    end.
End C12_helpers.
Arguments plain {A}. Arguments same_args {A}.

(** The seven numeric helpers, called in any order with any rational arguments through caches of 1024 entries, return what the plain functions return. *)
Theorem C12_helpers_transparent (calls : list (cached QcA)) :
  let '(_, results, sizes) := lru_calls _ _ same_args plain 1024 [] calls in
  results = map plain calls /\ Forall (fun n => n <= 1024) sizes.
Proof.
  assert (EQ : forall x y : Qc, @eqb QcA x y = true -> x = y).
  { intros x y H. cbn in H. unfold Qc_eqb in H. apply Qceq_alt. destruct (x ?= y)%Qc; congruence. }
  assert (SA : forall k k' : cached QcA, same_args k k' = true -> k = k').
  { intros [] [] H; cbn -[eqb] in H; try discriminate; repeat (apply andb_prop in H as [H ?]);
    repeat match goal with
    | H : @eqb QcA _ _ = true |- _ => apply EQ in H
    | H : Z.eqb _ _ = true |- _ => apply Z.eqb_eq in H
    | H : Bool.eqb _ _ = true |- _ => apply Bool.eqb_prop in H
    end; subst; reflexivity. }
  assert (H := C12_memoisation_transparent _ _ same_args plain eq 1024 calls).
  destruct (lru_calls _ _ same_args plain 1024 [] calls) as [[c rs] ns]. destruct H as [H1 H2].
  - lia.
  - reflexivity.
  - intros k k' v' E Hv. apply SA in E as ->. eauto.
  - split; [|assumption]. clear -H1. remember (map plain calls) as l. clear Heql. induction H1; [reflexivity|].
    f_equal; [|assumption]. unfold same_result in H. destruct x, y; congruence || contradiction.
Qed.
(** A hit after an eviction: cache of size 2, three different calls, the first one again. *)
Example C12_example : exists sizes,
  lru_calls nat nat Nat.eqb (fun n => Ok (n * n)) 2 [] [1; 2; 3; 1; 1] = ([(1, 1); (3, 9)], [Ok 1; Ok 4; Ok 9; Ok 1; Ok 1], sizes).
Proof. eexists. reflexivity. Qed.

(** * C46 *)

(** What a command line string or an int argument denotes. *)
Definition denotes {A} (v : pyval A) (z : Z) : Prop :=
  match v with VInt i => i = z | VStr s => s = NilZero.string_of_int (Z.to_int z) | VNum _ => False end.
Lemma py_int_denotes {A} (v : pyval A) z : denotes v z -> py_int v = Ok z.
Proof.
  destruct v as [i|x|s]; cbn; [intros ->; reflexivity | intros [] |]. intros ->.
  assert (E : NilZero.int_of_string (NilZero.string_of_int (Z.to_int z)) = Some (Z.to_int z)).
  { apply NilZero.isi; destruct z; cbn; try discriminate; intros [= H]; now apply DecimalPos.Unsigned.to_uint_nonnil in H. }
  rewrite E. now rewrite DecimalZ.of_to.
Qed.
Theorem C46_positive_int (A : Arith) (v : pyval A) (z : Z) : denotes v z ->
  ((0 < z)%Z -> positive_int v = Ok z) /\ ((z <= 0)%Z -> positive_int v = Err ArgumentTypeError).
Proof. intros H. unfold positive_int. rewrite (py_int_denotes v z H). cbn. destruct (Z.leb_spec z 0); split; intros; lia || reflexivity. Qed.
Theorem C46_non_negative_int (A : Arith) (v : pyval A) (z : Z) : denotes v z ->
  ((0 <= z)%Z -> non_negative_int v = Ok z) /\ ((z < 0)%Z -> non_negative_int v = Err ArgumentTypeError).
Proof. intros H. unfold non_negative_int. rewrite (py_int_denotes v z H). cbn. destruct (Z.ltb_spec z 0); split; intros; lia || reflexivity. Qed.
(** Strings that are not integers are rejected. *)
Theorem C46_not_an_int (A : Arith) (s : string) : NilZero.int_of_string s = None ->
  positive_int (VStr (A := A) s) = Err ValueError /\ non_negative_int (VStr (A := A) s) = Err ValueError.
Proof. intros H. unfold positive_int, non_negative_int, py_int. now rewrite H. Qed.
(** Rationals: accepted exactly in the stated range, and returned unchanged. *)
Theorem C46_floats (x : Qc) :
  positive_float (A := QcA) x = (if Qclt_le_dec 0 x then Ok x else Err ArgumentTypeError) /\
  non_negative_float (A := QcA) x = (if Qclt_le_dec x 0 then Err ArgumentTypeError else Ok x) /\
  fraction (A := QcA) x = (if Qclt_le_dec x 0 then Err ArgumentTypeError else if Qclt_le_dec 1 x then Err ArgumentTypeError else Ok x).
Proof.
  unfold positive_float, non_negative_float, fraction. cbn [leb ltb zero one QcA].
  split; [|split].
  - destruct (Qc_leb_spec x 0), (Qclt_le_dec 0 x); try reflexivity; qlra.
  - destruct (Qc_ltb_spec x 0), (Qclt_le_dec x 0); try reflexivity; qlra.
  - destruct (Qc_ltb_spec x 0), (Qclt_le_dec x 0), (Qc_ltb_spec 1 x), (Qclt_le_dec 1 x); cbn [orb]; try reflexivity; qlra.
Qed.
(** Machine numbers: the positive validators accept exactly the numbers of their range, and NaN. *)
Theorem C46_floats_ieee (x : float) :
  (positive_float (A := FloatI) x = Ok x <-> PrimFloat.ltb 0 x = true \/ PrimFloat.is_nan x = true) /\
  (non_negative_float (A := FloatI) x = Ok x <-> PrimFloat.leb 0 x = true \/ PrimFloat.is_nan x = true) /\
  (fraction (A := FloatI) x = Ok x <-> (PrimFloat.leb 0 x = true /\ PrimFloat.leb x 1 = true) \/ PrimFloat.is_nan x = true).
Proof.
  unfold positive_float, non_negative_float, fraction. cbn [leb ltb zero one FloatI].
  unfold PrimFloat.is_nan. rewrite !FloatAxioms.leb_spec, !FloatAxioms.ltb_spec, !FloatAxioms.eqb_spec.
  unfold SFleb, SFltb, SFeqb.
  replace (Prim2SF 0) with (S754_zero false) by (vm_compute; reflexivity).
  replace (Prim2SF 1) with (S754_finite false 4503599627370496 (-52)) by (vm_compute; reflexivity).
  set (s1 := S754_finite false 4503599627370496 (-52)). set (s0 := S754_zero false).
  assert (N : forall y, SFcompare y y = Some Eq \/ (SFcompare y y = None /\ y = S754_nan)).
  { intros [[]|[]| |[] m e]; cbn; auto; left; rewrite Z.compare_refl, Pos.compare_cont_refl; reflexivity. }
  assert (W : forall y z, SFcompare z y = match SFcompare y z with Some Eq => Some Eq | Some Lt => Some Gt | Some Gt => Some Lt | None => None end).
  { intros [[]|[]| |[] m e] [[]|[]| |[] m' e']; cbn; try reflexivity; rewrite (Z.compare_antisym e e');
      destruct (e ?= e')%Z; cbn; try reflexivity; change (Pos.compare_cont Eq) with Pos.compare;
      rewrite (Pos.compare_antisym m m'); destruct (Pos.compare m m'); reflexivity. }
  assert (NN : forall y, SFcompare y s0 = None \/ SFcompare y s1 = None -> y = S754_nan).
  { assert (G : forall y z, SFcompare y z = None -> y = S754_nan \/ z = S754_nan).
    { intros [[]|[]| |[] m e] [[]|[]| |[] m' e']; cbn; try discriminate; auto; destruct (e ?= e')%Z; discriminate. }
    intros y [H|H]; apply G in H as [H|H]; try assumption; unfold s0, s1 in H; discriminate H. }
  clearbody s0 s1.
  assert (F : forall (b : bool), (if b then Err ArgumentTypeError else Ok x) = Ok x <-> b = false) by (intros []; split; congruence).
  rewrite !F. clear F. generalize dependent (Prim2SF x). intros y. rewrite (W y s0), (W y s1).
  assert (NN' := NN y). destruct (N y) as [E|[E ->]]; [|cbn; clear; split; [|split]; split; auto].
  rewrite E. destruct (SFcompare y s0) as [c0|]; [|rewrite (NN' (or_introl eq_refl)) in E; discriminate].
  destruct (SFcompare y s1) as [c1|]; [|rewrite (NN' (or_intror eq_refl)) in E; discriminate].
  clear. destruct c0, c1; cbn; intuition congruence.
Qed.
Theorem C46_nan_accepted_refuted : exists x : float,
  positive_float (A := FloatI) x = Ok x /\ fraction (A := FloatI) x = Ok x /\ PrimFloat.ltb 0 x = false /\ PrimFloat.leb x 1 = false.
Proof. exists PrimFloat.nan. repeat split; reflexivity. Qed.
Example C46_example : positive_int (VStr (A := QcA) "12") = Ok 12%Z /\ positive_int (VStr (A := QcA) "-3") = Err ArgumentTypeError /\
  positive_int (VStr (A := QcA) "1.5") = Err ValueError /\ denotes (VStr (A := QcA) "-3") (-3).
Proof. repeat split; reflexivity. Qed.

(** * C47 *)
Lemma Qc_sum_repeat x n : Qc_sum (repeat x n) = (Qc_ofZ (Z.of_nat n) * x)%Qc.
Proof.
  induction n as [|n IH]; [cbn [repeat Qc_sum fold_right]; change (Qc_ofZ (Z.of_nat 0)) with 0%Qc; ring|].
  cbn [repeat Qc_sum fold_right]. fold (Qc_sum (repeat x n)). rewrite IH, Nat2Z.inj_succ, <- Z.add_1_r, Qc_ofZ_add. change (Qc_ofZ 1) with 1%Qc. ring.
Qed.
Lemma Qc_sum_app l1 l2 : Qc_sum (l1 ++ l2) = (Qc_sum l1 + Qc_sum l2)%Qc.
Proof.
  induction l1 as [|x l1 IH]; [cbn [app]; change (Qc_sum []) with 0%Qc; ring|].
  change (Qc_sum ((x :: l1) ++ l2)) with (x + Qc_sum (l1 ++ l2))%Qc. change (Qc_sum (x :: l1)) with (x + Qc_sum l1)%Qc. rewrite IH. ring.
Qed.

Theorem C47_flat (n : Z) : (1 <= n)%Z ->
  exists l, stake_distr_flat (A := QcA) n = Ok l /\ Z.of_nat (List.length l) = n /\ (forall x, In x l -> (0 < x)%Qc) /\ Qc_sum l = 1%Qc.
Proof.
  intros H. unfold stake_distr_flat. destruct (Z.ltb_spec 0 n); [|lia].
  assert (P : (0 < Qc_ofZ n)%Qc) by (apply Qc_ofZ_pos; lia).
  rewrite pdiv_ok by (change (ofZ n : T QcA) with (Qc_ofZ n); intros E; rewrite E in P; now apply Qclt_not_eq in P). cbn [bind].
  eexists; split; [reflexivity|]. split; [rewrite repeat_length; lia|]. split.
  - intros x Hx. apply repeat_spec in Hx as ->. cbn [div one ofZ QcA]. apply Qcdiv_pos; [reflexivity | assumption].
  - rewrite Qc_sum_repeat, Z2Nat.id by lia. cbn [div one ofZ QcA]. field. intros E; rewrite E in P; now apply Qclt_not_eq in P.
Qed.
Theorem C47_flat_empty (n : Z) : (n <= 0)%Z -> stake_distr_flat (A := QcA) n = Ok [].
Proof. intros H. unfold stake_distr_flat. destruct (Z.ltb_spec 0 n); [lia|]. cbn [bind]. now replace (Z.to_nat n) with 0%nat by lia. Qed.
Theorem C47_disparity (n c : Z) (x : Qc) : (1 <= c)%Z -> (c < n)%Z -> (0 < x)%Qc -> (x < 1)%Qc ->
  exists l, stake_distr_disparity (A := QcA) n x c = Ok l /\ Z.of_nat (List.length l) = n /\ (forall y, In y l -> (0 < y)%Qc) /\ Qc_sum l = 1%Qc /\
    Qc_sum (firstn (Z.to_nat c) l) = x.
Proof.
  intros Hc Hn Hx Hx1. unfold stake_distr_disparity.
  assert (P : (0 < Qc_ofZ c)%Qc) by (apply Qc_ofZ_pos; lia).
  assert (P' : (0 < Qc_ofZ (n - c))%Qc) by (apply Qc_ofZ_pos; lia).
  assert (N : Qc_ofZ c <> 0%Qc) by (intros E; rewrite E in P; now apply Qclt_not_eq in P).
  assert (N' : Qc_ofZ (n - c) <> 0%Qc) by (intros E; rewrite E in P'; now apply Qclt_not_eq in P').
  rewrite pdiv_ok by assumption. cbn [bind]. rewrite pdiv_ok by assumption. cbn [bind].
  eexists; split; [reflexivity|]. split; [rewrite app_length, !repeat_length; lia|]. split; [|split].
  - intros y Hy. apply in_app_iff in Hy as [Hy|Hy]; apply repeat_spec in Hy as ->; cbn [div sub one ofZ QcA]; apply Qcdiv_pos; try assumption. qlra.
  - rewrite Qc_sum_app, !Qc_sum_repeat, !Z2Nat.id by lia. cbn [div sub one ofZ QcA]. field. now split.
  - rewrite firstn_app, repeat_length, Nat.sub_diag, firstn_O, app_nil_r.
    rewrite firstn_all2 by (rewrite repeat_length; lia). rewrite Qc_sum_repeat, Z2Nat.id by lia. cbn [div ofZ QcA]. field. assumption.
Qed.
(** The division fails exactly when all agents are rich (or none is). *)
Theorem C47_disparity_undefined (n c : Z) (x : Qc) :
  stake_distr_disparity (A := QcA) n x c = Err ZeroDivisionError <-> n = c \/ c = 0%Z.
Proof.
  unfold stake_distr_disparity.
  assert (E : forall z, @eqb QcA (ofZ z) zero = true <-> z = 0%Z).
  { intros z. change (Qc_eqb (Qc_ofZ z) (Qc_ofZ 0) = true <-> z = 0%Z). destruct (Qc_eqb_spec (Qc_ofZ z) (Qc_ofZ 0)) as [Q|Q]; split; intros H; try discriminate; try reflexivity.
    - apply Z.le_antisymm; apply Z.nlt_ge; intros L; apply Qc_ofZ_lt in L; rewrite Q in L; now apply Qclt_not_eq in L.
    - subst. contradiction. }
  unfold pdiv. destruct (@eqb QcA (ofZ c) zero) eqn:E1; cbn [bind].
  - apply E in E1. split; auto.
  - destruct (@eqb QcA (ofZ (n - c)) zero) eqn:E2; cbn [bind].
    + apply E in E2. split; [left; lia | reflexivity].
    + split; [discriminate|]. intros [->| ->]; exfalso.
      * assert (@eqb QcA (ofZ (c - c)) zero = true) by (apply E; lia). congruence.
      * assert (@eqb QcA (ofZ 0) zero = true) by (now apply E). congruence.
Qed.
Theorem C47_costs (n c : Z) (low high : Qc) : (0 <= c <= n)%Z -> (low <= high)%Qc ->
  exists l, cost_distr_disparity (A := QcA) n low high c = Ok l /\ Z.of_nat (List.length l) = n /\
    (forall y, In y l -> y = low \/ y = high) /\ firstn (Z.to_nat c) l = repeat high (Z.to_nat c) /\ skipn (Z.to_nat c) l = repeat low (Z.to_nat (n - c)).
Proof.
  intros Hc H. unfold cost_distr_disparity. cbn [ltb QcA]. destruct (Qc_ltb_spec high low); [exfalso; qlra|].
  eexists; split; [reflexivity|]. split; [rewrite app_length, !repeat_length; lia|]. split; [|split].
  - intros y Hy. apply in_app_iff in Hy as [Hy|Hy]; apply repeat_spec in Hy; auto.
  - rewrite firstn_app, repeat_length, Nat.sub_diag, firstn_O, app_nil_r. apply firstn_all2. rewrite repeat_length; lia.
  - rewrite skipn_app, repeat_length, Nat.sub_diag, skipn_O. rewrite skipn_all2; [reflexivity | rewrite repeat_length; lia].
Qed.
Example C47_example : exists l, stake_distr_disparity (A := QcA) 17 (Q2Qc (3 # 10)) 3 = Ok l /\ nth_error l 0 = Some (Q2Qc (1 # 10)) /\ nth_error l 3 = Some (Q2Qc (1 # 20)).
Proof. eexists; split; [vm_compute; reflexivity | split; vm_compute; f_equal; apply Qc_is_canon; reflexivity]. Qed.

(** * C48 *)

(** Scheme 3 is documented but cannot be constructed: whatever the other arguments, the constructor raises TypeError. *)
Theorem C48_scheme_3_refuted (A : Arith) (g : args A) profiles stakes costs : g_scheme g = 3%Z -> init g profiles stakes costs = Err TypeError.
Proof. intros H. unfold init. now rewrite H. Qed.
(** The other four reward schemes can be constructed; unknown numbers are rejected. *)
Theorem C48_other_schemes_partial (i : Z) :
  (In i [0; 1; 2; 4]%Z -> exists r, make_rss (A := QcA) i = Ok r) /\ (~ In i [0; 1; 2; 3; 4]%Z -> make_rss (A := QcA) i = Err KeyError).
Proof.
  split.
  - intros [<-|[<-|[<-|[<-|[]]]]]; eexists; reflexivity.
  - intros H. unfold make_rss. destruct i as [|p|p]; [exfalso; apply H; now left | | reflexivity].
    do 3 (destruct p as [p|p|]; try reflexivity; try (exfalso; apply H; cbn; auto 10; fail)).
Qed.
