(** Facts about the Python runtime of Py.v: monadic loops, dictionaries; and about orders, sorting and permutations. *)
From Coq Require Import ZArith List Bool Arith Lia Permutation Sorted.
From Verif Require Import Num Py Stakeholder.
Import ListNotations.

(** ** Results *)
Lemma bind_ok {X Y} (m : res X) (f : X -> res Y) y : bind m f = Ok y <-> exists x, m = Ok x /\ f x = Ok y.
Proof. destruct m; cbn; split; [eauto | intros (x & [= <-] & H); exact H | discriminate | intros (x & [=] & _)]. Qed.
Lemma of_option_ok {X} e (o : option X) x : of_option e o = Ok x <-> o = Some x.
Proof. destruct o; cbn; split; congruence. Qed.

(** destructs the binds of a successful computation *)
Ltac inv_ok H :=
  lazymatch type of H with
  | bind ?m ?f = Ok _ =>
      let x := fresh "v" in let E := fresh "E" in
      destruct m as [x|] eqn:E; cbn [bind] in H; [| discriminate H]
  end.
Ltac inv_all :=
  repeat match goal with
  | H : bind ?m ?f = Ok _ |- _ => inv_ok H
  | H : Ok _ = Ok _ |- _ => injection H; clear H; intros
  | H : Err _ = Ok _ |- _ => discriminate H
  | H : Ok _ = Err _ |- _ => discriminate H
  | H : of_option _ _ = Ok _ |- _ => apply of_option_ok in H
  end.

(** ** foldM, mapM, filterM *)
Lemma foldM_app {X Y} (f : X -> Y -> res X) l1 l2 a : foldM f (l1 ++ l2) a = bind (foldM f l1 a) (foldM f l2).
Proof. revert a; induction l1; intros; cbn; [reflexivity|]. destruct (f a0 a); cbn; [apply IHl1 | reflexivity]. Qed.
Lemma foldM_inv {X Y} (f : X -> Y -> res X) (P : X -> Prop) l a b :
  P a -> (forall a x a', In x l -> P a -> f a x = Ok a' -> P a') -> foldM f l a = Ok b -> P b.
Proof.
  revert a. induction l as [|x l IH]; intros a Ha Hs H; cbn in H; [congruence|].
  inv_ok H. eapply IH; [| | exact H].
  - eapply Hs; [now left | exact Ha | exact E].
  - intros; eapply Hs; [right; eassumption | eassumption | eassumption].
Qed.
Lemma foldM_total {X Y} (f : X -> Y -> res X) (P : X -> Prop) l a :
  P a -> (forall a x, In x l -> P a -> exists a', f a x = Ok a' /\ P a') -> exists b, foldM f l a = Ok b /\ P b.
Proof.
  revert a. induction l as [|x l IH]; intros a Ha Hs; cbn; [eauto|].
  destruct (Hs a x (or_introl eq_refl) Ha) as (a' & E & Ha'). rewrite E; cbn. apply IH; [assumption|].
  intros; apply Hs; [now right | assumption].
Qed.
Lemma foldM_ext {X Y} (f g : X -> Y -> res X) l a : (forall a x, In x l -> f a x = g a x) -> foldM f l a = foldM g l a.
Proof.
  revert a; induction l as [|x l IH]; intros a H; cbn; [reflexivity|]. rewrite (H a x) by (now left).
  destruct (g a x); cbn; [| reflexivity]. apply IH. intros; apply H; now right.
Qed.
Lemma foldM_pure {X Y} (f : X -> Y -> res X) (g : X -> Y -> X) l a :
  (forall a x, In x l -> f a x = Ok (g a x)) -> foldM f l a = Ok (fold_left g l a).
Proof.
  revert a; induction l as [|x l IH]; intros a H; cbn; [reflexivity|]. rewrite (H a x) by (now left). cbn. apply IH.
  intros; apply H; now right.
Qed.
Lemma mapM_ok {X Y} (f : X -> res Y) l ys : mapM f l = Ok ys <-> Forall2 (fun x y => f x = Ok y) l ys.
Proof.
  revert ys; induction l as [|x l IH]; intros ys; cbn; split; intros H.
  - injection H as <-. constructor.
  - inversion H; subst. reflexivity.
  - inv_all. subst. constructor; [assumption|]. now apply IH.
  - inversion H; subst. rewrite H2; cbn. apply IH in H4. rewrite H4. reflexivity.
Qed.
Lemma mapM_length {X Y} (f : X -> res Y) l ys : mapM f l = Ok ys -> length ys = length l.
Proof. intros H. apply mapM_ok in H. now induction H; cbn; f_equal. Qed.
Lemma mapM_pure {X Y} (f : X -> res Y) (g : X -> Y) l : (forall x, In x l -> f x = Ok (g x)) -> mapM f l = Ok (map g l).
Proof.
  induction l as [|x l IH]; intros H; cbn; [reflexivity|]. rewrite (H x) by (now left). cbn. rewrite IH; [reflexivity|].
  intros; apply H; now right.
Qed.
Lemma mapM_ext {X Y} (f g : X -> res Y) l : (forall x, In x l -> f x = g x) -> mapM f l = mapM g l.
Proof.
  induction l as [|x l IH]; intros H; cbn; [reflexivity|]. rewrite (H x) by (now left). destruct (g x); cbn; [|reflexivity].
  rewrite IH; [reflexivity|]. intros; apply H; now right.
Qed.
Lemma mapM_total {X Y} (f : X -> res Y) l : (forall x, In x l -> exists y, f x = Ok y) -> exists ys, mapM f l = Ok ys.
Proof.
  induction l as [|x l IH]; intros H; cbn; [eauto|]. destruct (H x (or_introl eq_refl)) as [y ->]. cbn.
  destruct IH as [ys ->]; [intros; apply H; now right|]. cbn. eauto.
Qed.
Lemma filterM_pure {X} (f : X -> res bool) (g : X -> bool) l : (forall x, In x l -> f x = Ok (g x)) -> filterM f l = Ok (filter g l).
Proof.
  induction l as [|x l IH]; intros H; cbn; [reflexivity|]. rewrite (H x) by (now left). cbn. rewrite IH; [reflexivity|].
  intros; apply H; now right.
Qed.
Lemma filterM_ext {X} (f g : X -> res bool) l : (forall x, In x l -> f x = g x) -> filterM f l = filterM g l.
Proof.
  induction l as [|x l IH]; intros H; cbn; [reflexivity|]. rewrite (H x) by (now left). destruct (g x); cbn; [|reflexivity].
  rewrite IH; [reflexivity|]. intros; apply H; now right.
Qed.
Lemma filterM_sub {X} (f : X -> res bool) l r : filterM f l = Ok r -> forall x, In x r -> In x l /\ f x = Ok true.
Proof.
  revert r; induction l as [|a l IH]; intros r H x Hx; cbn in H.
  - injection H as <-. destruct Hx.
  - inv_all. subst. destruct v.
    + destruct Hx as [<-|Hx]; [split; [now left | assumption]|]. destruct (IH _ eq_refl _ Hx). split; [now right | assumption].
    + destruct (IH _ eq_refl _ Hx). split; [now right | assumption].
Qed.

(** ** Dictionaries *)
Section DictFacts.
  Context {V : Type}.
  Implicit Types d : dict V.
  Lemma get_set_eq d k v : get (set d k v) k = Some v.
  Proof. induction d as [|[k' v'] d IH]; cbn; [now rewrite Nat.eqb_refl|]. destruct (Nat.eqb_spec k k'); cbn; [now rewrite Nat.eqb_refl|].
    destruct (Nat.eqb_spec k k'); [contradiction | assumption]. Qed.
  Lemma get_set_ne d k k' v : k <> k' -> get (set d k v) k' = get d k'.
  Proof.
    intros N. induction d as [|[k2 v2] d IH]; cbn.
    - destruct (Nat.eqb_spec k' k); [congruence | reflexivity].
    - destruct (Nat.eqb_spec k k2); subst; cbn.
      + destruct (Nat.eqb_spec k' k2); [congruence | reflexivity].
      + destruct (Nat.eqb_spec k' k2); [reflexivity | assumption].
  Qed.
  Lemma get_set d k k' v : get (set d k v) k' = if Nat.eqb k k' then Some v else get d k'.
  Proof. destruct (Nat.eqb_spec k k'); [subst; apply get_set_eq | now apply get_set_ne]. Qed.
  Lemma get_pop_ne d k k' : k <> k' -> get (pop d k) k' = get d k'.
  Proof.
    intros N. induction d as [|[k2 v2] d IH]; cbn; [reflexivity|].
    destruct (Nat.eqb_spec k k2); subst; cbn.
    - destruct (Nat.eqb_spec k' k2); [congruence | reflexivity].
    - destruct (Nat.eqb_spec k' k2); [reflexivity | assumption].
  Qed.
  Lemma get_In d k v : get d k = Some v -> In (k, v) d.
  Proof. induction d as [|[k' v'] d IH]; cbn; [discriminate|]. destruct (Nat.eqb_spec k k'); [intros [= ->]; subst; now left | right; auto]. Qed.
  Lemma get_None d k : get d k = None <-> ~ In k (keys d).
  Proof.
    induction d as [|[k' v'] d IH]; cbn; [tauto|]. destruct (Nat.eqb_spec k k').
    - split; [discriminate | intros H; exfalso; apply H; now left].
    - rewrite IH. split; [intros H [E|E]; [congruence | tauto] | tauto].
  Qed.
  Lemma get_Some_key d k : (exists v, get d k = Some v) <-> In k (keys d).
  Proof. destruct (get d k) eqn:E; split; intros H; eauto.
    - apply get_In in E. change k with (fst (k, v)). now apply in_map.
    - destruct H; discriminate.
    - apply get_None in E; contradiction. Qed.
  Lemma In_get d k v : NoDup (keys d) -> In (k, v) d -> get d k = Some v.
  Proof.
    induction d as [|[k' v'] d IH]; cbn; [intros _ []|]. intros N [[= -> ->]|H]; [now rewrite Nat.eqb_refl|].
    inversion N; subst. destruct (Nat.eqb_spec k k'); [subst; exfalso; apply H2; change k' with (fst (k', v)); now apply in_map | auto].
  Qed.
  Lemma get_pop_eq d k : NoDup (keys d) -> get (pop d k) k = None.
  Proof.
    induction d as [|[k' v'] d IH]; cbn; [reflexivity|]. intros N; inversion N; subst.
    destruct (Nat.eqb_spec k k'); subst; [now apply get_None|]. cbn. destruct (Nat.eqb_spec k k'); [contradiction | auto].
  Qed.
  Lemma keys_set_in d k v : In k (keys d) -> keys (set d k v) = keys d.
  Proof. induction d as [|[k' v'] d IH]; cbn; [intros []|]. destruct (Nat.eqb_spec k k'); subst; cbn; [reflexivity|]. intros [E|H]; [congruence|]. f_equal; auto. Qed.
  Lemma keys_set_new d k v : ~ In k (keys d) -> keys (set d k v) = keys d ++ [k].
  Proof. induction d as [|[k' v'] d IH]; cbn; [reflexivity|]. destruct (Nat.eqb_spec k k'); subst; cbn; [tauto|]. intros H. f_equal; tauto. Qed.
  Lemma set_new d k v : ~ In k (keys d) -> set d k v = d ++ [(k, v)].
  Proof. induction d as [|[k' v'] d IH]; cbn; [reflexivity|]. destruct (Nat.eqb_spec k k'); subst; cbn; [tauto|]. intros H. f_equal; tauto. Qed.
  Lemma NoDup_set d k v : NoDup (keys d) -> NoDup (keys (set d k v)).
  Proof.
    intros N. destruct (in_dec Nat.eq_dec k (keys d)) as [H|H]; [now rewrite keys_set_in|].
    rewrite keys_set_new by assumption. apply Permutation_NoDup with (l := k :: keys d); [apply Permutation_cons_append | now constructor].
  Qed.
  Lemma keys_pop_incl d k x : In x (keys (pop d k)) -> In x (keys d).
  Proof. induction d as [|[k' v'] d IH]; cbn; [tauto|]. destruct (Nat.eqb_spec k k'); cbn; tauto. Qed.
  Lemma NoDup_pop d k : NoDup (keys d) -> NoDup (keys (pop d k)).
  Proof.
    induction d as [|[k' v'] d IH]; cbn; [auto|]. intros N; inversion N; subst. destruct (Nat.eqb_spec k k'); [assumption|].
    cbn. constructor; [intros H; apply H1; eapply keys_pop_incl; eassumption | auto].
  Qed.
  Lemma pop_notin d k : ~ In k (keys d) -> pop d k = d.
  Proof. induction d as [|[k' v'] d IH]; cbn; [auto|]. intros H. destruct (Nat.eqb_spec k k'); [subst; tauto|]. f_equal; tauto. Qed.
  Lemma get_pop d k k' : NoDup (keys d) -> get (pop d k) k' = if Nat.eqb k k' then None else get d k'.
  Proof. intros N. destruct (Nat.eqb_spec k k'); [subst; now apply get_pop_eq | now apply get_pop_ne]. Qed.
  Lemma pop_perm d k v : get d k = Some v -> Permutation d ((k, v) :: pop d k).
  Proof.
    induction d as [|[k' v'] d IH]; cbn; [discriminate|]. destruct (Nat.eqb_spec k k'); [intros [= ->]; now subst|].
    intros H. rewrite (IH H) at 1. apply perm_swap.
  Qed.
  Lemma set_perm d k v v0 : get d k = Some v0 -> Permutation (set d k v) ((k, v) :: pop d k).
  Proof.
    induction d as [|[k' v'] d IH]; cbn; [discriminate|]. destruct (Nat.eqb_spec k k'); [intros; now subst|].
    intros H. rewrite (IH H). apply perm_swap.
  Qed.
  Lemma set_same d k v : get d k = Some v -> set d k v = d.
  Proof. induction d as [|[k' v'] d IH]; cbn; [discriminate|]. destruct (Nat.eqb_spec k k'); [intros [= ->]; now subst|]. intros; f_equal; auto. Qed.
  Lemma set_set d k v v' : set (set d k v) k v' = set d k v'.
  Proof. induction d as [|[k2 v2] d IH]; cbn; [now rewrite Nat.eqb_refl|]. destruct (Nat.eqb_spec k k2); cbn; [now rewrite Nat.eqb_refl|].
    destruct (Nat.eqb_spec k k2); [contradiction | now f_equal]. Qed.
  Lemma mem_spec d k : mem d k = true <-> In k (keys d).
  Proof. unfold mem. rewrite <- get_Some_key. destruct (get d k); split; eauto; [discriminate | intros [? [=]]]. Qed.
End DictFacts.

Lemma inb_spec k l : inb k l = true <-> In k l.
Proof. unfold inb. rewrite existsb_exists. split; [intros (x & H & E); apply Nat.eqb_eq in E; now subst | intros H; exists k; split; [assumption | apply Nat.eqb_refl]]. Qed.
Lemma inb_false k l : inb k l = false <-> ~ In k l.
Proof. rewrite <- inb_spec. destruct (inb k l); split; congruence. Qed.

Lemma keys_map_snd {V W} (f : nat -> V -> W) (d : dict V) : keys (map (fun e => (fst e, f (fst e) (snd e))) d) = keys d.
Proof. unfold keys. rewrite map_map. apply map_ext. reflexivity. Qed.
Lemma get_map_snd {V W} (f : V -> W) (d : dict V) k : get (map (fun e => (fst e, f (snd e))) d) k = option_map f (get d k).
Proof. induction d as [|[k' v] d IH]; cbn; [reflexivity|]. destruct (Nat.eqb k k'); [reflexivity | assumption]. Qed.

(** ** Indexing *)
Lemma py_index_In {V} (l : list V) i v : py_index l i = Ok v -> In v l.
Proof.
  unfold py_index. intros H. match type of H with (if ?b then _ else _) = _ => destruct b end; [|discriminate].
  apply of_option_ok in H. eapply nth_error_In; eassumption.
Qed.
Lemma py_index_ok {V} (l : list V) i : (0 <= i < Z.of_nat (length l))%Z -> exists v, py_index l i = Ok v /\ nth_error l (Z.to_nat i) = Some v.
Proof.
  intros H. unfold py_index. destruct (Z.ltb_spec i 0); [lia|].
  destruct (Z.leb_spec 0 i); [| lia]. destruct (Z.ltb_spec i (Z.of_nat (length l))); [|lia]. cbn [andb].
  destruct (nth_error l (Z.to_nat i)) eqn:E; [cbn; eauto | apply nth_error_None in E; lia].
Qed.
Lemma py_index_nth {V} (l : list V) a v : py_index l (Z.of_nat a) = Ok v -> nth_error l a = Some v.
Proof.
  unfold py_index. destruct (Z.ltb_spec (Z.of_nat a) 0); [lia|]. destruct (_ && _); [|discriminate]. rewrite Nat2Z.id. destruct (nth_error l a); [|discriminate]. cbn. congruence.
Qed.
Lemma zrange_length a b : length (zrange a b) = Z.to_nat (b - a).
Proof. unfold zrange. now rewrite map_length, seq_length. Qed.
Lemma zrange_In a b x : In x (zrange a b) <-> (a <= x < b)%Z.
Proof.
  unfold zrange. rewrite in_map_iff. split.
  - intros (i & <- & H). apply in_seq in H. lia.
  - intros H. exists (Z.to_nat (x - a)). split; [lia|]. apply in_seq. lia.
Qed.

(** ** Strict weak orders given by boolean comparisons *)
Record StrictWeak {X} (lt : X -> X -> bool) : Prop := {
  sw_irrefl : forall x, lt x x = false;
  sw_trans : forall x y z, lt x y = true -> lt y z = true -> lt x z = true;
  sw_ntrans : forall x y z, lt x y = false -> lt y z = false -> lt x z = false
}.
Arguments sw_irrefl {X lt}. Arguments sw_trans {X lt}. Arguments sw_ntrans {X lt}.
Definition sw_eqb {X} (lt : X -> X -> bool) (x y : X) : bool := negb (lt x y) && negb (lt y x).

Section SW.
  Context {X : Type} {lt : X -> X -> bool} (SWlt : StrictWeak lt).
  Lemma sw_asym x y : lt x y = true -> lt y x = false.
  Proof. intros H. destruct (lt y x) eqn:E; [|reflexivity]. rewrite <- (sw_irrefl SWlt x). symmetry. eapply sw_trans; eassumption. Qed.
  Lemma sw_lt_le_trans x y z : lt x y = true -> lt z y = false -> lt x z = true.
  Proof. intros H1 H2. destruct (lt x z) eqn:E; [reflexivity|]. rewrite (sw_ntrans SWlt _ _ _ E H2) in H1. discriminate. Qed.
  Lemma sw_le_lt_trans x y z : lt y x = false -> lt y z = true -> lt x z = true.
  Proof. intros H1 H2. destruct (lt x z) eqn:E; [reflexivity|]. rewrite (sw_ntrans SWlt _ _ _ H1 E) in H2. discriminate. Qed.
  Lemma sw_eqb_refl x : sw_eqb lt x x = true.
  Proof. unfold sw_eqb. now rewrite (sw_irrefl SWlt). Qed.
  Lemma sw_eqb_sym x y : sw_eqb lt x y = sw_eqb lt y x.
  Proof. unfold sw_eqb. apply andb_comm. Qed.
  Lemma sw_eqb_true x y : sw_eqb lt x y = true <-> lt x y = false /\ lt y x = false.
  Proof. unfold sw_eqb. rewrite andb_true_iff, !negb_true_iff. reflexivity. Qed.
  Lemma sw_eqb_trans x y z : sw_eqb lt x y = true -> sw_eqb lt y z = true -> sw_eqb lt x z = true.
  Proof. rewrite !sw_eqb_true. intros [] []. split; eapply (sw_ntrans SWlt); eassumption. Qed.
  Lemma sw_eq_lt_l x y z : sw_eqb lt x y = true -> lt x z = lt y z.
  Proof.
    rewrite sw_eqb_true. intros [H1 H2]. destruct (lt y z) eqn:E.
    - eapply sw_le_lt_trans; eassumption.
    - eapply (sw_ntrans SWlt); eassumption.
  Qed.
  Lemma sw_eq_lt_r x y z : sw_eqb lt x y = true -> lt z x = lt z y.
  Proof.
    rewrite sw_eqb_true. intros [H1 H2]. destruct (lt z y) eqn:E.
    - eapply sw_lt_le_trans; eassumption.
    - eapply (sw_ntrans SWlt); eassumption.
  Qed.
End SW.

(** lexicographic product *)
Definition lex_ltb {X Y} (lt1 : X -> X -> bool) (lt2 : Y -> Y -> bool) (p q : X * Y) : bool :=
  if sw_eqb lt1 (fst p) (fst q) then lt2 (snd p) (snd q) else lt1 (fst p) (fst q).
Lemma lex_sw {X Y} (lt1 : X -> X -> bool) (lt2 : Y -> Y -> bool) : StrictWeak lt1 -> StrictWeak lt2 -> StrictWeak (lex_ltb lt1 lt2).
Proof.
  intros S1 S2. unfold lex_ltb. constructor.
  - intros x. rewrite (sw_eqb_refl S1). apply (sw_irrefl S2).
  - intros [x1 x2] [y1 y2] [z1 z2]; cbn. intros Hxy Hyz.
    destruct (sw_eqb lt1 x1 y1) eqn:E1.
    + rewrite <- (sw_eq_lt_l S1 x1 y1 z1 E1) in Hyz.
      assert (Ez : sw_eqb lt1 x1 z1 = sw_eqb lt1 y1 z1).
      { destruct (sw_eqb lt1 y1 z1) eqn:E2; [now apply (sw_eqb_trans S1) with y1|].
        destruct (sw_eqb lt1 x1 z1) eqn:E3; [|reflexivity]. rewrite <- E2. symmetry. apply (sw_eqb_trans S1) with x1; [now rewrite sw_eqb_sym | assumption]. }
      rewrite Ez. destruct (sw_eqb lt1 y1 z1); [eapply (sw_trans S2); eassumption | assumption].
    + destruct (sw_eqb lt1 y1 z1) eqn:E2.
      * rewrite (sw_eq_lt_r S1 y1 z1 x1 E2) in Hxy.
        destruct (sw_eqb lt1 x1 z1) eqn:E3; [|assumption]. apply sw_eqb_true in E3. destruct E3; congruence.
      * assert (H := sw_trans S1 _ _ _ Hxy Hyz). destruct (sw_eqb lt1 x1 z1) eqn:E3; [|assumption]. apply sw_eqb_true in E3. destruct E3; congruence.
  - intros [x1 x2] [y1 y2] [z1 z2]; cbn. intros Hxy Hyz.
    destruct (sw_eqb lt1 x1 y1) eqn:E1.
    + assert (Ez : sw_eqb lt1 x1 z1 = sw_eqb lt1 y1 z1).
      { destruct (sw_eqb lt1 y1 z1) eqn:E2; [now apply (sw_eqb_trans S1) with y1|].
        destruct (sw_eqb lt1 x1 z1) eqn:E3; [|reflexivity]. rewrite <- E2. symmetry. apply (sw_eqb_trans S1) with x1; [now rewrite sw_eqb_sym | assumption]. }
      rewrite Ez. destruct (sw_eqb lt1 y1 z1); [eapply (sw_ntrans S2); eassumption|]. now rewrite (sw_eq_lt_l S1 x1 y1 z1 E1).
    + assert (L1 : lt1 y1 x1 = true).
      { destruct (lt1 y1 x1) eqn:E; [reflexivity|]. exfalso. assert (sw_eqb lt1 x1 y1 = true) by (apply sw_eqb_true; now split). congruence. }
      assert (L2 : lt1 y1 z1 = false -> sw_eqb lt1 y1 z1 = true \/ lt1 z1 y1 = true).
      { intros H. destruct (lt1 z1 y1) eqn:E; [now right|]. left. apply sw_eqb_true; now split. }
      assert (lt1 z1 x1 = true).
      { destruct (sw_eqb lt1 y1 z1) eqn:E2.
        - now rewrite <- (sw_eq_lt_l S1 y1 z1 x1 E2).
        - destruct (L2 Hyz) as [?|L]; [congruence|]. eapply (sw_trans S1); eassumption. }
      destruct (sw_eqb lt1 x1 z1) eqn:E3; [apply sw_eqb_true in E3; destruct E3; congruence | now apply (sw_asym S1)].
Qed.
Lemma sw_comap {X Y} (f : X -> Y) (lt : Y -> Y -> bool) : StrictWeak lt -> StrictWeak (fun x y => lt (f x) (f y)).
Proof.
  intros S. constructor; intros.
  - apply (sw_irrefl S).
  - eapply (sw_trans S); eassumption.
  - eapply (sw_ntrans S); eassumption.
Qed.
Lemma sw_flip {X} (lt : X -> X -> bool) : StrictWeak lt -> StrictWeak (fun x y => lt y x).
Proof.
  intros S. constructor; intros.
  - apply (sw_irrefl S).
  - eapply (sw_trans S); eassumption.
  - eapply (sw_ntrans S); eassumption.
Qed.
Lemma sw_Zltb : StrictWeak Z.ltb.
Proof. constructor; intros x; [apply Z.ltb_irrefl | |]; intros y z; destruct (Z.ltb_spec x z), (Z.ltb_spec x y), (Z.ltb_spec y z); try lia; congruence. Qed.
Lemma sw_natltb : StrictWeak Nat.ltb.
Proof. constructor; intros x; [apply Nat.ltb_irrefl | |]; intros y z; destruct (Nat.ltb_spec x z), (Nat.ltb_spec x y), (Nat.ltb_spec y z); try lia; congruence. Qed.
Lemma sw_num (A : Arith) : OrdLaws A -> StrictWeak (@ltb A).
Proof. intros O. constructor; [apply (ol_ltb_irrefl A O) | apply (ol_ltb_trans A O) | apply (ol_nlt_trans A O)]. Qed.
Lemma num_eqb (A : Arith) (O : OrdLaws A) x y : @eqb A x y = sw_eqb ltb x y.
Proof. apply (ol_eqb A O). Qed.

(** ** Insertion sort, ascending w.r.t. "not greater": [ins before x l] puts x in front of the first y with [before x y] *)
Section Insert.
  Context {X : Type} (lt : X -> X -> bool) (SWlt : StrictWeak lt).
  (** l is sorted: no later element is smaller than an earlier one *)
  Definition sorted (l : list X) : Prop := StronglySorted (fun x y => lt y x = false) l.
  Lemma sorted_app l1 l2 : sorted (l1 ++ l2) <-> sorted l1 /\ sorted l2 /\ (forall x y, In x l1 -> In y l2 -> lt y x = false).
  Proof.
    unfold sorted. induction l1 as [|a l1 IH]; cbn.
    - split; [intros; repeat split; [constructor | assumption | tauto] | tauto].
    - split.
      + intros H; inversion H; subst. apply IH in H2 as (S1 & S2 & S3). rewrite Forall_app in H3. destruct H3 as [F1 F2].
        repeat split; [now constructor | assumption |]. intros x y [<-|Hx] Hy; [now apply (proj1 (Forall_forall _ _) F2) | auto].
      + intros (S1 & S2 & S3). inversion S1; subst. constructor; [apply IH; auto|]. apply Forall_app; split; [assumption|].
        apply Forall_forall. intros; apply S3; auto.
  Qed.
  (** sorted permutations of each other without equal elements coincide *)
  Lemma sorted_unique l1 l2 : sorted l1 -> sorted l2 -> Permutation l1 l2 ->
    (forall x y, In x l1 -> In y l1 -> lt x y = false -> lt y x = false -> x = y) -> l1 = l2.
  Proof.
    revert l2. induction l1 as [|a l1 IH]; intros l2 S1 S2 P U.
    - now apply Permutation_nil in P.
    - destruct l2 as [|b l2]; [symmetry in P; apply Permutation_nil in P; discriminate|].
      assert (a = b).
      { inversion S1; subst. inversion S2; subst. apply U; [now left | eapply Permutation_in; [symmetry; exact P | now left] | |].
        - assert (I : In a (b :: l2)) by (eapply Permutation_in; [exact P | now left]). destruct I as [<-|I]; [apply (sw_irrefl SWlt)|].
          now apply (proj1 (Forall_forall _ _) H4).
        - assert (I : In b (a :: l1)) by (eapply Permutation_in; [symmetry; exact P | now left]). destruct I as [<-|I]; [apply (sw_irrefl SWlt)|].
          now apply (proj1 (Forall_forall _ _) H2). }
      subst b. f_equal. apply IH; [now inversion S1 | now inversion S2 | eapply Permutation_cons_inv; eassumption | intros; apply U; try (now right); assumption].
  Qed.
End Insert.

Lemma filter_perm {X} (f : X -> bool) l l' : Permutation l l' -> Permutation (filter f l) (filter f l').
Proof.
  induction 1; cbn; [constructor | | | etransitivity; eassumption].
  - destruct (f x); [now constructor | assumption].
  - destruct (f x), (f y); try reflexivity. constructor.
Qed.
Lemma NoDup_filter' {X} (f : X -> bool) l : NoDup l -> NoDup (filter f l).
Proof. apply NoDup_filter. Qed.
Lemma NoDup_map_inj {X Y} (f : X -> Y) l : (forall x y, In x l -> In y l -> f x = f y -> x = y) -> NoDup l -> NoDup (map f l).
Proof.
  induction l as [|a l IH]; intros Hi N; cbn; [constructor|]. inversion N; subst. constructor.
  - intros I. apply in_map_iff in I as (y & E & I). apply H1. rewrite <- (Hi y a); auto; [now right | now left].
  - apply IH; auto. intros; apply Hi; auto; now right.
Qed.
Lemma NoDup_map_in {X Y} (f : X -> Y) l x y : NoDup (map f l) -> In x l -> In y l -> f x = f y -> x = y.
Proof.
  induction l as [|a l IH]; cbn; [intros _ []|]. intros N. inversion N; subst. intros [<-|Hx] [<-|Hy] E; auto.
  - exfalso. apply H1. rewrite E. now apply in_map.
  - exfalso. apply H1. rewrite <- E. now apply in_map.
Qed.
Lemma sorted_filter {X} (lt : X -> X -> bool) f l : sorted lt l -> sorted lt (filter f l).
Proof.
  unfold sorted. induction 1; cbn; [constructor|]. destruct (f a); [constructor; [assumption|] | assumption].
  apply Forall_forall. intros x Hx. apply filter_In in Hx as [Hx _]. now apply (proj1 (Forall_forall _ _) H0).
Qed.
