(** The comparisons of [FloatA] form a total preorder, so every theorem stated for an arithmetic with [OrdLaws] holds for binary64. *)
From Coq Require Import ZArith List Bool Floats Lia.
From Verif Require Import Num NumFloat Py ListFacts.

(** position of a float on the line: sign class, then signed exponent, then signed mantissa *)
Definition fkey (x : spec_float) : Z * (Z * Z) :=
  match x with
  | S754_nan => (3, (0, 0))
  | S754_infinity s => ((if s then -2 else 2), (0, 0))
  | S754_zero _ => (0, (0, 0))
  | S754_finite s m e => if s then (-1, (- e, - Zpos m)) else (1, (e, Zpos m))
  end%Z.
Definition flt : (Z * (Z * Z)) -> (Z * (Z * Z)) -> bool := lex_ltb Z.ltb (lex_ltb Z.ltb Z.ltb).
Lemma flt_sw : StrictWeak flt.
Proof. apply lex_sw; [apply sw_Zltb | apply lex_sw; apply sw_Zltb]. Qed.
Lemma Zsw_eqb a b : sw_eqb Z.ltb a b = Z.eqb a b.
Proof. unfold sw_eqb. destruct (Z.ltb_spec a b), (Z.ltb_spec b a), (Z.eqb_spec a b); cbn; lia || reflexivity. Qed.
Lemma SFltb_key x y : x <> S754_nan -> y <> S754_nan -> SFltb x y = flt (fkey x) (fkey y).
Proof.
  intros Nx Ny. apply eq_true_iff_eq. unfold SFltb, flt, lex_ltb. rewrite !Zsw_eqb.
  assert (E : forall c : option comparison, match c with Some Lt => true | _ => false end = true <-> c = Some Lt) by (intros [[]|]; split; congruence).
  rewrite E. clear E.
  destruct x as [[]|[]| |[] m e], y as [[]|[]| |[] m' e']; try congruence; cbn [fkey fst snd SFcompare]; try (cbn; split; congruence).
  - rewrite ?Zsw_eqb. change (Pos.compare_cont Eq m m') with (Pos.compare m m').
    destruct (Z.compare_spec e e'), (Pos.compare_spec m m'), (Z.eqb_spec (- e) (- e')); cbn -[Z.ltb Z.opp]; rewrite Z.ltb_lt; split; intros; try congruence; try lia.
  - rewrite ?Zsw_eqb. change (Pos.compare_cont Eq m m') with (Pos.compare m m').
    destruct (Z.compare_spec e e'), (Pos.compare_spec m m'), (Z.eqb_spec e e'); cbn -[Z.ltb]; rewrite Z.ltb_lt; split; intros; try congruence; try lia.
Qed.
Lemma F_nan_spec x : F_nan x = true <-> Prim2SF x = S754_nan.
Proof.
  unfold F_nan. rewrite FloatAxioms.eqb_spec. unfold SFeqb. destruct (Prim2SF x) as [[]|[]| |[] m e]; cbn; split; try congruence;
    rewrite Z.compare_refl, Pos.compare_cont_refl; discriminate.
Qed.
Lemma F_ltb_key x y : F_ltb x y = flt (fkey (Prim2SF x)) (fkey (Prim2SF y)).
Proof.
  unfold F_ltb. destruct (F_nan x) eqn:Ex.
  - apply F_nan_spec in Ex. rewrite Ex. destruct (Prim2SF y) as [[]|[]| |[] m e]; reflexivity.
  - assert (Nx : Prim2SF x <> S754_nan) by (rewrite <- F_nan_spec; congruence).
    destruct (F_nan y) eqn:Ey.
    + apply F_nan_spec in Ey. rewrite Ey. destruct (Prim2SF x) as [[]|[]| |[] m e]; try reflexivity; congruence.
    + assert (Ny : Prim2SF y <> S754_nan) by (rewrite <- F_nan_spec; congruence).
      rewrite FloatAxioms.ltb_spec. now apply SFltb_key.
Qed.
Theorem FloatA_ord : OrdLaws FloatA.
Proof.
  assert (S := sw_comap (fun x => fkey (Prim2SF x)) _ flt_sw). cbn beta in S.
  constructor; cbn [T ltb leb eqb FloatA]; intros.
  - rewrite F_ltb_key. apply (sw_irrefl S).
  - rewrite F_ltb_key in *. eapply (sw_trans S); eassumption.
  - rewrite F_ltb_key in *. eapply (sw_ntrans S); eassumption.
  - reflexivity.
  - reflexivity.
Qed.
