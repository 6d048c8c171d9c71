From Coq Require Import QArith Qround Lqa.
From Verif Require Import Base F64_Model.
Open Scope Z_scope.

Lemma div_nearest_even_bound a b : 0 < b -> 2 * a - b <= 2 * b * div_nearest_even a b <= 2 * a + b.
Proof.
  intros Hb. unfold div_nearest_even.
  pose proof (Z.div_mod a b ltac:(lia)) as E. pose proof (Z.mod_pos_bound a b Hb) as B.
  set (m := a / b) in *. set (r := a mod b) in *. clearbody m r.
  destruct (2 * r <? b) eqn:C1; [apply Z.ltb_lt in C1; nia|]. apply Z.ltb_ge in C1.
  destruct (b <? 2 * r) eqn:C2; [apply Z.ltb_lt in C2; nia|]. apply Z.ltb_ge in C2.
  destruct (Z.even m); nia.
Qed.

Lemma pow2_pos e : 0 <= e -> 0 < 2 ^ e.
Proof. intros. apply Z.pow_pos_nonneg; lia. Qed.

(** the scaled quotient has at least 53 bits *)
Lemma exponent_bound n d : 0 < n -> 0 < d -> scaled_den d (exponent n d) * 2 ^ 52 <= scaled_num n (exponent n d).
Proof.
  intros Hn Hd. unfold exponent. set (e := Z.log2 n - Z.log2 d - 53).
  destruct (_ <=? _) eqn:C.
  - apply Z.leb_le in C. unfold scaled_den, scaled_num in *.
    destruct (0 <=? e) eqn:E0.
    + apply Z.leb_le in E0. replace (0 <=? e + 1) with true by (symmetry; apply Z.leb_le; lia).
      rewrite Z.pow_add_r by lia. change (2 ^ 53) with (2 * 2 ^ 52) in C. change (2 ^ 1) with 2. nia.
    + apply Z.leb_gt in E0. destruct (0 <=? e + 1) eqn:E1.
      * apply Z.leb_le in E1. assert (e = -1) by lia. rewrite H in *. change (2 ^ (-1 + 1)) with 1.
        change (2 ^ - -1) with 2 in C. change (2 ^ 53) with (2 * 2 ^ 52) in C. nia.
      * apply Z.leb_gt in E1. replace (- e) with (- (e + 1) + 1) in C by lia. rewrite Z.pow_add_r in C by lia.
        change (2 ^ 1) with 2 in C. change (2 ^ 53) with (2 * 2 ^ 52) in C. nia.
  - clear C. pose proof (Z.log2_spec n Hn) as [Ln _]. pose proof (Z.log2_spec d Hd) as [_ Ld].
    pose proof (Z.log2_nonneg n). pose proof (Z.log2_nonneg d).
    unfold scaled_den, scaled_num. destruct (0 <=? e) eqn:E0.
    + apply Z.leb_le in E0. apply Z.le_trans with (2 ^ Z.log2 n); [|exact Ln].
      replace (Z.log2 n) with (e + 52 + Z.succ (Z.log2 d)) by lia. rewrite !Z.pow_add_r by lia.
      pose proof (pow2_pos e E0). nia.
    + apply Z.leb_gt in E0. apply Z.le_trans with (2 ^ Z.log2 n * 2 ^ (- e)); [|pose proof (pow2_pos (-e)); nia].
      rewrite <- Z.pow_add_r by lia. replace (Z.log2 n + - e) with (52 + Z.succ (Z.log2 d)) by lia.
      rewrite Z.pow_add_r by lia. nia.
Qed.

Lemma scaled_den_pos d e : 0 < d -> 0 < scaled_den d e.
Proof. intros. unfold scaled_den. destruct (0 <=? e) eqn:E; [|assumption]. apply Z.leb_le in E. pose proof (pow2_pos e E). nia. Qed.

Open Scope Q_scope.

(** [scale_back m e = m * 2^e] and [n/d = (scaled_num / scaled_den) * 2^e] *)
Lemma scale_back_frac n d m e : (0 < d)%Z ->
  (* (scale_back m e) * d * scaled_num = n * m * scaled_den *)
  scale_back m e * inject_Z d * inject_Z (scaled_num n e) == inject_Z n * inject_Z m * inject_Z (scaled_den d e).
Proof.
  intros Hd. unfold scale_back, scaled_num, scaled_den. destruct (0 <=? e)%Z eqn:E.
  - rewrite !inject_Z_mult. ring.
  - apply Z.leb_gt in E. pose proof (pow2_pos (- e) ltac:(lia)) as P.
    rewrite Qmake_Qdiv. rewrite Z2Pos.id by assumption. rewrite inject_Z_mult. field.
    intros H. change 0 with (inject_Z 0) in H. rewrite inject_Z_injective in H. lia.
Qed.

Definition u : Q := 1 # (2 ^ 53).

Lemma round53_bounds q : 0 <= q -> q * (1 - u) <= round53 q /\ round53 q <= q * (1 + u) /\ 0 <= round53 q.
Proof.
  intros Hq. unfold round53. destruct q as [n d]. cbn [Qnum Qden].
  destruct (n <=? 0)%Z eqn:C.
  - apply Z.leb_le in C. assert (n = 0)%Z by (unfold Qle in Hq; cbn in Hq; lia). subst n.
    assert (E0 : 0 # d == 0) by reflexivity. rewrite E0. repeat split; lra.
  - apply Z.leb_gt in C. set (D := Z.pos d). set (e := exponent n D).
    pose proof (exponent_bound n D C eq_refl) as B. fold e in B.
    pose proof (scaled_den_pos D e eq_refl) as Pb.
    pose proof (div_nearest_even_bound (scaled_num n e) (scaled_den D e) Pb) as [R1 R2].
    set (m := div_nearest_even _ _) in *. set (b := scaled_den D e) in *. set (a := scaled_num n e) in *.
    pose proof (scale_back_frac n D m e eq_refl) as S. fold a b in S.
    (* value = q * (m * b / a) *)
    assert (Pa : (0 < a)%Z) by (apply Z.lt_le_trans with (b * 2 ^ 52)%Z; [|exact B]; apply Z.mul_pos_pos; [exact Pb|reflexivity]).
    assert (PaQ : 0 < inject_Z a) by (change 0 with (inject_Z 0); rewrite <- Zlt_Qlt; exact Pa).
    assert (PdQ : 0 < inject_Z D) by reflexivity.
    assert (PnQ : 0 < inject_Z n) by (change 0 with (inject_Z 0); rewrite <- Zlt_Qlt; exact C).
    assert (V : scale_back m e == (n # d) * (inject_Z m * inject_Z b / inject_Z a)).
    { rewrite Qmake_Qdiv. fold D. field_simplify_eq; [|split; lra]. rewrite <- S. ring. }
    (* bounds on m*b/a *)
    assert (U1 : inject_Z m * inject_Z b <= inject_Z a * (1 + u)).
    { apply Qle_trans with (inject_Z (2 * a + b) * (1 # 2)).
      - apply (Qmult_le_r _ _ 2); [reflexivity|].
        assert (T : inject_Z (2 * a + b) * (1 # 2) * 2 == inject_Z (2 * a + b)) by ring. rewrite T.
        assert (T2 : inject_Z m * inject_Z b * 2 == inject_Z (2 * b * m)) by (rewrite !inject_Z_mult; ring).
        rewrite T2. rewrite <- Zle_Qle. exact R2.
      - rewrite inject_Z_plus, inject_Z_mult.
        assert (BQ : inject_Z b * inject_Z (2 ^ 52) <= inject_Z a) by (rewrite <- inject_Z_mult, <- Zle_Qle; exact B).
        change (inject_Z (2 ^ 52)) with (4503599627370496 # 1) in BQ. unfold u. change (2 ^ 53)%positive with 9007199254740992%positive.
        change (inject_Z 2) with 2. lra. }
    assert (U2 : inject_Z a * (1 - u) <= inject_Z m * inject_Z b).
    { apply Qle_trans with (inject_Z (2 * a - b) * (1 # 2)).
      - unfold Z.sub. rewrite inject_Z_plus, inject_Z_mult, inject_Z_opp.
        assert (BQ : inject_Z b * inject_Z (2 ^ 52) <= inject_Z a) by (rewrite <- inject_Z_mult, <- Zle_Qle; exact B).
        change (inject_Z (2 ^ 52)) with (4503599627370496 # 1) in BQ. unfold u. change (2 ^ 53)%positive with 9007199254740992%positive.
        change (inject_Z 2) with 2. lra.
      - apply (Qmult_le_r _ _ 2); [reflexivity|].
        assert (T : inject_Z (2 * a - b) * (1 # 2) * 2 == inject_Z (2 * a - b)) by ring. rewrite T.
        assert (T2 : inject_Z m * inject_Z b * 2 == inject_Z (2 * b * m)) by (rewrite !inject_Z_mult; ring).
        rewrite T2. rewrite <- Zle_Qle. exact R1. }
    rewrite V. 
    assert (Pq : 0 <= n # d) by (unfold Qle; cbn; lia).
    assert (X1 : inject_Z m * inject_Z b / inject_Z a <= 1 + u) by (apply Qle_shift_div_r; [exact PaQ|lra]).
    assert (X2 : 1 - u <= inject_Z m * inject_Z b / inject_Z a) by (apply Qle_shift_div_l; [exact PaQ|lra]).
    set (y := inject_Z m * inject_Z b / inject_Z a) in *. clearbody y.
    assert (X3 : 0 <= y) by (apply Qle_trans with (1 - u); [unfold u; discriminate|exact X2]).
    repeat split.
    + nra.
    + nra.
    + apply Qmult_le_0_compat; assumption.
Qed.
