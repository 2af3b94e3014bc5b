(** Polynomials over the scalar field and Lagrange interpolation at 0. *)
From stdpp Require Import list sets.
From Coq Require Import ZArith Lia Field Ring.
From Verif Require Import Fq.
Add Field Fq_f2 : Fq_field.

Notation "x +f y" := (fadd x y) (at level 50, left associativity).
Notation "x -f y" := (fsub x y) (at level 50, left associativity).
Notation "x *f y" := (fmul x y) (at level 40, left associativity).
Notation "x /f y" := (fdiv x y) (at level 40, left associativity).



Fixpoint feval (p : list Fq) (x : Fq) : Fq :=
  match p with [] => f0 | c :: p' => c +f x *f feval p' x end.

Fixpoint padd (p r : list Fq) : list Fq :=
  match p, r with
  | [], _ => r
  | _, [] => p
  | a :: p', b :: r' => (a +f b) :: padd p' r'
  end.
Lemma feval_padd p r x : feval (padd p r) x = feval p x +f feval r x.
Proof. revert r. induction p as [|a p IH]; intros [|b r]; cbn; try ring. rewrite IH. ring. Qed.
Lemma padd_length p r : length (padd p r) = max (length p) (length r).
Proof. revert r. induction p as [|a p IH]; intros [|b r]; cbn; try lia. by rewrite IH. Qed.
Lemma feval_scale a p x : feval (fmul a <$> p) x = a *f feval p x.
Proof. induction p as [|c p IH]; cbn; [ring|]. rewrite IH. ring. Qed.

(** division by X - a *)
Lemma factor_out a p : ∃ r, length r = pred (length p) ∧ ∀ x, feval p x = feval p a +f (x -f a) *f feval r x.
Proof.
  induction p as [|c p (r & Hr & IH)].
  - exists []. split; [done|]. intros x. cbn. ring.
  - exists (padd p (fmul a <$> r)). split; [rewrite padd_length, fmap_length, Hr; cbn; lia|].
    intros x. cbn [feval]. rewrite feval_padd, feval_scale, (IH x). ring.
Qed.

Fixpoint fsum (l : list Fq) : Fq := match l with [] => f0 | x :: l' => x +f fsum l' end.
Fixpoint fprod (l : list Fq) : Fq := match l with [] => f1 | x :: l' => x *f fprod l' end.
Lemma fsum_app l1 l2 : fsum (l1 ++ l2) = fsum l1 +f fsum l2.
Proof. induction l1 as [|x l IH]; cbn; [ring|]. rewrite IH. ring. Qed.
Lemma fprod_app l1 l2 : fprod (l1 ++ l2) = fprod l1 *f fprod l2.
Proof. induction l1 as [|x l IH]; cbn; [ring|]. rewrite IH. ring. Qed.
Lemma fsum_scale {A} (c : Fq) (f : A → Fq) l : fsum ((λ x, c *f f x) <$> l) = c *f fsum (f <$> l).
Proof. induction l as [|x l IH]; cbn; [ring|]. rewrite IH. ring. Qed.
Lemma fsum_add {A} (f h : A → Fq) l : fsum ((λ x, f x +f h x) <$> l) = fsum (f <$> l) +f fsum (h <$> l).
Proof. induction l as [|x l IH]; cbn; [ring|]. rewrite IH. ring. Qed.
Lemma fsum_perm l1 l2 : l1 ≡ₚ l2 → fsum l1 = fsum l2.
Proof. induction 1; cbn; [done|by f_equal|ring|congruence]. Qed.
Lemma fprod_perm l1 l2 : l1 ≡ₚ l2 → fprod l1 = fprod l2.
Proof. induction 1; cbn; [done|by f_equal|ring|congruence]. Qed.

Lemma fsub_0 x y : x -f y = f0 → x = y.
Proof. intros H. transitivity (x -f y +f y); [ring|]. rewrite H. ring. Qed.
Lemma fsub_nz x y : x ≠ y → x -f y ≠ f0.
Proof. intros H E. by apply H, fsub_0. Qed.

(** the Lagrange coefficient at 0 of the point [x] among the points [xs] *)
Definition lambda (xs : list Fq) (x : Fq) : Fq :=
  fprod ((λ y, y /f (y -f x)) <$> filter (λ y, y ≠ x) xs).

(** interpolation at 0: sum of lambda_x * p x *)
Definition interpolate (xs : list Fq) (p : Fq → Fq) : Fq := fsum ((λ x, lambda xs x *f p x) <$> xs).

Lemma lambda_perm xs ys x : xs ≡ₚ ys → lambda xs x = lambda ys x.
Proof. intros H. unfold lambda. apply fprod_perm. by rewrite H. Qed.
Lemma interpolate_perm xs ys p : xs ≡ₚ ys → interpolate xs p = interpolate ys p.
Proof.
  intros H. unfold interpolate. transitivity (fsum ((λ x, lambda ys x *f p x) <$> xs)).
  - f_equal. apply list_fmap_ext. intros _ x _. by rewrite (lambda_perm _ _ _ H).
  - apply fsum_perm. by rewrite H.
Qed.

Lemma lambda_cons_ne a xs x : a ≠ x → lambda (a :: xs) x = a /f (a -f x) *f lambda xs x.
Proof. intros H. unfold lambda. rewrite filter_cons_True by done. done. Qed.

(** interpolating (X - a) * r over a :: xs is interpolating r over xs *)
Lemma interpolate_shift a xs r : a ∉ xs →
  interpolate (a :: xs) (λ x, (x -f a) *f r x) = (f0 -f a) *f interpolate xs r.
Proof.
  intros Ha. unfold interpolate. cbn [fmap list_fmap fsum].
  replace (lambda (a :: xs) a *f ((a -f a) *f r a)) with f0 by ring.
  rewrite <-(fsum_scale (f0 -f a)).
  transitivity (fsum ((λ x, lambda (a :: xs) x *f ((x -f a) *f r x)) <$> xs)); [ring|].
  f_equal. apply Forall_fmap_ext_1, Forall_forall. intros x Hx.
  assert (Hax : a ≠ x) by (by intros ->). rewrite lambda_cons_ne by done.
  field. by apply fsub_nz.
Qed.

Lemma interpolate_ext xs p r : (∀ x, p x = r x) → interpolate xs p = interpolate xs r.
Proof. intros H. unfold interpolate. f_equal. apply list_fmap_ext. intros _ x _. by rewrite H. Qed.
Lemma interpolate_linear xs a p b r :
  interpolate xs (λ x, a *f p x +f b *f r x) = a *f interpolate xs p +f b *f interpolate xs r.
Proof.
  unfold interpolate. rewrite <-(fsum_scale a), <-(fsum_scale b), <-fsum_add. f_equal.
  apply list_fmap_ext. intros _ x _. ring.
Qed.

(** the Lagrange coefficients at 0 sum up to 1 *)
Lemma interpolate_1 xs : NoDup xs → xs ≠ [] → interpolate xs (λ _, f1) = f1.
Proof.
  remember (length xs) as n eqn:En. revert xs En. induction n as [|n IH]; intros xs En Hnd Hne; [by destruct xs|].
  destruct xs as [|a [|b xs]]; [done| |].
  - unfold interpolate. cbn [fmap list_fmap fsum]. unfold lambda. rewrite filter_cons_False by (intros H; by apply H). cbn. ring.
  - apply NoDup_cons in Hnd as [Ha Hnd]. pose proof Hnd as Hnd'. apply NoDup_cons in Hnd' as [Hb Hnd2].
    assert (Hab : a ≠ b) by set_solver. assert (Ha' : a ∉ xs) by set_solver.
    assert (E : ∀ a xs, a ∉ xs → length xs = n → NoDup xs → xs ≠ [] →
      interpolate (a :: xs) (λ x, x) = a *f (interpolate (a :: xs) (λ _, f1) -f f1)).
    { clear -IH. intros a xs Ha Hl Hnd Hne.
      transitivity (interpolate (a :: xs) (λ x, a *f f1 +f f1 *f ((x -f a) *f f1))).
      { apply interpolate_ext. intros x. ring. }
      rewrite interpolate_linear, (interpolate_shift a xs (λ _, f1)) by done. rewrite (IH xs) by done. ring. }
    assert (E1 := E a (b :: xs) Ha). assert (E2 := E b (a :: xs)).
    cbn in En. specialize (E1 ltac:(cbn; lia) Hnd ltac:(done)).
    specialize (E2 ltac:(set_solver) ltac:(cbn; lia) ltac:(by apply NoDup_cons) ltac:(done)).
    assert (P : b :: a :: xs ≡ₚ a :: b :: xs) by constructor.
    rewrite !(interpolate_perm _ _ _ P) in E2. rewrite E1 in E2.
    set (S := interpolate (a :: b :: xs) (λ _, f1)) in *.
    assert (Z0 : (a -f b) *f (S -f f1) = f0).
    { transitivity (a *f (S -f f1) -f b *f (S -f f1)); [ring|]. rewrite E2. ring. }
    apply Fq_integral in Z0 as [Z0|Z0]; apply fsub_0 in Z0; done.
Qed.

(** Lagrange interpolation recovers the value at 0 of every polynomial with at most as many
    coefficients as points *)
Theorem lagrange_zero xs p : NoDup xs → xs ≠ [] → length p ≤ length xs → interpolate xs (feval p) = feval p f0.
Proof.
  remember (length xs) as n eqn:En. revert xs p En. induction n as [|n IH]; intros xs p En Hnd Hne Hp; [by destruct xs|].
  destruct xs as [|a xs]; [done|]. pose proof Hnd as Hnd'. apply NoDup_cons in Hnd' as [Ha Hnd2]. cbn in En.
  destruct (factor_out a p) as (r & Hr & Hf).
  transitivity (interpolate (a :: xs) (λ x, feval p a *f f1 +f f1 *f ((x -f a) *f feval r x))).
  { apply interpolate_ext. intros x. rewrite (Hf x). ring. }
  rewrite interpolate_linear, interpolate_1 by done. rewrite interpolate_shift by done.
  destruct (decide (xs = [])) as [->|Hxs].
  - destruct r; [|cbn in *; lia]. rewrite (Hf f0). unfold interpolate. cbn. ring.
  - rewrite (IH xs r) by (try done; lia). rewrite (Hf f0). ring.
Qed.

(** through any points with distinct abscissae there is a polynomial with as many coefficients *)
Theorem interpolation_exists (pts : list (Fq * Fq)) : NoDup pts.*1 →
  ∃ p, length p = length pts ∧ ∀ x y, (x, y) ∈ pts → feval p x = y.
Proof.
  remember (length pts) as n eqn:En. revert pts En. induction n as [|n IH]; intros pts En Hnd.
  - exists []. split; [done|]. intros x y H. destruct pts; [by apply elem_of_nil in H|done].
  - destruct pts as [|[a v] pts]; [done|]. cbn in En, Hnd. apply NoDup_cons in Hnd as [Ha Hnd].
    destruct (IH ((λ q, (q.1, (q.2 -f v) /f (q.1 -f a))) <$> pts)) as (r & Hr & Hev).
    { rewrite fmap_length. lia. }
    { by rewrite <-list_fmap_compose. }
    exists (padd [v] (padd (f0 :: r) (fmul (f0 -f a) <$> r))). split.
    { rewrite !padd_length. cbn. rewrite fmap_length. lia. }
    assert (F : ∀ x, feval (padd [v] (padd (f0 :: r) (fmul (f0 -f a) <$> r))) x = v +f (x -f a) *f feval r x).
    { intros x. rewrite !feval_padd, feval_scale. cbn. ring. }
    intros x y Hin. rewrite F. apply elem_of_cons in Hin as [E|Hin].
    + injection E as -> ->. ring.
    + assert (Hxa : x ≠ a). { intros ->. apply Ha. apply elem_of_list_fmap. by exists (a, y). }
      rewrite (Hev x ((y -f v) /f (x -f a))).
      * field. by apply fsub_nz.
      * apply elem_of_list_fmap. by exists (x, y).
Qed.
