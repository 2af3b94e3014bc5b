(** Go slices with their backing arrays, as far as [append] and element assignment are concerned
    (https://go.dev/ref/spec#Appending_and_copying_slices).  An array is identified by a number. *)
From stdpp Require Import list gmap fin_maps.
From Coq Require Import Lia.

Section Heap.
Context {A : Type}.
Local Notation heap := (gmap nat (list A)).
(** pointer to the array, offset, length and capacity *)
Record slice := mkSlice { s_arr : nat; s_off : nat; s_len : nat; s_cap : nat }.
Definition array (h : heap) (i : nat) : list A := default [] (h !! i).
(** the elements the slice shows *)
Definition content (h : heap) (s : slice) : list A := take (s_len s) (drop (s_off s) (array h (s_arr s))).
(** the slice lies inside its backing array *)
Definition slice_ok (h : heap) (s : slice) : Prop :=
  is_Some (h !! s_arr s) ∧ s_len s ≤ s_cap s ∧ s_off s + s_cap s ≤ length (array h (s_arr s)).
Definition write_at (i : nat) (vs a : list A) : list A := take i a ++ vs ++ drop (i + length vs) a.
(** append(s, vs...): in place if the capacity suffices, otherwise a new array is allocated; [extra] is the
    content of the additional capacity the runtime chooses to allocate *)
Definition go_append (extra : list A) (h : heap) (s : slice) (vs : list A) : heap * slice :=
  if Nat.leb (s_len s + length vs) (s_cap s) then
    (<[s_arr s := write_at (s_off s + s_len s) vs (array h (s_arr s))]> h,
     mkSlice (s_arr s) (s_off s) (s_len s + length vs) (s_cap s))
  else
    let a := content h s ++ vs ++ extra in
    let i := fresh (dom h) in
    (<[i := a]> h, mkSlice i 0 (s_len s + length vs) (length a)).

(** ** Facts *)
Lemma content_length h s : slice_ok h s → length (content h s) = s_len s.
Proof. intros (_ & H1 & H2). unfold content. rewrite take_length, drop_length. lia. Qed.
Lemma write_at_length i vs a : i + length vs ≤ length a → length (write_at i vs a) = length a.
Proof. intros. unfold write_at. rewrite !app_length, take_length, drop_length. lia. Qed.
Lemma write_at_lookup_ne i vs a k : (k < i ∨ i + length vs ≤ k) → i + length vs ≤ length a → write_at i vs a !! k = a !! k.
Proof.
  intros Hk Hl. unfold write_at. destruct (decide (k < i)) as [Hlt|Hge].
  - rewrite lookup_app_l by (rewrite take_length; lia). by apply lookup_take.
  - rewrite lookup_app_r by (rewrite take_length; lia). rewrite take_length, Nat.min_l by lia.
    rewrite lookup_app_r by lia. rewrite lookup_drop. f_equal. lia.
Qed.
Lemma content_lookup h s k : k < s_len s → content h s !! k = array h (s_arr s) !! (s_off s + k).
Proof. intros. unfold content. rewrite lookup_take by done. by rewrite lookup_drop. Qed.

(** what append does: the result shows the old elements followed by the new ones, and the only cells of old
    arrays that may change are those right behind the slice, within its capacity *)
Lemma go_append_spec extra h s vs h' s' : slice_ok h s → go_append extra h s vs = (h', s') →
  slice_ok h' s' ∧ content h' s' = content h s ++ vs ∧ dom h ⊆ dom h' ∧
  (∀ i, i ∈ dom h → (i ≠ s_arr s ∨ s_cap s < s_len s + length vs) → h' !! i = h !! i) ∧
  (length (array h' (s_arr s)) = length (array h (s_arr s))) ∧
  (∀ k, (k < s_off s + s_len s ∨ s_off s + s_len s + length vs ≤ k) → array h' (s_arr s) !! k = array h (s_arr s) !! k) ∧
  (s_cap s < s_len s + length vs → s_arr s' ∉ dom h) ∧ s_len s' = s_len s + length vs.
Proof.
  intros Hok. pose proof Hok as (Hs & H1 & H2). unfold go_append.
  destruct (Nat.leb_spec (s_len s + length vs) (s_cap s)) as [Hc|Hc]; intros [= <- <-].
  - assert (Ha : array (<[s_arr s:=write_at (s_off s + s_len s) vs (array h (s_arr s))]> h) (s_arr s) = write_at (s_off s + s_len s) vs (array h (s_arr s))).
    { unfold array. by rewrite lookup_insert. }
    assert (Hl : length (write_at (s_off s + s_len s) vs (array h (s_arr s))) = length (array h (s_arr s))).
    { apply write_at_length. lia. }
    split; [|split; [|split; [|split; [|split; [|split; [|split]]]]]].
    + split; cbn [s_arr s_len s_cap s_off]; [rewrite lookup_insert; by eexists|]. rewrite Ha, Hl. split; lia.
    + unfold content. cbn [s_arr s_len s_cap s_off]. rewrite Ha. unfold write_at.
      rewrite <-(take_drop (s_off s) (take (s_off s + s_len s) (array h (s_arr s)))) at 1.
      rewrite take_take, Nat.min_l by lia. rewrite <-app_assoc.
      rewrite drop_app_alt by (rewrite take_length; lia).
      rewrite skipn_firstn_comm. replace (s_off s + s_len s - s_off s) with (s_len s) by lia.
      rewrite app_assoc. apply take_app_alt. rewrite app_length, take_length, drop_length. lia.
    + rewrite dom_insert_L. set_solver.
    + intros i Hi [Hne|Hgt]; [by rewrite lookup_insert_ne|lia].
    + by rewrite Ha, Hl.
    + intros k Hk. rewrite Ha. apply write_at_lookup_ne; lia.
    + lia.
    + done.
  - set (a := content h s ++ vs ++ extra). set (i := fresh (dom h)).
    assert (Hi : i ∉ dom h) by apply is_fresh.
    assert (Hni : s_arr s ≠ i). { intros E. apply Hi. rewrite <-E. by apply elem_of_dom. }
    assert (Ha : array (<[i:=a]> h) i = a) by (unfold array; by rewrite lookup_insert).
    assert (Hn : array (<[i:=a]> h) (s_arr s) = array h (s_arr s)) by (unfold array; by rewrite lookup_insert_ne).
    pose proof (content_length h s Hok) as Lc.
    assert (La : length a = s_len s + length vs + length extra) by (unfold a; rewrite !app_length; lia).
    split; [|split; [|split; [|split; [|split; [|split; [|split]]]]]].
    + split; cbn [s_arr s_len s_cap s_off]; [rewrite lookup_insert; by eexists|]. rewrite Ha. lia.
    + unfold content at 1. cbn [s_arr s_len s_cap s_off]. rewrite Ha, drop_0. unfold a. rewrite app_assoc.
      apply take_app_alt. rewrite app_length. lia.
    + rewrite dom_insert_L. set_solver.
    + intros j Hj _. rewrite lookup_insert_ne; [done|]. intros ->. done.
    + by rewrite Hn.
    + intros k _. by rewrite Hn.
    + done.
    + done.
Qed.
End Heap.
Notation heap A := (gmap nat (list A)).
