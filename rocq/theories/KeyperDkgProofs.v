(** The key generation in the keyper's decisions: every step is a sequence of calls of puredkg determined by the events offered. *)
From stdpp Require Import list gmap.
From Coq Require Import ZArith NArith Lia.
From Verif Require Import Fq CryptoModel DkgModel DkgSpec DkgProofs EpochModel ObserveModel ArithModel MainModel DecideModel EncodingModel KeyperModel KeyperSpec.

Lemma phase_mono p h h' s : (h ≤ h')%Z → phase_at p h s ≤ phase_at p h' s.
Proof. intros H. unfold phase_at. repeat match goal with |- context [(?a <? ?b)%Z] => destruct (Z.ltb_spec a b) end; lia. Qed.
Lemma phase_le_4 p h s : phase_at p h s ≤ 4.
Proof. unfold phase_at. repeat match goal with |- context [(?a <? ?b)%Z] => destruct (Z.ltb_spec a b) end; lia. Qed.
Lemma bind_nil {A B} (f : A → list B) (l : list A) : (∀ x, x ∈ l → f x = []) → l ≫= f = [].
Proof.
  induction l as [|x l IH]; intros H; [done|]. cbn. rewrite (H x) by (by left). cbn. apply IH. intros y Hy. apply H. by right.
Qed.
Lemma broadcasts_app {P} (a b : list (call P)) : broadcasts (a ++ b) = broadcasts a ++ broadcasts b.
Proof. unfold broadcasts. induction a as [|c a IH]; cbn; [done|]. destruct (public_of c); cbn; by rewrite IH. Qed.
Lemma broadcasts_bind {P A} (f : A → list (call P)) (l : list A) : broadcasts (l ≫= f) = l ≫= λ x, broadcasts (f x).
Proof.
  induction l as [|x l IH]; [done|]. change ((x :: l) ≫= f) with (f x ++ (l ≫= f)). rewrite broadcasts_app, IH. done.
Qed.
Lemma with_index_bind {A B C} (f : A * option B → list C) (l : list A) (m : list B) : (∀ a, f (a, None) = []) →
  with_index l m ≫= f = zip l m ≫= λ av, f (av.1, Some av.2).
Proof.
  intros Hf. unfold with_index. revert m. induction l as [|a l IH]; intros m; [done|]. rewrite imap_cons.
  change ((?x :: ?y) ≫= f) with (f x ++ (y ≫= f)). destruct m as [|b m]; cbn [lookup list_lookup zip zip_with].
  - rewrite Hf. cbn [app]. transitivity (imap (λ j x, (x, (@nil B) !! j)) l ≫= f); [|rewrite IH; by destruct l].
    f_equal.
  - change ((?x :: ?y) ≫= ?g) with (g x ++ (y ≫= g)). cbn [fst snd]. f_equal. apply IH.
Qed.
Lemma bind_omap {A B} (f : A → option B) (l : list A) : l ≫= (λ x, option_list (f x)) = omap f l.
Proof. induction l as [|x l IH]; [done|]. cbn. destruct (f x); cbn; by rewrite <-IH. Qed.
Lemma bind_ext {A B} (f g : A → list B) (l : list A) : (∀ x, x ∈ l → f x = g x) → l ≫= f = l ≫= g.
Proof.
  induction l as [|x l IH]; intros H; [done|]. cbn. rewrite (H x) by (by left). f_equal. apply IH. intros y Hy. apply H. by right.
Qed.

Section Dkg.
Context {P : pairing} {K : Type}.
Context (ecies_decrypt : list N → option (list N)) (plen : phase_length) (me : N).
Notation eonev := (eon_event (body P)).
Notation kdkg := (kdkg P).
Implicit Types (k : kdkg) (e : eonev) (i : kinput P K).

(** ** Calls *)
Definition commitment_calls (keypers : list N) (start : Z) e : list (call P) :=
  if negb (phase_at plen (ev_height e) start =? dealing) then []
  else match ev_body e with
       | BCommitment sender gs =>
           match find_address keypers sender with Some i => [CCommitment (mkCommitmentMsg (ev_eon e) i gs)] | None => [] end
       | _ => []
       end.
Definition eval_calls (keypers : list N) (idx : N) (start : Z) e : list (call P) :=
  if negb (phase_at plen (ev_height e) start =? dealing) then []
  else match ev_body e with
       | BPolyEval sender receivers evals =>
           match find_address keypers sender with
           | Some i =>
               if (i =? idx)%N then []
               else with_index receivers evals ≫= λ r,
                 match find_address keypers r.1 with
                 | Some j => if negb (j =? idx)%N then []
                             else match r.2 ≫= ecies_decrypt with
                                  | Some b => [CEval (mkEvalMsg (ev_eon e) i idx (EncModel.be_value b))] | None => [] end
                 | None => []
                 end
           | None => []
           end
       | _ => []
       end.
Definition accusation_calls (keypers : list N) (n : N) (start : Z) e : list (call P) :=
  if negb (phase_at plen (ev_height e) start =? accusing) then []
  else match ev_body e with
       | BAccusation sender accused =>
           match find_address keypers sender with
           | Some i => accused ≫= λ a, match find_address keypers a with Some j => [CAccusation (mkAccusationMsg n i j)] | None => [] end
           | None => []
           end
       | _ => []
       end.
Definition apology_calls (keypers : list N) (n : N) (start : Z) e : list (call P) :=
  if negb (phase_at plen (ev_height e) start =? apologizing) then []
  else match ev_body e with
       | BApology sender accusers evals =>
           match find_address keypers sender with
           | Some i => with_index accusers evals ≫= λ r,
               match find_address keypers r.1, r.2 with Some j, Some v => [CApology (mkApologyMsg n j i v)] | _, _ => [] end
           | None => []
           end
       | _ => []
       end.

(** [k'] is [k] after these calls *)
Definition after (cs : list (call P)) k k' : Prop := ∃ p, run (k_pure k) cs = Some p ∧ k' = set_pure k p.
Lemma after_nil k k' : k = k' → after [] k k'.
Proof. intros <-. exists (k_pure k). split; [done|]. by destruct k. Qed.
Lemma after_app cs cs' k k' k'' : after cs k k' → after cs' k' k'' → after (cs ++ cs') k k''.
Proof.
  intros (p & E1 & ->) (p' & E2 & ->). exists p'. split; [|done]. apply run_app. by exists p.
Qed.
Lemma after_frame cs k k' : after cs k k' → k_eon k' = k_eon k ∧ k_start_batch k' = k_start_batch k ∧ k_keypers k' = k_keypers k ∧
  k_outgoing k' = k_outgoing k ∧ k_plen k' = k_plen k ∧ d_keyper (k_pure k') = d_keyper (k_pure k).
Proof. intros (p & E1 & ->). cbn. apply run_frame in E1 as (_ & _ & _ & -> & _). done. Qed.
Lemma keep_going_call k c o k' : do_call (k_pure k) c = keep (k_pure k) o → keep_going k o = Some k' → after [c] k k'.
Proof.
  intros E. unfold keep_going. intros E'. unfold after. cbn [run].
  destruct o as [p| |]; cbn [keep] in E; [..|done]; injection E' as <-.
  - exists p. by rewrite E.
  - exists (k_pure k). rewrite E. split; [done|]. by destruct k.
Qed.
Lemma each_after {A} (f : kdkg → A → option kdkg) (calls : A → list (call P)) (keypers : list N) (n idx : N) (l : list A) :
  (∀ k x k', x ∈ l → k_keypers k = keypers → k_eon k = n → k_plen k = plen → d_keyper (k_pure k) = idx → f k x = Some k' → after (calls x) k k') →
  ∀ k k', k_keypers k = keypers → k_eon k = n → k_plen k = plen → d_keyper (k_pure k) = idx → each f k l = Some k' → after (l ≫= calls) k k'.
Proof.
  induction l as [|x l IH]; intros Hf k k' H1 H2 H3 H4; cbn [each].
  - intros [= <-]. by apply after_nil.
  - intros (k1 & E1 & E2)%bind_Some. assert (A1 : after (calls x) k k1) by (apply Hf; [by left|done..]).
    pose proof (after_frame _ _ _ A1) as (F1 & _ & F3 & _ & F5 & F6). change ((x :: l) ≫= calls) with (calls x ++ (l ≫= calls)).
    eapply after_app; [exact A1|]. apply IH; try congruence. intros k2 y k3 Hy. apply Hf. by right.
Qed.
Lemma sync_commitment_after start k e k' : k_plen k = plen → sync_commitment start k e = Some k' →
  after (commitment_calls (k_keypers k) start e) k k'.
Proof.
  intros Hp. unfold sync_commitment, commitment_calls. rewrite Hp. destruct (ev_body e); try done.
  destruct (negb _); [intros [= <-]; by apply after_nil|]. destruct (find_address _ _) as [j|]; [|intros [= <-]; by apply after_nil].
  by apply keep_going_call.
Qed.
Lemma sync_poly_eval_after start k e k' : k_plen k = plen → sync_poly_eval ecies_decrypt start k e = Some k' →
  after (eval_calls (k_keypers k) (d_keyper (k_pure k)) start e) k k'.
Proof.
  intros Hp. unfold sync_poly_eval, eval_calls. rewrite Hp. destruct (ev_body e) as [|sender receivers evals| | |]; try done.
  destruct (negb _); [intros [= <-]; by apply after_nil|]. destruct (find_address _ _) as [j|]; [|intros [= <-]; by apply after_nil].
  destruct (_ =? _)%N; [intros [= <-]; by apply after_nil|].
  apply (each_after _ _ (k_keypers k) (k_eon k) (d_keyper (k_pure k))); try done.
  intros k1 [a oe] k2 _ F1 F2 _ F4. unfold sync_poly_eval_to. cbn [fst snd]. rewrite F1, F4.
  destruct (find_address _ a) as [j'|]; [|intros [= <-]; by apply after_nil].
  destruct (negb _); [intros [= <-]; by apply after_nil|]. intros (enc & -> & E)%bind_Some. cbn [mbind option_bind].
  destruct (ecies_decrypt enc) as [b|]; [|injection E as <-; by apply after_nil]. revert E. by apply keep_going_call.
Qed.
Lemma sync_accusation_after start k e k' : k_plen k = plen → sync_accusation start k e = Some k' →
  after (accusation_calls (k_keypers k) (k_eon k) start e) k k'.
Proof.
  intros Hp. unfold sync_accusation, accusation_calls. rewrite Hp. destruct (ev_body e) as [| |sender accused| |]; try done.
  destruct (negb _); [intros [= <-]; by apply after_nil|]. destruct (find_address _ _) as [j|]; [|intros [= <-]; by apply after_nil].
  apply (each_after _ _ (k_keypers k) (k_eon k) (d_keyper (k_pure k))); try done.
  intros k1 a k2 _ F1 F2 _ F4. unfold sync_accusation_of. rewrite F1, F2.
  destruct (find_address _ a) as [j'|]; [|intros [= <-]; by apply after_nil]. by apply keep_going_call.
Qed.
Lemma sync_apology_after start k e k' : k_plen k = plen → sync_apology start k e = Some k' →
  after (apology_calls (k_keypers k) (k_eon k) start e) k k'.
Proof.
  intros Hp. unfold sync_apology, apology_calls. rewrite Hp. destruct (ev_body e) as [| | |sender accusers evals|]; try done.
  destruct (negb _); [intros [= <-]; by apply after_nil|]. destruct (find_address _ _) as [j|]; [|intros [= <-]; by apply after_nil].
  apply (each_after _ _ (k_keypers k) (k_eon k) (d_keyper (k_pure k))); try done.
  intros k1 [a ov] k2 _ F1 F2 _ F4. unfold sync_apology_to. cbn [fst snd]. rewrite F1, F2.
  destruct (find_address _ a) as [j'|]; [|intros [= <-]; by apply after_nil]. intros (v & -> & E)%bind_Some. revert E. by apply keep_going_call.
Qed.
(** the loops over the offered events *)
Lemma sync_commitments_after start k l k' : k_plen k = plen → each (sync_commitment start) k l = Some k' →
  after (l ≫= commitment_calls (k_keypers k) start) k k'.
Proof.
  intros Hp. apply (each_after _ _ (k_keypers k) (k_eon k) (d_keyper (k_pure k))); try done.
  intros k1 e k2 _ F1 F2 F3 F4 E. rewrite <-F1. by apply sync_commitment_after.
Qed.
Lemma sync_poly_evals_after start k l k' : k_plen k = plen → each (sync_poly_eval ecies_decrypt start) k l = Some k' →
  after (l ≫= eval_calls (k_keypers k) (d_keyper (k_pure k)) start) k k'.
Proof.
  intros Hp. apply (each_after _ _ (k_keypers k) (k_eon k) (d_keyper (k_pure k))); try done.
  intros k1 e k2 _ F1 F2 F3 F4 E. rewrite <-F1, <-F4. by apply sync_poly_eval_after.
Qed.
Lemma sync_accusations_after start k l k' : k_plen k = plen → each (sync_accusation start) k l = Some k' →
  after (l ≫= accusation_calls (k_keypers k) (k_eon k) start) k k'.
Proof.
  intros Hp. apply (each_after _ _ (k_keypers k) (k_eon k) (d_keyper (k_pure k))); try done.
  intros k1 e k2 _ F1 F2 F3 F4 E. rewrite <-F1, <-F2. by apply sync_accusation_after.
Qed.
Lemma sync_apologies_after start k l k' : k_plen k = plen → each (sync_apology start) k l = Some k' →
  after (l ≫= apology_calls (k_keypers k) (k_eon k) start) k k'.
Proof.
  intros Hp. apply (each_after _ _ (k_keypers k) (k_eon k) (d_keyper (k_pure k))); try done.
  intros k1 e k2 _ F1 F2 F3 F4 E. rewrite <-F1, <-F2. by apply sync_apology_after.
Qed.

(** ** What is public about them *)
Lemma commitment_calls_public ks start l : broadcasts (l ≫= commitment_calls ks start) = in_phase plen start dealing l ≫= commitment_public ks.
Proof.
  rewrite broadcasts_bind. unfold in_phase. induction l as [|e l IH]; [done|].
  change ((?x :: ?y) ≫= ?g) with (g x ++ (y ≫= g)). rewrite IH. cbn [List.filter]. unfold commitment_calls.
  destruct (_ =? _); cbn [negb]; [|done]. change ((?x :: ?y) ≫= ?g) with (g x ++ (y ≫= g)). f_equal.
  unfold commitment_public. destruct (ev_body e); try done. by destruct (find_address ks _).
Qed.
Lemma eval_calls_public ks idx start l : broadcasts (l ≫= eval_calls ks idx start) = [].
Proof.
  rewrite broadcasts_bind. apply bind_nil. intros e _. unfold eval_calls. destruct (negb _); [done|].
  destruct (ev_body e); try done. destruct (find_address ks _); [|done]. destruct (_ =? _)%N; [done|].
  rewrite broadcasts_bind. apply bind_nil. intros [a o] _. cbn [fst snd]. destruct (find_address ks a); [|done]. destruct (negb _); [done|].
  by destruct (o ≫= _).
Qed.
Lemma accusation_calls_public ks n start l : Forall (λ e, ev_eon e = n) l →
  broadcasts (l ≫= accusation_calls ks n start) = in_phase plen start accusing l ≫= accusation_public ks.
Proof.
  intros HF. rewrite broadcasts_bind. unfold in_phase. induction HF as [|e l He HF IH]; [done|].
  change ((?x :: ?y) ≫= ?g) with (g x ++ (y ≫= g)). rewrite IH. cbn [List.filter]. unfold accusation_calls.
  destruct (_ =? _); cbn [negb]; [|done]. change ((?x :: ?y) ≫= ?g) with (g x ++ (y ≫= g)). f_equal.
  unfold accusation_public. destruct (ev_body e) as [| |sender accused| |]; try done. rewrite He.
  destruct (find_address ks sender) as [i|]; cbn [mbind option_bind]; [|by induction accused].
  rewrite broadcasts_bind, <-bind_omap. apply bind_ext. intros a _. by destruct (find_address ks a).
Qed.
Lemma apology_calls_public ks n start l : Forall (λ e, ev_eon e = n) l →
  broadcasts (l ≫= apology_calls ks n start) = in_phase plen start apologizing l ≫= apology_public ks.
Proof.
  intros HF. rewrite broadcasts_bind. unfold in_phase. induction HF as [|e l He HF IH]; [done|].
  change ((?x :: ?y) ≫= ?g) with (g x ++ (y ≫= g)). rewrite IH. cbn [List.filter]. unfold apology_calls.
  destruct (_ =? _); cbn [negb]; [|done]. change ((?x :: ?y) ≫= ?g) with (g x ++ (y ≫= g)). f_equal.
  unfold apology_public. destruct (ev_body e) as [| | |sender accusers evals|]; try done. rewrite He.
  destruct (find_address ks sender) as [i|]; cbn [mbind option_bind]; [|by induction (zip accusers evals)].
  rewrite with_index_bind by (intros a; cbn; by destruct (find_address ks a)).
  rewrite broadcasts_bind, <-bind_omap. apply bind_ext. intros [a v] _. cbn [fst snd]. by destruct (find_address ks a).
Qed.
(** ** What is received *)
Lemma received_app (a b : list (call P)) : received (a ++ b) = received a ++ received b.
Proof. unfold received. induction a as [|c a IH]; [done|]. cbn [app omap list_omap]. destruct c; rewrite IH; done. Qed.
Lemma received_bind {A} (f : A → list (call P)) (l : list A) : received (l ≫= f) = l ≫= λ x, received (f x).
Proof. induction l as [|x l IH]; [done|]. change ((x :: l) ≫= f) with (f x ++ (l ≫= f)). rewrite received_app, IH. done. Qed.
Lemma commitment_calls_received ks start l : received (l ≫= commitment_calls ks start) = [].
Proof.
  rewrite received_bind. apply bind_nil. intros e _. unfold commitment_calls. destruct (negb _); [done|]. destruct (ev_body e); try done. by destruct (find_address ks _).
Qed.
Lemma eval_calls_received ks idx start l : received (l ≫= eval_calls ks idx start) = in_phase plen start dealing l ≫= evals_for ecies_decrypt ks idx.
Proof.
  rewrite received_bind. unfold in_phase. induction l as [|e l IH]; [done|].
  change ((?x :: ?y) ≫= ?g) with (g x ++ (y ≫= g)). rewrite IH. cbn [List.filter]. unfold eval_calls.
  destruct (_ =? _); cbn [negb]; [|done]. change ((?x :: ?y) ≫= ?g) with (g x ++ (y ≫= g)). f_equal.
  unfold evals_for. destruct (ev_body e) as [|sender receivers evals| | |]; try done.
  destruct (find_address ks sender) as [i|]; [|done]. destruct (i =? idx)%N; [done|].
  rewrite with_index_bind by (intros a; cbn; destruct (find_address ks a) as [j|]; [by destruct (negb (j =? idx)%N)|done]).
  rewrite received_bind, <-bind_omap. apply bind_ext. intros [a v] _. cbn [fst snd]. destruct (find_address ks a) as [j|]; [|done]. cbn [mbind option_bind].
  destruct (j =? idx)%N; [|done]. cbn [negb]. by destruct (ecies_decrypt v).
Qed.
(** events of other phases do not lead to calls *)
Lemma commitment_calls_phase ks start l : Forall (λ e, phase_at plen (ev_height e) start ≠ dealing) l → l ≫= commitment_calls ks start = [].
Proof.
  intros HF. apply bind_nil. intros e He. unfold commitment_calls. rewrite Forall_forall in HF. specialize (HF e He).
  by destruct (Nat.eqb_spec (phase_at plen (ev_height e) start) dealing).
Qed.
Lemma eval_calls_phase ks idx start l : Forall (λ e, phase_at plen (ev_height e) start ≠ dealing) l → l ≫= eval_calls ks idx start = [].
Proof.
  intros HF. apply bind_nil. intros e He. unfold eval_calls. rewrite Forall_forall in HF. specialize (HF e He).
  by destruct (Nat.eqb_spec (phase_at plen (ev_height e) start) dealing).
Qed.
Lemma accusation_calls_phase ks n start l : Forall (λ e, phase_at plen (ev_height e) start ≠ accusing) l → l ≫= accusation_calls ks n start = [].
Proof.
  intros HF. apply bind_nil. intros e He. unfold accusation_calls. rewrite Forall_forall in HF. specialize (HF e He).
  by destruct (Nat.eqb_spec (phase_at plen (ev_height e) start) accusing).
Qed.
Lemma apology_calls_phase ks n start l : Forall (λ e, phase_at plen (ev_height e) start ≠ apologizing) l → l ≫= apology_calls ks n start = [].
Proof.
  intros HF. apply bind_nil. intros e He. unfold apology_calls. rewrite Forall_forall in HF. specialize (HF e He).
  by destruct (Nat.eqb_spec (phase_at plen (ev_height e) start) apologizing).
Qed.

(** ** One decision *)
Definition calls_upto (q : nat) (x : execution P) : list (call P) :=
  (if 1 <=? q then CStart1 (ex_rnd x) :: ex_dealing x else []) ++ (if 2 <=? q then CStart2 :: ex_accusing x else []) ++
  (if 3 <=? q then CStart3 :: ex_apologizing x else []) ++ (if 4 <=? q then [CFinalize] else []).
(** [p] is the state of puredkg after the execution [x] has got to phase [q] *)
Record running (n num t idx : N) (q : nat) (x : execution P) (p : dkg P) : Prop := {
  ru_run : run (new_dkg P n num t idx) (calls_upto q x) = Some p;
  ru_phase : d_phase p = q;
  ru_off : ex_off x = [];
  ru_dealing : q < 1 → ex_dealing x = [];
  ru_accusing : q < 2 → ex_accusing x = [];
  ru_apologizing : q < 3 → ex_apologizing x = []
}.
Definition add_dealing (x : execution P) cs := mkExecution (ex_off x) (ex_rnd x) (ex_dealing x ++ cs) (ex_accusing x) (ex_apologizing x).
Definition add_accusing (x : execution P) cs := mkExecution (ex_off x) (ex_rnd x) (ex_dealing x) (ex_accusing x ++ cs) (ex_apologizing x).
Definition add_apologizing (x : execution P) cs := mkExecution (ex_off x) (ex_rnd x) (ex_dealing x) (ex_accusing x) (ex_apologizing x ++ cs).
Definition with_rnd (x : execution P) rnd := mkExecution (ex_off x) rnd (ex_dealing x) (ex_accusing x) (ex_apologizing x).
Definition frame k k' : Prop := k_eon k' = k_eon k ∧ k_start_batch k' = k_start_batch k ∧ k_keypers k' = k_keypers k ∧ k_plen k' = k_plen k.
Lemma frame_trans k k' k'' : frame k k' → frame k' k'' → frame k k''.
Proof. unfold frame. intros (?&?&?&?) (?&?&?&?). split_and!; congruence. Qed.

Lemma run_phase (p : dkg P) cs p' : run p cs = Some p' → Forall (λ c, match c with CStart1 _ | CStart2 | CStart3 | CFinalize => False | _ => True end) cs →
  d_phase p' = d_phase p.
Proof.
  revert p. induction cs as [|c cs IH]; intros p; cbn [run]; [by intros [= ->]|].
  destruct (do_call p c) as [p1|] eqn:E; [|done]. intros H [Hc HF]%Forall_cons. rewrite (IH p1 H HF). clear H.
  destruct c as [rnd| | | |m|m|m|m]; try done; cbn [do_call] in E.
  - destruct (handle_commitment p m) eqn:E1; cbn [keep] in E; simplify_eq; [|done]. by apply handle_commitment_inv in E1 as (_ & _ & _ & _ & ->).
  - destruct (handle_eval p m) eqn:E1; cbn [keep] in E; simplify_eq; [|done]. by apply handle_eval_inv in E1 as (_ & _ & _ & _ & _ & ->).
  - destruct (handle_accusation p m) eqn:E1; cbn [keep] in E; simplify_eq; [|done]. by apply handle_accusation_inv in E1 as (_ & _ & ->).
  - destruct (handle_apology p m) eqn:E1; cbn [keep] in E; simplify_eq; [|done]. by apply handle_apology_inv in E1 as (_ & _ & _ & ->).
Qed.
Definition messages (cs : list (call P)) : Prop := Forall (λ c, match c with CStart1 _ | CStart2 | CStart3 | CFinalize => False | _ => True end) cs.
Lemma bind_messages {A} (f : A → list (call P)) l : (∀ x, messages (f x)) → messages (l ≫= f).
Proof. intros H. induction l as [|x l IH]; [constructor|]. change ((?x :: ?y) ≫= ?g) with (g x ++ (y ≫= g)). apply Forall_app. split; [apply H|done]. Qed.
Lemma commitment_messages ks start l : messages (l ≫= commitment_calls ks start).
Proof.
  apply bind_messages. intros e. unfold commitment_calls. destruct (negb _); [constructor|]. destruct (ev_body e); try constructor.
  destruct (find_address _ _); repeat constructor.
Qed.
Lemma eval_messages ks idx start l : messages (l ≫= eval_calls ks idx start).
Proof.
  apply bind_messages. intros e. unfold eval_calls. destruct (negb _); [constructor|]. destruct (ev_body e); try constructor.
  destruct (find_address _ _); [|constructor]. destruct (_ =? _)%N; [constructor|]. apply bind_messages. intros [a o]. cbn.
  destruct (find_address _ _); [|constructor]. destruct (negb _); [constructor|]. destruct (o ≫= _); repeat constructor.
Qed.
Lemma accusation_messages ks n start l : messages (l ≫= accusation_calls ks n start).
Proof.
  apply bind_messages. intros e. unfold accusation_calls. destruct (negb _); [constructor|]. destruct (ev_body e); try constructor.
  destruct (find_address _ _); [|constructor]. apply bind_messages. intros a. cbn.
  destruct (find_address _ _); repeat constructor.
Qed.
Lemma apology_messages ks n start l : messages (l ≫= apology_calls ks n start).
Proof.
  apply bind_messages. intros e. unfold apology_calls. destruct (negb _); [constructor|]. destruct (ev_body e); try constructor.
  destruct (find_address _ _); [|constructor]. apply bind_messages. intros [a o]. cbn.
  destruct (find_address _ _); [|constructor]. destruct o; repeat constructor.
Qed.

Section Running.
Context (n num t idx : N).
Notation running := (running n num t idx).
Lemma running_dealing x p cs p' : running 1 x p → messages cs → run p cs = Some p' → running 1 (add_dealing x cs) p'.
Proof.
  intros [R1 R2 R3 R4 R5 R6] Hm E. split; [|by rewrite (run_phase _ _ _ E Hm)|done|by intros; lia|done|done].
  replace (calls_upto 1 (add_dealing x cs)) with (calls_upto 1 x ++ cs); [apply run_app; eauto|].
  unfold calls_upto. cbn [Nat.leb add_dealing ex_rnd ex_dealing ex_accusing]. rewrite !app_nil_r. done.
Qed.
Lemma running_accusing x p cs p' : running 2 x p → messages cs → run p cs = Some p' → running 2 (add_accusing x cs) p'.
Proof.
  intros [R1 R2 R3 R4 R5 R6] Hm E. split; [|by rewrite (run_phase _ _ _ E Hm)|done|by intros; lia|by intros; lia|done].
  replace (calls_upto 2 (add_accusing x cs)) with (calls_upto 2 x ++ cs); [apply run_app; eauto|].
  unfold calls_upto. cbn [Nat.leb add_accusing ex_rnd ex_dealing ex_accusing]. rewrite !app_nil_r, <-(assoc_L (++)). done.
Qed.
Lemma running_apologizing x p cs p' : running 3 x p → messages cs → run p cs = Some p' → running 3 (add_apologizing x cs) p'.
Proof.
  intros [R1 R2 R3 R4 R5 R6] Hm E. split; [|by rewrite (run_phase _ _ _ E Hm)|done|by intros; lia|by intros; lia|by intros; lia].
  replace (calls_upto 3 (add_apologizing x cs)) with (calls_upto 3 x ++ cs); [apply run_app; eauto|].
  unfold calls_upto. cbn [Nat.leb add_apologizing ex_rnd ex_dealing ex_accusing ex_apologizing]. rewrite !app_nil_r, <-!(assoc_L (++)). done.
Qed.
Lemma running_start1 x p rnd p' o : running 0 x p → start_phase1 p rnd = Some (p', o) → running 1 (with_rnd x rnd) p' ∧ p = new_dkg P n num t idx.
Proof.
  intros [R1 R2 R3 R4 R5 R6] E. unfold calls_upto in R1. cbn [Nat.leb app run] in R1. injection R1 as R1.
  split; [|done]. split; cbn [with_rnd ex_off ex_dealing ex_accusing ex_apologizing]; try done; try lia.
  - unfold calls_upto. cbn [with_rnd ex_rnd ex_off ex_dealing ex_accusing ex_apologizing Nat.leb app]. rewrite R4 by lia. cbn [app run do_call]. rewrite R1, E. done.
  - apply start_phase1_inv in E as (_ & (Hp & _) & _). by rewrite <-Hp.
  - intros _. apply R5. lia.
  - intros _. apply R6. lia.
Qed.
Lemma running_start2 x p p' o : running 1 x p → start_phase2 p = Some (p', o) → running 2 x p' ∧ o = sent_accusations n num t idx x.
Proof.
  intros [R1 R2 R3 R4 R5 R6] E. pose proof E as E'. apply start_phase2_inv in E' as (_ & Ep & _).
  assert (calls_upto 1 x = until_start2 x) as E1.
  { unfold calls_upto, until_start2, until_start1. cbn. by rewrite app_nil_r, R3. }
  split.
  - split; try done; [|by subst|intros; lia|intros; lia|intros; apply R6; lia].
    replace (calls_upto 2 x) with (calls_upto 1 x ++ [CStart2]).
    + apply run_app. exists p. split; [done|]. cbn. by rewrite E.
    + unfold calls_upto. cbn [Nat.leb]. rewrite R5 by lia. by rewrite !app_nil_r.
  - unfold sent_accusations. by rewrite <-E1, R1, E.
Qed.
Lemma running_start3 x p p' o : running 2 x p → start_phase3 p = Some (p', o) → running 3 x p' ∧ o = sent_apologies n num t idx x.
Proof.
  intros [R1 R2 R3 R4 R5 R6] E. pose proof E as E'. apply start_phase3_inv in E' as (_ & Ep & _).
  assert (calls_upto 2 x = until_start3 x) as E1.
  { unfold calls_upto, until_start3, until_start2, until_start1. cbn. by rewrite app_nil_r, R3. }
  split.
  - split; try done; [|by subst|intros; lia..].
    replace (calls_upto 3 x) with (calls_upto 2 x ++ [CStart3]).
    + apply run_app. exists p. split; [done|]. cbn. by rewrite E.
    + unfold calls_upto. cbn [Nat.leb]. rewrite R6 by lia. by rewrite !app_nil_r, <-!(assoc_L (++)).
  - unfold sent_apologies. by rewrite <-E1, R1, E.
Qed.
Lemma running_finalize x p p' : running 3 x p → finalize p = Some p' → running 4 x p'.
Proof.
  intros [R1 R2 R3 R4 R5 R6] E. pose proof E as E'. apply set_phase_inv in E' as (_ & Ep).
  split; try done; [|by subst|intros; lia..].
  replace (calls_upto 4 x) with (calls_upto 3 x ++ [CFinalize]).
  - apply run_app. exists p. split; [done|]. cbn. by rewrite E.
  - unfold calls_upto. cbn [Nat.leb]. by rewrite !app_nil_r, <-!(assoc_L (++)).
Qed.
End Running.
End Dkg.
