From Coq Require Import ZArith List Bool Lia.
From Verif Require Import Outcome CInt CIntFacts Spec ShapeSpec Memory Container Algo Search Slicer Alloc CheckSpec CheckFacts
  Program ProgramSpec ProgramFacts ProgramFacts2 ProgramFacts3 ProgramFacts4.
Import ListNotations.
Open Scope Z_scope.

(** ** Assertions *)
Lemma confirms_refl {A} (x : outcome A) : confirms x x.
Proof. intros r E. exact E. Qed.
Lemma confirms_after {A B} (x : outcome A) (f g : A -> outcome B) : (forall a, confirms (f a) (g a)) -> confirms (bind x f) (bind x g).
Proof. intros H r. destruct x; cbn [bind]; try discriminate. apply H. Qed.
Lemma confirms_then {A B} (x y : outcome A) (f : A -> outcome B) : confirms x y -> confirms (bind x f) (bind y f).
Proof. intros H r E. apply bind_inv in E as (a & Ea & E). rewrite (H a Ea). exact E. Qed.

Lemma step_confirms {S T} (k : kstate T) (o : op S T) : confirms (kstep true k o) (kstep false k o).
Proof.
  destruct o; try apply confirms_refl; cbn [kstep].
  - apply confirms_after. intros _. apply confirms_after. intros c. apply confirms_then, stops_confirms, slice_stops.
  - apply confirms_after. intros c1. apply confirms_after. intros c2. apply confirms_then, inner_confirm.
  - apply confirms_after. intros c. apply confirms_then, stops_confirms, lower_stops.
  - apply confirms_after. intros c. apply confirms_then, stops_confirms, upper_stops.
  - apply confirms_after. intros c. apply confirms_then, stops_confirms, binary_stops.
Qed.
Lemma runs_confirm_l {S T} (p : program S T) n : forall k s, confirms (kruns true p n k s) (kruns false p n k s).
Proof.
  induction n as [|n IH]; intros k s; cbn [kruns]; [apply confirms_refl|]. destruct (p_call p s) as [o|]; [|apply confirms_refl].
  intros r E. apply bind_inv in E as ([k1 r1] & E1 & E). rewrite (step_confirms k o _ E1). cbn [bind]. exact (IH k1 _ r E).
Qed.

Lemma slice_step_stops {S T} (k : kstate T) v i j h sls :
  only_stops (kstep true k (OSlice (S := S) v i j h sls)) (kstep false k (OSlice (S := S) v i j h sls)).
Proof.
  cbn [kstep]. apply stops_after. intros _ _. apply stops_after. intros c _.
  apply stops_bind; [apply slice_stops|]. intros. apply stops_refl.
Qed.
Lemma step_stops {S T} (w : world T) k (o : op S T) w' r : wstep false w o w' r -> matches w k -> owned w ->
  only_stops (kstep true k o) (kstep false k o).
Proof.
  intros H M O. assert (G : wstep true w o w' r -> only_stops (kstep true k o) (kstep false k o)).
  { intros H'. destruct (step_sim true w o w' r k H' M O) as (k' & E & _). left. rewrite E. symmetry. apply step_confirms, E. }
  destruct H; try solve [apply G; econstructor; eassumption]. apply slice_step_stops.
Qed.
Lemma runs_stop_l {S T} (p : program S T) n w s w' s' : wruns false p n w s w' s' -> forall k, matches w k -> owned w ->
  only_stops (kruns true p n k s) (kruns false p n k s).
Proof.
  induction 1 as [w s|n w s E|n w s o w1 r w2 s2 E St _ IH]; intros k M O; cbn [kruns]; [apply stops_refl|rewrite E; apply stops_refl|].
  rewrite E. destruct (step_stops w k o w1 r St M O) as [Eq|Ab]; [|right; rewrite Ab; reflexivity]. rewrite Eq.
  destruct (step_sim false w o w1 r k St M O) as (k1 & E1 & M1 & O1). rewrite E1. cbn [bind]. exact (IH k1 M1 O1).
Qed.
Lemma programs_stop_l {S T} (p : program S T) n m0 s w s' : wruns false p n (winit m0) s w s' ->
  only_stops (kruns true p n (kinit m0) s) (kruns false p n (kinit m0) s).
Proof. intros H. destruct (init_sim m0) as [M O]. exact (runs_stop_l p n _ s w s' H _ M O). Qed.
