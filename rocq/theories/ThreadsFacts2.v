From Coq Require Import ZArith List Bool Lia.
From Verif Require Import Outcome CInt CIntFacts Spec SpecFacts ShapeSpec Shape ShapeFacts ForEach ForEachFacts Memory MemFacts
  Container ContainerSpec ContainerFacts AlgoSpec Algo AlgoFacts AlgoFacts4 Search SearchSpec SearchFacts Program Threads ThreadsSpec ThreadsFacts.
Import ListNotations.
Open Scope Z_scope.

(** ** A thread that is alone does what the models of the algorithms do *)
Lemma alone_stop {T A B} (o : outcome A) (f : A -> act T B) m : alone (abind (Stop o) f) m = (a <- o ;; alone (f a) m).
Proof. destruct o; reflexivity. Qed.
Lemma alone_ret {T A} (a : A) (m : mem T) : alone (ret a) m = Ok (a, m).
Proof. reflexivity. Qed.
Lemma alone_aref {T} c is_ (m : mem T) : alone (aref c is_) m = (p <- ref m c is_ ;; Ok (p, m)).
Proof. unfold aref, ref. rewrite alone_stop. destruct (address c is_); cbn [bind alone]; try reflexivity. destruct (validb m a); reflexivity. Qed.
Lemma alone_aload {T} p (m : mem T) : alone (aload p) m = (v <- load m p ;; Ok (v, m)).
Proof. reflexivity. Qed.
Lemma alone_astore {T} p v (m : mem T) : alone (astore p v) m = (m' <- store m p v ;; Ok (tt, m')).
Proof. reflexivity. Qed.
Lemma alone_aget {T} c is_ (m : mem T) : alone (aget c is_) m = (v <- get m c is_ ;; Ok (v, m)).
Proof. unfold aget, get. rewrite alone_bind, alone_aref. destruct (ref m c is_); reflexivity. Qed.
Lemma alone_aput {T} c is_ v (m : mem T) : alone (aput c is_ v) m = (m' <- put m c is_ v ;; Ok (tt, m')).
Proof. unfold aput, put. rewrite alone_bind, alone_aref. destruct (ref m c is_); reflexivity. Qed.

Lemma alone_amapM {T A B} (fa : A -> act T B) f m : (forall x, alone (fa x) m = (y <- f x ;; Ok (y, m))) ->
  forall l, alone (amapM fa l) m = (ys <- mapM f l ;; Ok (ys, m)).
Proof.
  intros H. induction l as [|x l IH]; [reflexivity|]. cbn [amapM mapM]. rewrite alone_bind, H.
  destruct (f x); cbn [bind fst snd]; try reflexivity. rewrite alone_bind, IH. destruct (mapM f l); reflexivity.
Qed.

Lemma alone_aloop {T S} fuel : forall M i (fa : cint -> S -> act T S) f s m,
  (forall i s m, alone (fa i s) m = f i (s, m)) -> alone (aloop fuel M i fa s) m = loop fuel M i f (s, m).
Proof.
  induction fuel as [|fuel IH]; intros M i fa f s m H; [reflexivity|]. cbn [aloop loop].
  destruct (clt i M); [|reflexivity]. rewrite alone_bind, H. destruct (f i (s, m)) as [[s' m']| | |]; cbn [bind fst snd]; try reflexivity.
  rewrite alone_stop. destruct (cincr i); cbn [bind]; try reflexivity. apply IH. exact H.
Qed.
Lemma alone_afor_each {T S} ds (fa : list cint -> S -> act T S) f s m :
  (forall is_ s m, alone (fa is_ s) m = f is_ (s, m)) -> alone (afor_each ds fa s) m = for_each ds f (s, m).
Proof.
  intros H. unfold afor_each, for_each.
  enough (G : forall is_ s m,
    alone (pile (fun acc m => fun is_ s => aloop (fuel_of m) m (CI (cty m) 0) (fun i => acc (is_ ++ [i])) s) ds fa is_ s) m =
    pile (fun acc m => fun is_ s => loop (fuel_of m) m (CI (cty m) 0) (fun i => acc (is_ ++ [i])) s) ds f is_ (s, m)) by apply G.
  clear s m. induction ds as [|M ds IH]; intros is_ s m; cbn [pile fold_right]; [apply H|].
  apply alone_aloop. intros i s' m'. apply IH.
Qed.

Definition reassoc {T S} (o : outcome ((bool * S) * mem T)) : outcome (bool * (S * mem T)) :=
  r <- o ;; Ok (fst (fst r), (snd (fst r), snd r)).
Lemma alone_aloop_until {T S} fuel : forall M i (fa : cint -> bool * S -> act T (bool * S)) f b s m,
  (forall i b s m, reassoc (alone (fa i (b, s)) m) = f i (b, (s, m))) ->
  reassoc (alone (aloop_until fuel M i fa (b, s)) m) = loop_until fuel M i f (b, (s, m)).
Proof.
  induction fuel as [|fuel IH]; intros M i fa f b s m H; [reflexivity|]. cbn [aloop_until loop_until fst].
  destruct (negb b && clt i M); [|reflexivity]. rewrite alone_bind, <- H.
  destruct (alone (fa i (b, s)) m) as [[[b' s'] m']| | |]; cbn [bind fst snd]; try reflexivity.
  unfold reassoc at 2. cbn [bind fst snd].
  rewrite alone_stop. destruct (cincr i); cbn [bind]; try reflexivity. apply IH. exact H.
Qed.
Lemma alone_afor_until {T S} ds (fa : list cint -> S -> act T (bool * S)) f s m :
  (forall is_ s m, reassoc (alone (fa is_ s) m) = f is_ (s, m)) -> reassoc (alone (afor_until ds fa s) m) = for_until ds f (s, m).
Proof.
  intros H. unfold afor_until, for_until.
  enough (G : forall is_ b s m,
    reassoc (alone (pile (fun acc m => fun is_ s => aloop_until (fuel_of m) m (CI (cty m) 0) (fun i => acc (is_ ++ [i])) s)
      ds (fun is_ fs => fa is_ (snd fs)) is_ (b, s)) m) =
    pile (fun acc m => fun is_ s => loop_until (fuel_of m) m (CI (cty m) 0) (fun i => acc (is_ ++ [i])) s)
      ds (fun is_ fs => f is_ (snd fs)) is_ (b, (s, m))) by apply G.
  clear s m. induction ds as [|M ds IH]; intros is_ b s m; cbn [pile fold_right]; [apply H|].
  apply alone_aloop_until. intros i b' s' m'. apply IH.
Qed.

Lemma alone_amap {T S} fa f c0 cs (s : S) (m : mem T) : (forall ps s m, alone (fa ps s) m = f ps (s, m)) ->
  alone (amap fa c0 cs s) m = map_containers f c0 cs (s, m).
Proof.
  intros H. unfold amap, map_containers. apply alone_afor_each. intros is_ s' m'.
  rewrite alone_bind, (alone_amapM _ (fun c => ref m' c is_)) by (intros; apply alone_aref). cbn [snd].
  destruct (mapM (fun c => ref m' c is_) (c0 :: cs)); cbn [bind fst snd]; try reflexivity. apply H.
Qed.
Lemma alone_amap_index {T S} fa f c (s : S) (m : mem T) : (forall p is_ s m, alone (fa p is_ s) m = f p is_ (s, m)) ->
  alone (amap_index fa c s) m = map_index f c (s, m).
Proof.
  intros H. unfold amap_index, map_index. apply alone_afor_each. intros is_ s' m'.
  rewrite alone_bind, alone_aref. cbn [snd]. destruct (ref m' c is_); cbn [bind fst snd]; try reflexivity. apply H.
Qed.

(** Steps of the bodies. *)
Ltac bodies :=
  repeat (rewrite ?alone_bind, ?alone_stop, ?alone_aload, ?alone_astore, ?alone_ret; unfold assign; cbn [bind fst snd];
    try reflexivity;
    match goal with
    | |- context [bind (load ?m ?p) _] => destruct (load m p); cbn [bind fst snd]; try reflexivity
    | |- context [if ?b then _ else _] => destruct b; try reflexivity
    | |- context [bind (store ?m ?p ?v) _] => destruct (store m p v); cbn [bind fst snd]; try reflexivity
    | |- context [bind (cincr ?v) _] => destruct (cincr v); cbn [bind fst snd]; try reflexivity
    | |- context [bind (cadd ?v ?w) _] => destruct (cadd v w); cbn [bind fst snd]; try reflexivity
    end).
Ltac shapes ps := destruct ps as [|? [|? [|? ?]]]; try reflexivity.

Definition units {T} (o : outcome (mem T)) : outcome (unit * mem T) := m <- o ;; Ok (tt, m).
Lemma units_run {T} (o : outcome (unit * mem T)) : o = units (run_map o).
Proof. unfold units, run_map. destruct o as [[[] m]| | |]; reflexivity. Qed.
Lemma units_drop {T A} (o : outcome (A * mem T)) : (r <- o ;; alone (ret tt) (snd r)) = units (r <- o ;; Ok (snd r)).
Proof. unfold units. destruct o as [[a m]| | |]; reflexivity. Qed.

Lemma acall_run {S T} (e : elem_fun S T) ps : forall m, alone (acall e ps) m = call e ps m.
Proof.
  induction e as [s|i k IH|i v k IH]; intros m; cbn [acall call]; [reflexivity| |]; destruct (nth_error ps i); try reflexivity; cbn [alone].
  - destruct (load m p); cbn [bind]; auto.
  - destruct (store m p v); cbn [bind]; auto.
Qed.

Section Alone.
  Context {T : Type}.
  Lemma al_for_each {S} (f : S -> elem_fun S T) c0 cs s m :
    alone (a_for_each f c0 cs s) m = for_each_containers (fun ps sm => call (f (fst sm)) ps (snd sm)) c0 cs (s, m).
  Proof. apply alone_amap. intros ps s' m'. apply acall_run. Qed.
  Lemma al_for_each_index {S} (f : S -> list Z -> elem_fun S T) c s m :
    alone (a_for_each_index f c s) m = for_each_index (fun p is_ sm => call (f (fst sm) (vals is_)) [p] (snd sm)) c (s, m).
  Proof. apply alone_amap_index. intros p is_ s' m'. apply acall_run. Qed.
  Lemma al_transform (f : list T -> T) out c0 cs m : alone (a_transform f out c0 cs) m = units (transform f out c0 cs m).
  Proof.
    unfold a_transform, transform. rewrite <- units_run. apply alone_amap. intros [|o ins] [] m'; [reflexivity|].
    rewrite alone_bind, (alone_amapM _ (load m')) by (intros; apply alone_aload). cbn [snd].
    destruct (mapM (load m') ins); reflexivity.
  Qed.
  Lemma al_copy out in_ (m : mem T) : alone (a_copy out in_) m = units (copy out in_ m).
  Proof. unfold a_copy, copy. rewrite <- units_run. apply alone_amap. intros ps [] m'. shapes ps; bodies. Qed.
  Lemma al_copy_if (f : T -> bool) out in_ m : alone (a_copy_if f out in_) m = units (copy_if f out in_ m).
  Proof.
    unfold a_copy_if, copy_if. rewrite <- units_run. apply alone_amap. intros ps [] m'. shapes ps. rewrite alone_bind, alone_aload. cbn [snd].
    destruct (load m' p0) as [v| | |] eqn:E; cbn [bind fst snd]; try reflexivity. destruct (f v); [|reflexivity].
    rewrite alone_bind, alone_aload, E. cbn [bind fst snd]. bodies.
  Qed.
  Lemma al_fill out (v : T) m : alone (a_fill out v) m = units (fill out v m).
  Proof. unfold a_fill, fill. rewrite <- units_run. apply alone_amap. intros ps [] m'. shapes ps. Qed.
  Lemma al_generate (f : list cint -> T) out m : alone (a_generate f out) m = units (generate f out m).
  Proof. unfold a_generate, generate. rewrite <- units_run. apply alone_amap_index. intros p is_ [] m'. reflexivity. Qed.
  Lemma al_replace_if out (f : T -> bool) v m : alone (a_replace_if out f v) m = units (replace_if out f v m).
  Proof. unfold a_replace_if, replace_if. rewrite <- units_run. apply alone_amap. intros ps [] m'. shapes ps; bodies. Qed.
  Lemma al_reduce {A} in_ (f : A -> T -> A) init m : alone (a_reduce in_ f init) m = reduce in_ f init m.
  Proof. unfold a_reduce, reduce. apply alone_amap. intros ps s m'. shapes ps. Qed.
  Lemma al_transform_reduce {A B} in1 in2 (init : A) (R : A -> B -> A) (f : T -> T -> B) m :
    alone (a_transform_reduce in1 in2 init R f) m = transform_reduce in1 in2 init R f m.
  Proof. unfold a_transform_reduce, transform_reduce. apply alone_amap. intros ps s m'. shapes ps; bodies. Qed.
  Lemma al_inner_product {A B} dbg in1 in2 (init : A) (R : A -> B -> A) (f : T -> T -> B) m :
    alone (a_inner_product dbg in1 in2 init R f) m = inner_product dbg in1 in2 init R f m.
  Proof.
    unfold a_inner_product, inner_product. rewrite alone_stop. destruct (kassert dbg _); cbn [bind]; try reflexivity.
    apply al_transform_reduce.
  Qed.
  Lemma al_exclusive {B} in_ out (init : T) (f1 : T -> B -> T) f2 m :
    alone (a_exclusive_scan in_ out init f1 f2) m = units (transform_exclusive_scan in_ out init f1 f2 m).
  Proof.
    unfold a_exclusive_scan, transform_exclusive_scan. rewrite alone_bind, units_drop. do 2 f_equal. apply alone_amap.
    intros ps s m'. shapes ps; bodies.
  Qed.
  Lemma al_inclusive {B} in_ out (init : T) (f1 : T -> B -> T) f2 m :
    alone (a_inclusive_scan in_ out init f1 f2) m = units (transform_inclusive_scan in_ out init f1 f2 m).
  Proof.
    unfold a_inclusive_scan, transform_inclusive_scan. rewrite alone_bind, units_drop. do 2 f_equal. apply alone_amap.
    intros ps s m'. shapes ps; bodies.
  Qed.
  Lemma al_find_if c (f : T -> bool) m : alone (a_find_if c f) m = find_if c f m.
  Proof.
    unfold a_find_if, find_if. rewrite alone_bind.
    rewrite <- (alone_afor_until _ (fun is_ pos => p <~ aref c is_ ;; v <~ aload p ;;
       if f v then ret (true, map (fun i => conv I32 (conv U64 i)) is_) else ret (false, pos))).
    - destruct (alone _ m) as [[[b s] m']| | |]; reflexivity.
    - intros is_ s m'. rewrite alone_bind, alone_aref. cbn [snd]. destruct (ref m' c is_); cbn [bind fst snd]; try reflexivity.
      rewrite alone_bind, alone_aload. destruct (load m' a); cbn [bind fst snd]; try reflexivity. destruct (f a0); reflexivity.
  Qed.
  Lemma al_find_first_of (eqb : T -> T -> bool) c vs m : alone (a_find_first_of eqb c vs) m = find_first_of eqb c vs m.
  Proof.
    unfold a_find_first_of, find_first_of. rewrite alone_bind.
    rewrite <- (alone_afor_until _ (fun is_ pos => p <~ aref c is_ ;; e <~ aload p ;;
       b <~ a_reduce vs (fun a x => a || eqb x e) false ;;
       if b then ret (true, map (fun i => conv I32 (conv U64 i)) is_) else ret (false, pos))).
    - destruct (alone _ m) as [[[b s] m']| | |]; reflexivity.
    - intros is_ s m'. rewrite alone_bind, alone_aref. cbn [snd]. destruct (ref m' c is_); cbn [bind fst snd]; try reflexivity.
      rewrite alone_bind, alone_aload. destruct (load m' a) as [e| | |]; cbn [bind fst snd]; try reflexivity.
      rewrite alone_bind, al_reduce. unfold any_of.
      destruct (reduce vs (fun a x => a || eqb x e) false m') as [[b m2]| | |]; cbn [bind fst snd]; try reflexivity. destruct b; reflexivity.
  Qed.
  Lemma al_find_last_if st c (f : T -> bool) m : alone (a_find_last_if st c f) m = find_last_if st c f m.
  Proof.
    unfold a_find_last_if, find_last_if. rewrite alone_stop. destruct (reverse st c); cbn [bind]; try reflexivity.
    rewrite alone_bind, al_find_if. destruct (find_if a f m) as [[[pos|] m']| | |]; cbn [bind fst snd]; try reflexivity.
    rewrite alone_stop. destruct (mapM _ _); reflexivity.
  Qed.
  Definition beside {A} (o : outcome A) (m : mem T) : outcome (A * mem T) := a <- o ;; Ok (a, m).
  Lemma al_bisect dbg (cond : T -> bool) c m fuel : forall count first it,
    alone (abisect dbg cond c fuel count first it) m = beside (bisect dbg cond c m fuel count first it) m.
  Proof.
    induction fuel as [|fuel IH]; intros count first it; cbn [abisect bisect]; destruct (clt (int 0) count); try reflexivity.
    rewrite alone_stop. destruct (cdiv count (int 2)) as [step| | |]; cbn [bind]; try reflexivity.
    rewrite alone_stop. destruct (cadd first step) as [it'| | |]; cbn [bind]; try reflexivity.
    rewrite alone_stop. destruct (coordinates dbg it' (c_shape c)) as [pos| | |]; cbn [bind]; try reflexivity.
    rewrite alone_bind, alone_aget. destruct (get m c pos) as [e| | |]; cbn [bind fst snd]; try reflexivity.
    destruct (cond e); [|apply IH].
    rewrite alone_stop. destruct (cincr it'); cbn [bind]; try reflexivity.
    rewrite alone_stop. destruct (cadd step (int 1)) as [s1| | |]; cbn [bind]; try reflexivity.
    rewrite alone_stop. destruct (csub count s1); cbn [bind]; try reflexivity. apply IH.
  Qed.
  Lemma al_lower dbg func c (v : T) m : alone (a_lower_bound dbg func c v) m = beside (lower_bound dbg func c v m) m.
  Proof.
    unfold a_lower_bound, lower_bound. rewrite alone_stop. destruct (c_numel c) as [n| | |]; cbn [bind]; try reflexivity.
    destruct (ceqb n (int 0)); [reflexivity|]. rewrite alone_bind, al_bisect.
    destruct (bisect _ _ c m _ n _ _); reflexivity.
  Qed.
  Lemma al_upper dbg func c (v : T) m : alone (a_upper_bound dbg func c v) m = beside (upper_bound dbg func c v m) m.
  Proof.
    unfold a_upper_bound, upper_bound. rewrite alone_stop. destruct (c_numel c) as [n| | |]; cbn [bind]; try reflexivity.
    rewrite alone_bind, al_bisect. destruct (bisect _ _ c m _ n _ _); reflexivity.
  Qed.
  Lemma al_search dbg func c (v : T) m : alone (a_binary_search dbg func c v) m = beside (binary_search dbg func c v m) m.
  Proof.
    unfold a_binary_search, binary_search. rewrite alone_bind, al_lower.
    destruct (lower_bound dbg func c v m) as [[pos|]| | |]; cbn [bind beside fst snd]; try reflexivity.
    rewrite alone_bind, alone_aget. destruct (get m c pos); reflexivity.
  Qed.
End Alone.
Lemma al_iota {et} out v m : alone (@a_iota et out v) m = units (@iota et out v m).
Proof.
  unfold a_iota, iota. rewrite alone_bind, units_drop. do 2 f_equal. apply alone_amap. intros ps s m'. shapes ps; bodies.
Qed.
Lemma al_iota_step {et} out v w m : alone (@a_iota_step et out v w) m = units (@iota_step et out v w m).
Proof.
  unfold a_iota_step, iota_step. rewrite alone_bind, units_drop. do 2 f_equal. apply alone_amap. intros ps s m'. shapes ps; bodies.
Qed.
