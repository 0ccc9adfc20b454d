(** Which function template a call of an algorithm selects: overload resolution on the overload sets of
    include/kwk/algorithm/algos.

    An argument is reduced to what matters for it: what kind of object it is, whether the expression is an lvalue,
    whether it is const. All parameters of the algorithms are of one of the forms T, T&, T const&, T&& where T is a
    template parameter of its own (or auto), except shape<S...> const&. Not modelled: functions of the same names found
    by argument-dependent lookup in other namespaces (those of std take two iterators of one type first), and whether
    the body of the overload compiles once it has been selected, apart from the algorithms it calls and the member
    functions of its context. *)
From Coq Require Import List Bool PeanoNat.
From Verif Require Import Outcome.
Import ListNotations.

(** Kinds of arguments; [Context true] is kwk::cpu, [Context false] another context. *)
Inductive what := Context (is_cpu : bool) | Callable | Container | Value | Shape.
Record arg := A { a_what : what; a_lvalue : bool; a_const : bool }.
(** inline constexpr cpu_context cpu, include/kwk/context/cpu/context.hpp 39: a const lvalue. *)
Definition cpu : arg := A (Context true) true true.

Inductive form := ByValue | LRef | CRef | Fwd.                (* T, T&, T const&, T&& *)
Inductive role := RContext | RCallable | RIn | ROut | RValue | RShape.
(** A parameter: its form, and what the function uses it for. *)
Record param := P { p_form : form; p_role : role }.

(** The constraint of a parameter: concepts::container on inputs and outputs (concepts/container.hpp 54-64), the type
    shape<S...> on shapes, none on contexts, callables and values. *)
Definition accepts (r : role) (w : what) : bool :=
  match r, w with
  | RIn, Container | ROut, Container | RShape, Shape => true
  | RIn, _ | ROut, _ | RShape, _ => false
  | _, _ => true
  end.

(** Deduction and binding: T& takes lvalues, and const rvalues (T is then const); the other forms take everything. *)
Definition binds (f : form) (a : arg) : bool :=
  match f with LRef => a_lvalue a || a_const a | _ => true end.
Definition viable_param (p : param) (a : arg) : bool := accepts (p_role p) (a_what a) && binds (p_form p) a.

Inductive fn :=
  | for_each | for_each_index | transform | copy | copy_if | fill | generate | iota | replace_if | replace
  | reduce | all_of | any_of | none_of | count | count_if | transform_reduce | inner_product
  | transform_exclusive_scan | exclusive_scan | transform_inclusive_scan | inclusive_scan
  | find_if | find | find_if_not | find_first_of | find_last_if | find_last | find_last_if_not
  | lower_bound | upper_bound | binary_search.

(** Arguments of the calls made by a function: one of its parameters by name (an lvalue), KWK_FWD of a parameter or of
    the pack, kwk::cpu, or a temporary. *)
Inductive source := Named (i : nat) | Forward (i : nat) | ForwardPack | Cpu | Fresh (w : what).

(** An overload: its parameters, its trailing pack, whether the body calls ctx.map or ctx.map_index on the first
    parameter, and the calls of other algorithms it makes. *)
Record overload := O { o_params : list param; o_pack : option param; o_maps : bool; o_calls : list (fn * list source) }.

Definition ctx := P LRef RContext.
Definition func := P ByValue RCallable.
Definition ffunc := P Fwd RCallable.
Definition inp := P CRef RIn.
Definition fin := P Fwd RIn.
Definition out := P LRef ROut.
Definition val := P ByValue RValue.
Definition shp := P CRef RShape.

(** Overloads, in the order of the headers. In for_each the containers are taken by T&&, for reading or writing. *)
Definition overloads (n : fn) : list overload :=
  match n with
  | for_each => [                                                                    (* for_each.hpp 24-85 *)
      O [ctx; ffunc; shp] None true [];
      O [ffunc; shp] None false [(for_each, [Cpu; Forward 0; Named 1])];
      O [ctx; ffunc; fin] (Some fin) true [];
      O [ffunc; fin] (Some fin) false [(for_each, [Cpu; Forward 0; Forward 1; ForwardPack])]]
  | for_each_index => [                                                              (* for_each.hpp 104-118 *)
      O [ctx; ffunc; fin] None false [(for_each, [Named 0; Fresh Callable; Fresh Shape])];
      O [func; fin] None false [(for_each_index, [Cpu; Named 0; Named 1])]]
  | transform => [                                                                   (* transform.hpp 16-32 *)
      O [ctx; ffunc; out; inp] (Some inp) true [];
      O [ffunc; out; fin] (Some fin) false [(transform, [Cpu; Forward 0; Named 1; Forward 2; ForwardPack])]]
  | copy => [                                                                        (* copy.hpp 21-31 *)
      O [ctx; out; inp] None false [(transform, [Named 0; Fresh Callable; Named 1; Named 2])];
      O [out; inp] None false [(copy, [Cpu; Named 0; Named 1])]]
  | copy_if => [                                                                     (* copy.hpp 34-45 *)
      O [ctx; func; out; inp] None true [];
      O [func; out; inp] None false [(copy_if, [Cpu; Named 0; Named 1; Named 2])]]
  | fill => [                                                                        (* generator.hpp 19-29 *)
      O [ctx; out; val] None true [];
      O [out; val] None false [(fill, [Cpu; Named 0; Named 1])]]
  | generate => [                                                                    (* generator.hpp 32-43 *)
      O [ctx; func; out] None true [];
      O [func; out] None false [(generate, [Cpu; Named 0; Named 1])]]
  | iota => [                                                                        (* generator.hpp 46-87 *)
      O [ctx; out; val] None true [];
      O [out; val] None false [(iota, [Cpu; Named 0; Named 1])];
      O [ctx; out] None false [(iota, [Named 0; Named 1; Fresh Value])];
      O [out] None false [(iota, [Cpu; Named 0])];
      O [ctx; out; val; val] None true [];
      O [out; val; val] None false [(iota, [Cpu; Named 0; Named 1; Named 2])]]
  | replace_if => [                                                                  (* replace.hpp 16-26 *)
      O [ctx; out; func; val] None true [];
      O [out; func; val] None false [(replace_if, [Cpu; Named 0; Named 1; Named 2])]]
  | replace => [                                                                     (* replace.hpp 28-38 *)
      O [ctx; out; val; val] None false [(replace_if, [Named 0; Named 1; Fresh Callable; Named 3])];
      O [out; val; val] None false [(replace, [Cpu; Named 0; Named 1; Named 2])]]
  | reduce => [                                                                      (* reduce.hpp 29-66 *)
      O [ctx; inp; func; val] None true [];
      O [inp; func; val] None false [(reduce, [Cpu; Named 0; Named 1; Named 2])];
      O [ctx; inp; func] None false [(reduce, [Named 0; Named 1; Named 2; Fresh Value])];
      O [inp; func] None false [(reduce, [Cpu; Named 0; Named 1])];
      O [ctx; inp] None false [(reduce, [Named 0; Named 1; Fresh Callable])];
      O [inp] None false [(reduce, [Cpu; Named 0])]]
  | all_of => [                                                                      (* predicates.hpp 27-37 *)
      O [ctx; inp; func] None false [(reduce, [Named 0; Named 1; Fresh Callable; Fresh Value])];
      O [inp; func] None false [(all_of, [Cpu; Named 0; Named 1])]]
  | any_of => [                                                                      (* predicates.hpp 39-49 *)
      O [ctx; inp; func] None false [(reduce, [Named 0; Named 1; Fresh Callable; Fresh Value])];
      O [inp; func] None false [(any_of, [Cpu; Named 0; Named 1])]]
  | none_of => [                                                                     (* predicates.hpp 51-61 *)
      O [ctx; inp; func] None false [(any_of, [Named 0; Named 1; Named 2])];
      O [inp; func] None false [(none_of, [Cpu; Named 0; Named 1])]]
  | count => [                                                                       (* predicates.hpp 63-73 *)
      O [ctx; inp; val] None false [(reduce, [Named 0; Named 1; Fresh Callable; Fresh Value])];
      O [inp; val] None false [(count, [Cpu; Named 0; Named 1])]]
  | count_if => [                                                                    (* predicates.hpp 75-85 *)
      O [ctx; inp; func] None false [(reduce, [Named 0; Named 1; Fresh Callable; Fresh Value])];
      O [inp; func] None false [(count_if, [Cpu; Named 0; Named 1])]]
  | transform_reduce => [                                                            (* numeric.hpp 28-89 *)
      O [ctx; inp; inp; val; func; func] None true [];
      O [inp; inp; val; func; func] None false [(transform_reduce, [Cpu; Named 0; Named 1; Named 2; Named 3; Named 4])];
      O [ctx; inp; inp; val; func] None false
        [(transform_reduce, [Named 0; Named 1; Named 2; Named 3; Fresh Callable; Named 4])];
      O [inp; inp; val; func] None false [(transform_reduce, [Cpu; Named 0; Named 1; Named 2; Named 3])];
      O [ctx; inp; inp; val] None false [(transform_reduce, [Named 0; Named 1; Named 2; Named 3; Fresh Callable])];
      O [inp; inp; val] None false [(transform_reduce, [Cpu; Named 0; Named 1; Named 2])];
      O [ctx; inp; inp] None false [(transform_reduce, [Named 0; Named 1; Named 2; Fresh Value])];
      O [inp; inp] None false [(transform_reduce, [Cpu; Named 0; Named 1])]]
  | inner_product => [                                                               (* numeric.hpp 91-140 *)
      O [ctx; inp; inp; val; func; func] None true [];
      O [inp; inp; val; func; func] None false [(inner_product, [Cpu; Named 0; Named 1; Named 2; Named 3; Named 4])];
      O [ctx; inp; inp; val] None false
        [(inner_product, [Named 0; Named 1; Named 2; Named 3; Fresh Callable; Fresh Callable])];
      O [inp; inp; val] None false [(inner_product, [Cpu; Named 0; Named 1; Named 2])];
      O [ctx; inp; inp] None false [(inner_product, [Named 0; Named 1; Named 2; Fresh Value])];
      O [inp; inp] None false [(inner_product, [Cpu; Named 0; Named 1])]]
  | transform_exclusive_scan => [                                                    (* numeric.hpp 142-153 *)
      O [ctx; inp; out; val; func; func] None true [];
      O [inp; out; val; func; func] None false
        [(transform_exclusive_scan, [Cpu; Named 0; Named 1; Named 2; Named 3; Named 4])]]
  | exclusive_scan => [                                                              (* numeric.hpp 155-177 *)
      O [ctx; inp; out; val; func] None false
        [(transform_exclusive_scan, [Named 0; Named 1; Named 2; Named 3; Named 4; Fresh Callable])];
      O [inp; out; val; func] None false [(exclusive_scan, [Cpu; Named 0; Named 1; Named 2; Named 3])];
      O [ctx; inp; out; val] None false [(exclusive_scan, [Named 0; Named 1; Named 2; Named 3; Fresh Callable])];
      O [inp; out; val] None false [(exclusive_scan, [Cpu; Named 0; Named 1; Named 2])]]
  | transform_inclusive_scan => [                                                    (* numeric.hpp 180-192 *)
      O [ctx; inp; out; val; func; func] None true [];
      O [inp; out; val; func; func] None false
        [(transform_inclusive_scan, [Cpu; Named 0; Named 1; Named 2; Named 3; Named 4])]]
  | inclusive_scan => [                                                              (* numeric.hpp 194-216 *)
      O [ctx; inp; out; val; func] None false
        [(transform_inclusive_scan, [Named 0; Named 1; Named 2; Named 3; Named 4; Fresh Callable])];
      O [inp; out; val; func] None false [(inclusive_scan, [Cpu; Named 0; Named 1; Named 2; Named 3])];
      O [ctx; inp; out; val] None false [(inclusive_scan, [Named 0; Named 1; Named 2; Named 3; Fresh Callable])];
      O [inp; out; val] None false [(inclusive_scan, [Cpu; Named 0; Named 1; Named 2])]]
  | find_if => [                                                                     (* find.hpp 35-70, context unused *)
      O [ctx; inp; func] None false [];
      O [inp; func] None false [(find_if, [Cpu; Named 0; Named 1])]]
  | find => [                                                                        (* find.hpp 72-84 *)
      O [ctx; inp; val] None false [(find_if, [Named 0; Named 1; Fresh Callable])];
      O [inp; val] None false [(find, [Cpu; Named 0; Named 1])]]
  | find_if_not => [                                                                 (* find.hpp 86-98 *)
      O [ctx; inp; func] None false [(find_if, [Named 0; Named 1; Fresh Callable])];
      O [inp; func] None false [(find_if_not, [Cpu; Named 0; Named 1])]]
  | find_first_of => [                                                               (* find.hpp 100-117 *)
      O [ctx; inp; inp] None false
        [(find_if, [Named 0; Named 1; Fresh Callable]); (any_of, [Named 0; Named 2; Fresh Callable])];
      O [inp; inp] None false [(find_first_of, [Cpu; Named 0; Named 1])]]
  | find_last_if => [                                                                (* find.hpp 121-171 *)
      O [ctx; inp; func] None false [(find_if, [Named 0; Fresh Container; Named 2])];
      O [inp; func] None false [(find_last_if, [Cpu; Named 0; Named 1])]]
  | find_last => [                                                                   (* find.hpp 173-185 *)
      O [ctx; inp; val] None false [(find_last_if, [Named 0; Named 1; Fresh Callable])];
      O [inp; val] None false [(find_last, [Cpu; Named 0; Named 1])]]
  | find_last_if_not => [                                                            (* find.hpp 187-199 *)
      O [ctx; inp; func] None false [(find_last_if, [Named 0; Named 1; Fresh Callable])];
      O [inp; func] None false [(find_last_if_not, [Cpu; Named 0; Named 1])]]
  | lower_bound => [                                                                 (* binary_search.hpp 29-74, context unused *)
      O [ctx; inp; val; func] None false [];
      O [inp; val; func] None false [(lower_bound, [Cpu; Named 0; Named 1; Named 2])];
      O [ctx; inp; val] None false [(lower_bound, [Named 0; Named 1; Named 2; Fresh Callable])];
      O [inp; val] None false [(lower_bound, [Cpu; Named 0; Named 1])]]
  | upper_bound => [                                                                 (* binary_search.hpp 77-120, context unused *)
      O [ctx; inp; val; func] None false [];
      O [inp; val; func] None false [(upper_bound, [Cpu; Named 0; Named 1; Named 2])];
      O [ctx; inp; val] None false [(upper_bound, [Named 0; Named 1; Named 2; Fresh Callable])];
      O [inp; val] None false [(upper_bound, [Cpu; Named 0; Named 1])]]
  | binary_search => [                                                               (* binary_search.hpp 123-155 *)
      O [ctx; inp; val; func] None false [(lower_bound, [Named 0; Named 1; Named 2; Named 3])];
      O [inp; val; func] None false [(binary_search, [Cpu; Named 0; Named 1; Named 2])];
      O [ctx; inp; val] None false [(binary_search, [Named 0; Named 1; Named 2; Fresh Callable])];
      O [inp; val] None false [(binary_search, [Cpu; Named 0; Named 1])]]
  end.

(** The parameters of an overload for [n] arguments: the pack stands for as many parameters as are missing. The
    boolean tells that a parameter comes from the pack. *)
Definition expand (o : overload) (n : nat) : option (list (param * bool)) :=
  let k := length (o_params o) in
  match o_pack o with
  | None => if Nat.eqb k n then Some (map (fun p => (p, false)) (o_params o)) else None
  | Some q => if Nat.leb k n then Some (map (fun p => (p, false)) (o_params o) ++ repeat (q, true) (n - k)) else None
  end.

Fixpoint all2 {X Y} (f : X -> Y -> bool) (xs : list X) (ys : list Y) : bool :=
  match xs, ys with
  | [], [] => true
  | x :: xs, y :: ys => f x y && all2 f xs ys
  | _, _ => false
  end.

(** [over.match.viable]. *)
Definition viable (o : overload) (args : list arg) : bool :=
  match expand o (length args) with
  | Some ps => all2 (fun p a => viable_param (fst p) a) ps args
  | None => false
  end.

(** [over.ics.rank]: all conversions are identities; an rvalue binds better to T&& than to an lvalue reference, and a
    non-const lvalue binds better to a reference to non-const. A parameter by value is neither better nor worse. *)
Definition lvalue_ref (f : form) : bool := match f with LRef | CRef => true | _ => false end.
Definition better_form (f g : form) (a : arg) : bool :=
  match f, g with
  | ByValue, _ | _, ByValue => false
  | _, _ => if a_lvalue a then negb (a_const a) && match f, g with CRef, _ => false | _, CRef => true | _, _ => false end
            else match f with Fwd => lvalue_ref g | _ => false end
  end.

(** [temp.deduct.partial]: the type [x] (from a pack if [snd x]) is at least as specialised as [y]: [y] can be deduced
    from it and it does not lose the tie-breakers 9.1 (lvalue reference against T&&) and 9.2 (const). *)
Definition deduces (x y : param * bool) : bool :=
  (snd y || negb (snd x)) && match p_role (fst y) with RShape => match p_role (fst x) with RShape => true | _ => false end | _ => true end.
Definition is_ref (f : form) : bool := match f with ByValue => false | _ => true end.
Definition at_least (x y : param * bool) : bool :=
  let f := p_form (fst x) in let g := p_form (fst y) in
  deduces x y &&
  negb (deduces y x && is_ref f && is_ref g &&
        ((lvalue_ref g && negb (lvalue_ref f)) || match g, f with CRef, LRef | CRef, Fwd => true | _, _ => false end)).
Definition more_specialised (xs ys : list (param * bool)) : bool := all2 at_least xs ys && negb (all2 at_least ys xs).

Fixpoint any3 {X Y Z} (f : X -> Y -> Z -> bool) (xs : list X) (ys : list Y) (zs : list Z) : bool :=
  match xs, ys, zs with
  | x :: xs, y :: ys, z :: zs => f x y z || any3 f xs ys zs
  | _, _, _ => false
  end.

(** [over.match.best]: [o] is better than [o'] for the arguments. *)
Definition better (o o' : overload) (args : list arg) : bool :=
  match expand o (length args), expand o' (length args) with
  | Some xs, Some ys =>
      let b := fun x y a => better_form (p_form (fst x)) (p_form (fst y)) a in
      negb (any3 (fun y x a => b y x a) ys xs args) && (any3 b xs ys args || more_specialised xs ys)
  | _, _ => false
  end.

(** The best viable function, by its index; nothing if none is viable or the call is ambiguous. *)
Definition resolve (os : list overload) (args : list arg) : option nat :=
  let vs := filter (fun io => viable (snd io) args) (combine (seq 0 (length os)) os) in
  match filter (fun io => forallb (fun jo => Nat.eqb (fst io) (fst jo) || better (snd io) (snd jo) args) vs) vs with
  | [io] => Some (fst io)
  | _ => None
  end.

(** A parameter used by its name: an lvalue, const if the parameter is a reference to const or bound to a const object
    (a parameter by value is a new, non-const object). *)
Definition named (p : param) (a : arg) : arg :=
  A (a_what a) true match p_form p with ByValue => false | CRef => true | _ => a_const a end.
(** KWK_FWD(p), include/kwk/detail/abi.hpp 11: static_cast<decltype(p)&&>(p). *)
Definition forwarded (p : param) (a : arg) : arg :=
  match p_form p with ByValue => A (a_what a) false false | LRef | CRef => named p a | Fwd => a end.

Definition argument (o : overload) (ps : list (param * bool)) (args : list arg) (s : source) : list arg :=
  let at_ (f : param -> arg -> arg) i := match nth_error ps i, nth_error args i with
                                         | Some p, Some a => [f (fst p) a]
                                         | _, _ => []
                                         end in
  match s with
  | Named i => at_ named i
  | Forward i => at_ forwarded i
  | ForwardPack => let k := length (o_params o) in
      map (fun pa => forwarded (fst (fst pa)) (snd pa)) (combine (skipn k ps) (skipn k args))
  | Cpu => [cpu]
  | Fresh w => [A w false false]
  end.

(** The objects handed over by an argument of a call; [ids]: the objects the parameters stand for. *)
Definition objects (o : overload) (ids : list (option nat)) (s : source) : list (option nat) :=
  match s with
  | Named i | Forward i => match nth_error ids i with Some x => [x] | None => [] end
  | ForwardPack => skipn (length (o_params o)) ids
  | Cpu | Fresh _ => [None]
  end.

(** An overload entered: the function, the index of the overload, the kind of its first argument if it calls map on it,
    and its arguments: [Some k] is the object given as argument number [k] of the call of the user, [None] another. *)
Definition step : Type := fn * nat * option what * list (option nat).
(** A call: the overloads entered, in order. [UB]: does not compile - no overload, several, or map called on something
    that is not a context. *)
Fixpoint call (fuel : nat) (n : fn) (args : list arg) (ids : list (option nat)) {struct fuel} : outcome (list step) :=
  match fuel with
  | 0 => NoFuel
  | S fuel' =>
      match resolve (overloads n) args with
      | None => UB
      | Some i =>
          match nth_error (overloads n) i with
          | None => UB
          | Some o =>
              match expand o (length args) with
              | None => UB
              | Some ps =>
                  u <- (if o_maps o then match args with
                                         | a :: _ => match a_what a with Context _ => Ok (Some (a_what a)) | _ => UB end
                                         | [] => UB
                                         end
                        else Ok None) ;;
                  rest <- (fix calls (cs : list (fn * list source)) : outcome (list step) :=
                             match cs with
                             | [] => Ok []
                             | c :: cs => s <- call fuel' (fst c) (flat_map (argument o ps args) (snd c)) (flat_map (objects o ids) (snd c)) ;;
                                          ss <- calls cs ;; Ok (s ++ ss)
                             end) (o_calls o) ;;
                  Ok ((n, i, u, ids) :: rest)
              end
          end
      end
  end.
(** A call made by the user. *)
Definition run (fuel : nat) (n : fn) (args : list arg) : outcome (list step) :=
  call fuel n args (map Some (seq 0 (length args))).
