(** Programs of the documentation, test/doc, run on the model; the comments there say what they should do. The text they
    write to std::cout is computed in full. *)
From Coq Require Import ZArith String List Bool.
From Verif Require Import Outcome CInt Shape Prefilled Memory Container Literals Source ForEach Algo Ctor Output Label.
Import ListNotations.
Open Scope Z_scope.
Open Scope string_scope.
Open Scope list_scope.

Definition num (z : Z) : karg := KPos (EInt (int z)).
Definition opt (a : string) (z : Z) : karg := KNamed (AName a) (EInt (int z)).
Definition shown (ty : list (option axis_id * content)) (l : list karg) : outcome string :=
  p <- construct_shape true (normalize ty) (int 0) l ;; print_prefilled p.
Definition at_ (a : string) (c : content) : option axis_id * content := (Some (AName a), c).
Definition fix_ (z : Z) : content := CStatic (int z).
Definition u_ : option axis_id * content := (None, CJoker).

(** shape/named_axis.cpp: s1 to s7, the compiler error of line 20 and the assertion of line 32; sizeof(s4) and sizeof(s7). *)
Example named_axis :
  shown [at_ "width" CJoker; at_ "height" CJoker] [opt "height" 8; opt "width" 10] = Ok "[ 10 8 ]" /\
  shown [at_ "width" CJoker; at_ "height" CJoker] [num 10; num 8] = Ok "[ 10 8 ]" /\
  shown [u_; at_ "phase" CJoker; u_] [num 11; opt "phase" 10; num 15] = Ok "[ 11 10 15 ]" /\
  shown [u_; at_ "phase" CJoker; u_] [num 11; num 15; opt "phase" 10] = UB /\
  shown [at_ "depth" (fix_ 66); at_ "width" (fix_ 23)] [] = Ok "[ 66_c 23_c ]" /\
  shown [at_ "width" CJoker; at_ "height" (fix_ 23)] [num 9; KPos EJoker] = Ok "[ 9 23_c ]" /\
  shown [at_ "depth" (fix_ 66); at_ "width" (fix_ 23)] [num 66; num 23] = Ok "[ 66_c 23_c ]" /\
  shown [at_ "depth" (fix_ 66); at_ "width" (fix_ 23)] [num 6; num 32] = Abort /\
  shown [at_ "count" (CType I8)] [opt "count" 100] = Ok "[ 100 ]" /\
  make_storage (normalize [at_ "depth" (fix_ 66); at_ "width" (fix_ 23)]) = [] /\
  make_storage (normalize [at_ "count" (CType I8)]) = [CI I8 0].
Proof. vm_compute. repeat split. Qed.

(** shape/numerical_axis.cpp: "Equivalent to: kwk::shape<_,_,_> s2(1, 3, 5)". *)
Example numerical_axis :
  shown [u_; u_; u_] [num 3; num 5; num 9] = Ok "[ 3 5 9 ]" /\
  shown [u_; u_; u_] [num 3; num 5] = Ok "[ 1 3 5 ]" /\
  construct_shape true (normalize [u_; u_; u_]) (int 0) [num 3; num 5] =
    construct_shape true (normalize [u_; u_; u_]) (int 0) [num 1; num 3; num 5] /\
  shown [(None, fix_ 17); (None, fix_ 31)] [] = Ok "[ 17_c 31_c ]" /\
  shown [(None, fix_ 17); (None, fix_ 31)] [KPos EJoker; KPos EJoker] = Ok "[ 17_c 31_c ]" /\
  shown [(None, fix_ 17); (None, fix_ 31)] [num 17; num 31] = Ok "[ 17_c 31_c ]" /\
  shown [(None, fix_ 17); u_] [KPos EJoker; num 31] = Ok "[ 17_c 31 ]" /\
  shown [(None, CType U8); (None, CType U8)] [num 100; num 100] = Ok "[ 100 100 ]".
Proof. vm_compute. repeat split. Qed.

(** shape/odd_sized.cpp: "x will contains 160 x 2", "y will contains 1 x 1 x 7". shape/compatible.cpp: the first two are
    compatible as the program says; the third, commented out there as incompatible, is accepted by the code (the checks of
    prefilled.hpp 412-418 only reject two different constants) and gives the same shape as the second. A run-time extent
    other than 3 is accepted too and found by the assertion (C16). *)
Definition converted (ty : list (option axis_id * content)) (es : list extent) : outcome string :=
  q <- of_size true es ;; p <- shape_convert true (normalize ty) q ;; print_prefilled p.
Example odd_sized :
  converted [u_; u_] [EInt (int 4); EInt (int 8); EInt (int 5); EInt (int 2)] = Ok "[ 160 2 ]" /\
  converted [u_; u_; u_] [EInt (int 7)] = Ok "[ 1 1 7 ]".
Proof. vm_compute. split; reflexivity. Qed.
Example compatible :
  let ty := [u_; (None, fix_ 3); u_] in
  converted ty [EInt (int 4); EConst (int 3); EInt (int 8)] = Ok "[ 4 3_c 8 ]" /\
  converted ty [EInt (int 4); EConst (int 3); EConst (int 5)] = Ok "[ 4 3_c 5 ]" /\
  converted ty [EInt (int 4); EInt (int 3); EConst (int 5)] = Ok "[ 4 3_c 5 ]" /\
  converted ty [EInt (int 4); EInt (int 2); EConst (int 5)] = Abort /\
  converted ty [EInt (int 4); EConst (int 2); EConst (int 5)] = UB.
Proof. vm_compute. repeat split. Qed.

(** tutorial/tutorial-01.cpp and tutorial-01-label.cpp: a view of 2 x 3 of a std::vector of six numbers, here their texts. *)
Definition data : mem string := [Some (map Some ["1.2"; "3.4"; "5.6"; "7.8"; "9.1"; "11.12"])].
Example tutorial :
  (c <- view_on true (Some (false, [int 2; int 3])) (SRange (Ptr 0 0) 6) ;; print (fun s => s) None data c)
  = Ok ("[ 1.2 3.4 5.6 ]" ++ nl ++ "[ 7.8 9.1 11.12 ]" ++ nl)%string /\
  (c <- view_on true (Some (false, [int 2; int 3])) (SRange (Ptr 0 0) 6) ;; print (fun s => s) (Some "The Original Data") data c)
  = Ok ("The Original Data:" ++ nl ++ "  [ 1.2 3.4 5.6 ]" ++ nl ++ "  [ 7.8 9.1 11.12 ]" ++ nl)%string.
Proof. vm_compute. split; reflexivity. Qed.

(** algorithms/for_each_shape.cpp. *)
Example for_each_shape_doc :
  for_each [int 4; int 3; int 2] (fun is_ l => Ok (l ++ [map cval is_])) [] =
  Ok (flat_map (fun a => flat_map (fun b => map (fun c => [a; b; c]) [0; 1]) [0; 1; 2]) [0; 1; 2; 3]).
Proof. vm_compute. reflexivity. Qed.

(** algorithms/for_each.cpp: the numbers before and after the increment, and their sum. *)
Definition vals_ (m : mem Z) (c : container) : outcome (list Z) :=
  r <- for_each_containers (fun ps lm => match ps with [p] => e <- load (snd lm) p ;; Ok (fst lm ++ [e], snd lm) | _ => UB end) c [] ([], m) ;;
  Ok (fst r).
Example for_each_doc :
  let m := [Some (map Some [3; -4; 2; -8; 15; 267])] : mem Z in
  (c <- view_on true None (SArray (Ptr 0 0) (CArray Elem 6)) ;;
   before <- vals_ m c ;;
   r <- for_each_containers (fun ps qm => match ps with [p] => e <- load (snd qm) p ;; m' <- store (snd qm) p (e + 1) ;; Ok (tt, m') | _ => UB end) c [] (tt, m) ;;
   after <- vals_ (snd r) c ;;
   s <- for_each_containers (fun ps qm => match ps with [p] => e <- load (snd qm) p ;; Ok (fst qm + e, snd qm) | _ => UB end) c [] (0, snd r) ;;
   Ok (before, after, fst s))
  = Ok ([3; -4; 2; -8; 15; 267], [4; -3; 3; -7; 16; 268], 281).
Proof. vm_compute. reflexivity. Qed.

(** algorithms/for_each_index.cpp: n + (1000*i1 + 100*i0). *)
Example for_each_index_doc :
  let m := [Some (map Some [3; 4; 2; 8; 15; 27; 56; 9; 36])] : mem Z in
  (c <- view_on true (Some (false, [int 3; int 3])) (SArray (Ptr 0 0) (CArray Elem 9)) ;;
   r <- for_each_index (fun p is_ qm => match map cval is_ with
                                       | [i1; i0] => e <- load (snd qm) p ;; m' <- store (snd qm) p (e + (1000 * i1 + 100 * i0)) ;; Ok (tt, m')
                                       | _ => UB end) c (tt, m) ;;
   vals_ (snd r) c) = Ok [3; 104; 202; 1008; 1115; 1227; 2056; 2109; 2236].
Proof. vm_compute. reflexivity. Qed.
