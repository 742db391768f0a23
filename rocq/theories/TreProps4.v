(* Printed trees: cases; what does not hold. *)
From Coq Require Import NArith Ascii String List Bool Arith Lia.
From Verif Require Import TreModel TreSpec TreProps TreProps2 TreProps3.
Import ListNotations.
Open Scope string_scope.
Open Scope list_scope.
Open Scope nat_scope.

Definition lit (s : string) : str := map N_of_ascii (list_ascii_of_string s).
Definition page (l : list string) : str := flat_map (fun s => lit s ++ [NL]) l.
Definition all : options := {| derived := false; prune := false; status := false; linedraw := false; render := false |}.
Definition pruned : options := {| derived := false; prune := true; status := false; linedraw := false; render := false |}.
Definition drawn : options := {| derived := true; prune := true; status := true; linedraw := true; render := false |}.
Definition includes : options := {| derived := false; prune := true; status := false; linedraw := false; render := true |}.
(* prog: main.o, util.o; both depend on util.h, which is made from util.in *)
Definition nm (n : nat) : string := match n with 0 => "prog" | 1 => "main.o" | 2 => "util.o" | 3 => "main.c" | 4 => "util.h" | 5 => "util.c" | _ => "util.in" end.
Definition g0 : graph nat := {| name := fun n => lit (nm n);
  sources := fun n => match n with 0 => [1; 2] | 1 => [3] | 2 => [5] | 4 => [6] | _ => [] end; depends := fun _ => []; implicit := fun n => match n with 1 | 2 => [4] | _ => [] end;
  has_builder := fun n => match n with 0 | 1 | 2 | 4 => true | _ => false end; tags := fun n => lit (match n with 0 | 1 | 2 | 4 => "[E   B     ]" | _ => "[E         ]" end) |}.
Definition shown (o : options) (r : nat) : option str := match display g0 o 9 r with Some ls => Some (output g0 o (lit "legend") ls) | None => None end.

Theorem C84_case :
  shown all 0 = Some (page ["+-prog"; "  +-main.o"; "  | +-main.c"; "  | +-util.h"; "  |   +-util.in"; "  +-util.o"; "    +-util.c"; "    +-util.h"; "      +-util.in"]) /\
  shown pruned 0 = Some (page ["+-prog"; "  +-main.o"; "  | +-main.c"; "  | +-util.h"; "  |   +-util.in"; "  +-util.o"; "    +-util.c"; "    +-[util.h]"]) /\
  shown drawn 4 = Some (lit "legend[E   B     ]" ++ [UP_RIGHT; HORIZ] ++ lit "util.h" ++ [NL]) /\
  shown drawn 1 = Some (lit "legend[E   B     ]" ++ [UP_RIGHT; HORIZ; HORIZ_DOWN] ++ lit "main.o" ++ [NL] ++ lit "[E   B     ]  " ++ [UP_RIGHT; HORIZ] ++ lit "util.h" ++ [NL]).
Proof. repeat split; vm_compute; reflexivity. Qed.
(* the hypotheses of the theorems *)
Theorem C84_case_hypotheses : (forall n, Clean (name g0 n)) /\ (forall n, length (tags g0 n) = 12 /\ ~ In NL (tags g0 n)) /\
  (forall m n, Reach (children g0 pruned) 0 m -> Reach (children g0 pruned) 0 n -> name g0 m = name g0 n -> m = n) /\
  (forall n c, In c (children g0 all n) -> 10 - c < 10 - n) /\ (forall n c, In n [0; 1; 2; 3; 4; 5; 6] -> In c (children g0 pruned n) -> In c [0; 1; 2; 3; 4; 5; 6]) /\ Reach (children g0 pruned) 0 6.
Proof.
  assert (IN : forall m, Reach (children g0 pruned) 0 m -> m <= 6).
  { intros m R. induction R as [|m c R IH I]; [lia|]. do 7 (destruct m as [|m]; [cbn in I; lia|]). lia. }
  split; [|split; [|split; [|split; [|split]]]].
  - intros n. do 6 (destruct n as [|n]; [split; [vm_compute; intuition discriminate | intros c r E; vm_compute in E; injection E as <- _; repeat split; discriminate]|]).
    split; [vm_compute; intuition discriminate | intros c r E; vm_compute in E; injection E as <- _; repeat split; discriminate].
  - intros n. do 5 (destruct n as [|n]; [split; [reflexivity | vm_compute; intuition discriminate]|]). split; [reflexivity | vm_compute; intuition discriminate].
  - intros m n M N0 E. apply IN in M. apply IN in N0. do 7 (destruct m as [|m]; [do 7 (destruct n as [|n]; [reflexivity || (vm_compute in E; discriminate E)|]); lia|]). lia.
  - intros n c I. do 7 (destruct n as [|n]; [cbn in I; lia|]). contradiction.
  - intros n c I J. cbn [In] in I. repeat (destruct I as [<- | I]; [cbn in J; cbn; lia|]). contradiction.
  - apply (reach_step _ _ 4); [apply (reach_step _ _ 1); [apply (reach_step _ _ 0); [apply reach_root|]|]|]; cbn; tauto.
Qed.
(* --debug=includes: a.h includes b.h, which includes a.h *)
Definition g1 : graph nat := {| name := fun n => lit (match n with 0 => "a.c" | 1 => "a.h" | _ => "b.h" end); sources := fun n => match n with 0 => [1; 2] | 1 => [2] | _ => [1] end;
  depends := fun _ => []; implicit := fun _ => []; has_builder := fun _ => false; tags := fun _ => [] |}.
Theorem C84_case_cycle : option_map (output g1 includes []) (display g1 includes 4 0) = Some (page ["+-a.c"; "  +-a.h"; "  | +-b.h"; "  |   +-[a.h]"; "  +-[b.h]"]) /\ forall fuel, display g1 all fuel 0 = None.
Proof.
  split; [vm_compute; reflexivity|]. intros fuel. apply (proj2 (C84b_ends g1 all eq_refl) (fun _ => True)); [|exact Logic.I].
  intros n _. destruct n as [|[|n]]; [exists 1 | exists 2 | exists 1]; (split; [cbn; tauto | exact Logic.I]).
Qed.
(* an alias and a file of one name, "foo": the file's source foo.c is not shown *)
Definition g2 : graph nat := {| name := fun n => lit (match n with 0 => "all" | 1 => "foo" | 2 => "bar" | 3 => "foo" | _ => "foo.c" end); sources := fun n => match n with 0 => [1; 3] | 1 => [2] | 3 => [4] | _ => [] end;
  depends := fun _ => []; implicit := fun _ => []; has_builder := fun _ => true; tags := fun _ => [] |}.
Theorem C84_same_name_refuted : Reach (children g2 pruned) 0 4 /\ option_map (output g2 pruned []) (display g2 pruned 5 0) = Some (page ["+-all"; "  +-foo"; "  | +-bar"; "  +-[foo]"]).
Proof. split; [|vm_compute; reflexivity]. apply (reach_step _ _ 3); [apply (reach_step _ _ 0); [apply reach_root|]|]; cbn; tauto. Qed.
(* a file called [x] looks like an x that was shown before *)
Definition g3 (last : nat) : graph nat := {| name := fun n => lit (match n with 0 => "all" | 1 => "x" | 2 => "y" | _ => "[x]" end); sources := fun n => match n with 0 => [1; last] | 1 => [2] | _ => [] end;
  depends := fun _ => []; implicit := fun _ => []; has_builder := fun _ => true; tags := fun _ => [] |}.
Theorem C84_brackets_refuted : map (name (g3 1)) (children (g3 1) pruned 0) <> map (name (g3 3)) (children (g3 3) pruned 0) /\
  exists ls1 ls2, display (g3 1) pruned 5 0 = Some ls1 /\ display (g3 3) pruned 5 0 = Some ls2 /\ output (g3 1) pruned [] ls1 = output (g3 3) pruned [] ls2.
Proof. split; [vm_compute; discriminate|]. eexists. eexists. split; [vm_compute; reflexivity|]. split; [vm_compute; reflexivity|]. vm_compute. reflexivity. Qed.
(* derived: what is built is not shown if only something that is not built depends on it *)
Definition g4 : graph nat := {| name := fun n => lit (match n with 0 => "prog" | 1 => "main.c" | _ => "made" end); sources := fun n => match n with 0 => [1] | _ => [] end;
  depends := fun n => match n with 1 => [2] | _ => [] end; implicit := fun _ => []; has_builder := fun n => negb (n =? 1); tags := fun _ => [] |}.
Definition only_derived : options := {| derived := true; prune := false; status := false; linedraw := false; render := false |}.
Theorem C84_derived_refuted : has_builder g4 2 = true /\ Reach (children g4 all) 0 2 /\ option_map (output g4 only_derived []) (display g4 only_derived 5 0) = Some (page ["+-prog"]).
Proof. split; [reflexivity|]. split; [|vm_compute; reflexivity]. apply (reach_step _ _ 1); [apply (reach_step _ _ 0); [apply reach_root|]|]; cbn; tauto. Qed.
(* a file that is a source and is found by the scanner too is shown twice *)
Definition g5 : graph nat := {| name := fun n => lit (match n with 0 => "out" | _ => "in" end); sources := fun n => match n with 0 => [1] | _ => [] end;
  depends := fun _ => []; implicit := fun n => match n with 0 => [1] | _ => [] end; has_builder := fun _ => true; tags := fun _ => [] |}.
Theorem C84_twice_refuted : option_map (output g5 pruned []) (display g5 pruned 5 0) = Some (page ["+-out"; "  +-in"; "  +-in"]).
Proof. vm_compute. reflexivity. Qed.
Print Assumptions C84_case_hypotheses.
Print Assumptions C84_case_cycle.
