(* Where a run starts: a case that meets the hypotheses, and the cases the theorems leave out. *)
From Coq Require Import Ascii String List Bool Arith Lia.
Import ListNotations.
From Verif Require Import NameModel NameProps2 DstModel DstSpec DstProps.
Open Scope string_scope.
Open Scope list_scope.
Open Scope nat_scope.

Definition same (a b : directory) : bool := if list_eq_dec (list_eq_dec ascii_dec) a b then true else false.
Definition among (files : list (list string)) (d : directory) : bool := existsb (fun f => same (map lit f) d) files.
Definition dir (l : list string) : directory := map lit l.

(* scons -u -C lib in /home/p/src, with /home/p/SConstruct and /home/p/src/sconstruct.py, which is nearer *)
Theorem C89_case : forall reps,
  let isfile := among [["SConstruct"; "p"; "home"]; ["sconstruct.py"; "src"; "p"; "home"]] in
  let cwd := dir ["src"; "p"; "home"] in
  Led cwd [lit "lib"; lit "deep"] = dir ["deep"; "lib"; "src"; "p"; "home"] /\
  (forall n, In n cwd -> good n) /\
  Nearest isfile [] (Led cwd [lit "lib"; lit "deep"]) (dir ["deep"; "lib"]) cwd /\
  main isfile (fun _ => true) cwd [lit "lib"; lit "deep"] true [] [] = Started cwd (Some (lit "lib/deep/.")) [lit "sconstruct.py"] false /\
  main isfile (fun _ => true) cwd [lit "/home"; lit "p"] false reps [] = Started (dir ["p"; "home"]) None [lit "SConstruct"] false /\
  main isfile (fun _ => true) cwd [lit ".."] true reps [lit "My"] = Started cwd (Some (lit "home/p/.")) [lit "My"] false.
Proof.
  intros reps. cbv zeta. assert (Led (dir ["src"; "p"; "home"]) [lit "lib"; lit "deep"] = dir ["deep"; "lib"; "src"; "p"; "home"]) as EL by (vm_compute; reflexivity). rewrite EL. split; [reflexivity|]. split.
  { intros n IN. cbn [dir map In] in IN. repeat (destruct IN as [<- | IN]; [repeat split; try (vm_compute; discriminate); intros X; vm_compute in X; repeat (destruct X as [X | X]; [discriminate X|]); exact X|]). destruct IN. }
  split; [|split; [vm_compute; reflexivity | split; vm_compute; reflexivity]].
  split; [reflexivity|]. split; [exists (lit "sconstruct.py"); split; [right; split; [reflexivity | cbn; tauto] | vm_compute; reflexivity]|].
  intros b t E LT [f [W IF]].
  assert (t = dir ["lib"; "src"; "p"; "home"] \/ t = dir ["deep"; "lib"; "src"; "p"; "home"]) as D.
  { destruct b as [|b1 [|b2 b]]; [right; symmetry; exact E | left; injection E as _ E; symmetry; exact E | exfalso].
    apply (f_equal (@length _)) in E. rewrite app_length in E. cbn [dir map length] in E, LT. lia. }
  destruct W as [[NE _] | [_ W]]; [congruence|]. cbn [map In] in W.
  destruct D as [-> | ->]; repeat (destruct W as [<- | W]; [vm_compute in IF; discriminate IF|]); destruct W.
Qed.

(* "scons: -C typo" only says "Could not change directory", and builds what is in the current directory *)
Theorem C89_typo_refuted :
  let isfile := among [["SConstruct"; "p"]] in let enter := fun d => same d (dir ["p"]) in
  main isfile enter (dir ["p"]) [lit "typo"] false [] [] = Started (dir ["p"]) None [lit "SConstruct"] true /\
  Led (dir ["p"]) [lit "typo"] = dir ["typo"; "p"] /\ ~ HasSConstruct isfile [] (dir ["typo"; "p"]).
Proof.
  cbv zeta. split; [vm_compute; reflexivity|]. split; [vm_compute; reflexivity|]. intros [f [[[N _] | [_ W]] IF]]; [congruence|]. cbn [map In] in W. repeat (destruct W as [<- | W]; [vm_compute in IF; discriminate IF|]). destruct W.
Qed.
(* "scons -u -C /other", with no SConstruct in /other or above, builds the SConstruct of the current directory, with target_top as if it were the root *)
Theorem C89_elsewhere_refuted :
  let isfile := among [["SConstruct"; "p"]] in
  main isfile (fun _ => true) (dir ["p"]) [lit "/other"] true [] [] = Started (dir ["p"]) (Some (lit "other/.")) [lit "SConstruct"] false /\
  Led (dir ["p"]) [lit "/other"] = dir ["other"] /\ Nowhere isfile [] (dir ["other"]).
Proof.
  cbv zeta. split; [vm_compute; reflexivity|]. split; [vm_compute; reflexivity|]. intros b t E [f [W IF]].
  assert (t = dir ["other"] \/ t = []) as D by (destruct b as [|b1 [|b2 b]]; [left; symmetry; exact E | right; injection E as _ E; symmetry; exact E | discriminate E]).
  destruct W as [[N _] | [_ W]]; [congruence|]. cbn [map In] in W. destruct D as [-> | ->]; repeat (destruct W as [<- | W]; [vm_compute in IF; discriminate IF|]); destruct W.
Qed.
(* an SConstruct that is only in a repository is found without -u, and passed over with it *)
Theorem C89_repository_refuted :
  let isfile := among [["SConstruct"; "q"; "repo"]; ["SConstruct"]] in let reps := [lit "/repo/q"] in
  There isfile (dir ["p"]) reps (lit "SConstruct") /\
  main isfile (fun _ => true) (dir ["p"]) [] false reps [] = Started (dir ["p"]) None [lit "SConstruct"] false /\
  main isfile (fun _ => true) (dir ["p"]) [] true reps [] = Started [] (Some (lit "p/.")) [lit "SConstruct"] false.
Proof.
  cbv zeta. split; [|split; vm_compute; reflexivity]. right. split; [intros r E; discriminate E|]. exists (lit "/repo/q"). split; [left; reflexivity | vm_compute; reflexivity].
Qed.
(* -u with a file given by its absolute path does not climb *)
Theorem C89_absolute_file : forall isfile enter cwd dirs reps f r, isfile (walk [] (SLASH :: f)) = true -> Led cwd dirs = cwd ->
  main isfile enter cwd dirs true reps ((SLASH :: f) :: r) = Started cwd (Some (lit ".")) ((SLASH :: f) :: r) false.
Proof.
  intros isfile enter cwd dirs reps f r IF E. unfold main. rewrite script_dir_is, E.
  assert (exists_in isfile cwd ((SLASH :: f) :: r) = true) as X by (unfold exists_in; cbn [existsb]; rewrite (walk_any cwd [] (SLASH :: f)) by reflexivity; rewrite IF; reflexivity).
  destruct cwd as [|n up]; cbn [climb]; rewrite X; (destruct (list_eq_dec (list_eq_dec ascii_dec) _ _) as [_ | N]; [reflexivity | congruence]).
Qed.
Print Assumptions C89a_directories.
Print Assumptions C89b_directory.
Print Assumptions C89c_climb.
Print Assumptions C89d_none.
Print Assumptions C89_case.
Print Assumptions C89_typo_refuted.
Print Assumptions C89_elsewhere_refuted.
Print Assumptions C89_repository_refuted.
Print Assumptions C89_absolute_file.
Print Assumptions C89e_fallback.
