(* C75: a concrete case, and what is not so *)
From Coq Require Import List Bool Arith Lia.
From Verif Require Import PrepModel PrepSpec PrepProps PrepProps2.
Import ListNotations.

(* names: 1 src, 2 f.c, 3 out, 4 sub, 5 a.o, 6 a.map, 7 b.log, 8 f.h *)
Definition table := list (list nat * entry).
Definition of_table (t : table) : fsys := fun p => match find (fun kv => peq (fst kv) p) t with Some kv => Some (snd kv) | None => None end.
Definition src : table := [([], EDir); ([1], EDir); ([2; 1], EFile 20); ([8; 1], EFile 80)].
(* out exists with an old a.map; out/sub does not; b.log is precious (a side effect) and exists *)
Definition disk1 : fsys := of_table (src ++ [([3], EDir); ([6; 3], EFile 60); ([7; 3], EFile 70)]).
Definition inl (p : list nat) (l : list (list nat)) : bool := existsb (peq p) l.
Definition kinds (p : list nat) : kind := if inl p [[]; [1]; [3]; [4; 3]] then KDir else KFile.
Definition targets1 : list (list nat) := [[5; 4; 3]; [6; 3]].
Definition der (p : list nat) : bool := inl p [[5; 4; 3]; [6; 3]; [7; 3]].
Definition prec (p : list nat) : bool := inl p [[7; 3]].
Definition no (p : list nat) : bool := false.
Definition deps (p : list nat) : list (list nat) := if peq p [6; 3] then [[8; 1]] else [].
Definition none (p : list nat) : list (list nat) := [].
Definition effects (p : list nat) : list (list nat) := if peq p [5; 4; 3] then [[7; 3]] else [].
Definition prep (ne : bool) (d : fsys) := prepare kinds der no prec no deps none effects no ne d [[2; 1]] targets1.

Lemma above_in p q : Above p q -> exists k, k < List.length q /\ p = skipn (S k) q.
Proof.
  intros [a [l ->]]. exists (List.length l). split; [cbn; rewrite app_length; lia|]. cbn [skipn]. rewrite skipn_app, skipn_all, Nat.sub_diag. reflexivity.
Qed.
Lemma case_sane : Sane kinds der prec no disk1 (nodes effects targets1).
Proof.
  split; [|split; [|split]].
  - split; [reflexivity|]. intros a p H.
    assert (Q : In (a :: p) (map fst (src ++ [([3], EDir); ([6; 3], EFile 60); ([7; 3], EFile 70)]))).
    { unfold disk1, of_table in H. destruct (find _ _) as [kv|] eqn:F in H; [|congruence]. apply find_some in F. destruct F as [F1 F2].
      apply peq_eq in F2. rewrite <- F2. apply in_map. exact F1. }
    cbn in Q. repeat (destruct Q as [Q|Q]; [try discriminate Q; injection Q as <- <-; left; vm_compute; reflexivity|]). contradiction.
  - intros n Hn K. vm_compute in Hn. destruct Hn as [<-|[<-|[<-|[]]]]; discriminate.
  - intros a b Ha K Hb Ab. apply above_in in Ab. destruct Ab as [k [Hk Ek]].
    vm_compute in Ha, Hb. destruct Hb as [<-|[<-|[<-|[]]]]; cbn in Hk;
      destruct Ha as [<-|[<-|[<-|[]]]]; do 3 (destruct k as [|k]; [vm_compute in Ek; discriminate Ek|]); lia.
  - intros n Hn R. vm_compute in Hn. destruct Hn as [<-|[<-|[<-|[]]]]; vm_compute; discriminate.
Qed.
Lemma case_clear : Clear kinds der prec no disk1 (nodes effects targets1) /\ NoDangling kinds disk1 (nodes effects targets1).
Proof.
  assert (Q : forall n q, In n (nodes effects targets1) -> Above q n -> disk1 q = None \/ disk1 q = Some EDir).
  { intros n q Hn Ab. apply above_in in Ab. destruct Ab as [k [Hk ->]]. vm_compute in Hn. destruct Hn as [<-|[<-|[<-|[]]]]; cbn in Hk;
      do 3 (destruct k as [|k]; [vm_compute; first [left; reflexivity | right; reflexivity]|]); lia. }
  split; [split|].
  - intros n Hn R. vm_compute in Hn. destruct Hn as [<-|[<-|[<-|[]]]]; vm_compute; discriminate.
  - intros n q Hn _ Ab. destruct (Q n q Hn Ab) as [E|E]; [left | right; left]; exact E.
  - intros t p Ht _ Ab. destruct (Q t p Ht Ab) as [E|E]; rewrite E; discriminate.
Qed.
Theorem C75_case :
  Sane kinds der prec no disk1 (nodes effects targets1) /\ Clear kinds der prec no disk1 (nodes effects targets1) /\ NoDangling kinds disk1 (nodes effects targets1)
  /\ snd (prep false disk1) = None
  /\ map (fst (prep false disk1)) [[4; 3]; [5; 4; 3]; [6; 3]; [7; 3]; [2; 1]] = [Some EDir; None; None; Some (EFile 70); Some (EFile 20)]
  (* without f.c: nothing is touched; without f.h, a dependency of the second target *)
  /\ snd (prep false (set disk1 [2; 1] None)) = Some (MissingSource [2; 1])
  /\ fst (prep false (set disk1 [2; 1] None)) [6; 3] = Some (EFile 60)
  /\ snd (prep false (set disk1 [8; 1] None)) = Some (MissingDepend [8; 1]).
Proof.
  split; [exact case_sane|]. split; [exact (proj1 case_clear)|]. split; [exact (proj2 case_clear)|].
  repeat split; vm_compute; reflexivity.
Qed.

(* "an error leaves the targets as they were": the first of two targets is gone when the dependency of the second is missing *)
Definition deps2 (p : list nat) : list (list nat) := if peq p [5; 4; 3] then [[9; 1]] else [].
Theorem C75_refuted_atomic : exists d ts e t, snd (prepare kinds der no prec no deps2 none none no false d [[2; 1]] ts) = Some e
  /\ In t ts /\ d t <> None /\ fst (prepare kinds der no prec no deps2 none none no false d [[2; 1]] ts) t = None.
Proof.
  exists disk1, [[6; 3]; [5; 4; 3]]. eexists. exists [6; 3]. split; [vm_compute; reflexivity|]. split; [left; reflexivity|]. split; vm_compute; [discriminate | reflexivity].
Qed.
(* "the directory of a target is there": not if there is a dangling link, nor a file, in its place, though no error is given *)
Definition disk_link : fsys := of_table (src ++ [([3], ELink Dangling)]).
Definition disk_file : fsys := of_table (src ++ [([3], EFile 30)]).
Theorem C75_refuted_directory :
  (snd (prepare kinds der no prec no none none none no false disk_link [[2; 1]] [[6; 3]]) = None
   /\ ~ There (fst (prepare kinds der no prec no none none none no false disk_link [[2; 1]] [[6; 3]])) [3])
  /\ (snd (prepare kinds der no prec no none none none no false disk_file [[2; 1]] [[6; 3]]) = None
      /\ fst (prepare kinds der no prec no none none none no false disk_file [[2; 1]] [[6; 3]]) [3] = Some (EFile 30)).
Proof.
  split; (split; [vm_compute; reflexivity|]).
  - intros [e [E N]]. vm_compute in E. injection E as <-. congruence.
  - vm_compute. reflexivity.
Qed.
(* "every target's dependencies are checked": not those of a directory *)
Theorem C75_refuted_directory_target :
  snd (prepare kinds der no prec no (fun p => if peq p [3] then [[9; 1]] else []) none none no false disk1 [] [[3]]) = None
  /\ Missing der no no disk1 [9; 1].
Proof. split; [vm_compute; reflexivity|]. repeat split. intros [e [E N]]. vm_compute in E. discriminate E. Qed.
(* "the sources of an up-to-date target need not exist" *)
Theorem C75_refuted_uptodate : snd (prepare kinds der no prec no none none none (fun _ => true) false disk1 [[9; 1]] [[6; 3]]) = Some (MissingSource [9; 1]).
Proof. vm_compute. reflexivity. Qed.
Print Assumptions C75_case.
Print Assumptions C75_refuted_atomic.
Print Assumptions C75_refuted_directory.
Print Assumptions C75_refuted_directory_target.
Print Assumptions C75_refuted_uptodate.
