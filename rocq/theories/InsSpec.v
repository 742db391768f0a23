(* What a copy of a tree is.  No proofs. *)
From Coq Require Import List Bool Arith.
Import ListNotations.
From Verif Require Import InsModel.
Open Scope list_scope.

Section Spec.
Variable goto : path -> nat -> path.
Variable max_links : nat.
Variable s : fs.

(* what is at src/r of a tree that is copied, links being copied as links or followed; None if src/r is not in the tree *)
Definition look (keep_links : bool) (p : path) : option entry := if keep_links then lstat goto max_links s p else stat goto max_links s p.
Fixpoint view (keep_links : bool) (p r : path) : option entry :=
  match r with
  | [] => look keep_links p
  | n :: r => match look keep_links p with Some (Dir_ _) => view keep_links (p ++ [n]) r | _ => None end
  end.
(* the directory that is copied may itself be reached by a link *)
Definition tree (keep_links : bool) (src r : path) : option entry :=
  match r with
  | [] => stat goto max_links s src
  | n :: r => match stat goto max_links s src with Some (Dir_ _) => view keep_links (src ++ [n]) r | _ => None end
  end.

(* the paths that are looked at when a path is followed *)
Fixpoint trail (links : nat) : path -> path -> list path :=
  fix go (cur todo : path) : list path :=
  cur :: match todo with
         | [] => []
         | n :: r => match ent s cur with
                     | Some (Dir_ _) => (cur ++ [n]) :: match ent s (cur ++ [n]) with
                                                        | Some (Link_ t) => match links with 0 => [] | S l => trail l [] (goto cur t ++ r) end
                                                        | _ => go (cur ++ [n]) r
                                                        end
                     | _ => []
                     end
         end.
(* nothing in the tree src is, or is reached through, something at or below dst *)
Definition apart (src dst : path) : Prop := forall r p, In p (trail max_links [] (src ++ r)) -> under dst p = false.
(* a path without links, all of it directories, but for the last name *)
Definition plain (p : path) : Prop := p <> [] /\ forall a b, p = a ++ b -> b <> [] -> exists m, ent s a = Some (Dir_ m).
Definition no_links_below (dst : path) : Prop := forall r t, ent s (dst ++ r) <> Some (Link_ t).
(* directories list what is in them, once *)
Definition listed : Prop := (forall d n, ent s (d ++ [n]) <> None -> In n (names s d)) /\ (forall d, NoDup (names s d)).
End Spec.

Section Fits.
Variable goto : path -> nat -> path.
Variable max_links : nat.
Variable s : fs.
(* what is at the destination does not stand in the way: a file may replace a file, a directory may (if that is allowed) be there already, and a link needs a free name *)
Definition fits (keep_links exist_ok : bool) (src dst : path) : Prop := forall r,
  match tree goto max_links s keep_links src r with
  | Some (File_ _ _) => forall m, ent s (dst ++ r) <> Some (Dir_ m)
  | Some (Dir_ _) => ent s (dst ++ r) = None \/ (exist_ok = true /\ exists m, ent s (dst ++ r) = Some (Dir_ m))
  | Some (Link_ _) => ent s (dst ++ r) = None
  | None => True
  end.
(* every name that is listed in the tree can be looked at: no link is dangling, if links are followed *)
Definition solid (keep_links : bool) (src : path) : Prop := forall r n l,
  listdir goto max_links s (src ++ r) = Some l -> In n l -> look goto max_links s keep_links ((src ++ r) ++ [n]) <> None.
(* the tree is not deeper than k *)
Definition depth_at_most (keep_links : bool) (src : path) (k : nat) : Prop := forall r, tree goto max_links s keep_links src r <> None -> length r <= k.
End Fits.

(* what is below something is in a directory *)
Definition closed (s : fs) : Prop := forall d n, ent s (d ++ [n]) <> None -> exists m, ent s d = Some (Dir_ m).
