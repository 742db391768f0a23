(* C73: what copying and installing do not do. *)
From Coq Require Import List Bool Arith.
Import ListNotations.
From Verif Require Import InsModel InsSpec InsProps7.
Open Scope list_scope.

(* after Install of a directory the destination is not the same tree: what was there before stays *)
Definition with_ (l : list (path * entry)) : fs := of_list (base1 ++ l).
Theorem C73_stale_refuted : show [[2; 3]; [2; 8]; [1; 8]] (install 5 (with_ [([2], Dir_ 755); ([2; 8], File_ 1 600)]) [2] [1]) = Some (true, [Some (File_ 33 444); Some (File_ 1 600); None]).
Proof. vm_compute. reflexivity. Qed.
(* a link in the destination is written through: a file elsewhere is changed *)
Theorem C73_through_link_refuted : show [[9]; [2; 3]] (install 5 (with_ [([9], File_ 99 600); ([2], Dir_ 755); ([2; 3], Link_ 109)]) [2] [1]) = Some (true, [Some (File_ 33 444); Some (Link_ 109)]).
Proof. vm_compute. reflexivity. Qed.
(* where the destination has a directory and the source a file, the file is put into the directory, without an error *)
Theorem C73_into_refuted : show [[2; 3]; [2; 3; 3]] (install 5 (with_ [([2], Dir_ 755); ([2; 3], Dir_ 755)]) [2] [1]) = Some (true, [Some (Dir_ 755); Some (File_ 33 444)]).
Proof. vm_compute. reflexivity. Qed.
(* ... and Install of a file gives the directory the mode of the file *)
Theorem C73_directory_mode_refuted : show [[2]; [2; 5]] (install 5 (with_ [([2], Dir_ 755)]) [2] [1; 4; 5]) = Some (true, [Some (Dir_ 300); Some (File_ 55 100)]).
Proof. vm_compute. reflexivity. Qed.
(* the files of a directory that is installed are not made writable, as a single file is *)
Theorem C73_writable_refuted : show [[2; 4; 5]] (install 5 s1 [2] [1]) = Some (true, [Some (File_ 55 100)]) /\ show [[2]] (install 5 s1 [2] [1; 4; 5]) = Some (true, [Some (File_ 55 300)]).
Proof. split; vm_compute; reflexivity. Qed.
(* Copy with symlinks=False of a link to a directory makes links *)
Theorem C73_follow_refuted : show [[2]; [2; 6]] (run 5 (with_ [([1; 4; 6], Link_ 5); ([8], Link_ 101)]) [2] (One [8]) false) = Some (true, [Some (Dir_ 700); None]) /\
  show [[2]; [2; 4; 6]] (run 5 (with_ [([1; 4; 6], Link_ 5); ([8], Link_ 101)]) [2] (One [8]) false) = Some (true, [Some (Dir_ 700); Some (Link_ 5)]) /\
  show [[2]; [2; 4; 6]] (run 5 (with_ [([1; 4; 6], Link_ 5); ([8], Link_ 101)]) [2] (One [1]) false) = Some (true, [Some (Dir_ 700); Some (File_ 55 100)]).
Proof. split; [| split]; vm_compute; reflexivity. Qed.
(* a link that is copied has the same text, and may lead somewhere else or nowhere *)
Theorem C73_link_text_refuted : exists s', run 5 (with_ [([1; 4; 6], Link_ 5)]) [2] (One [1; 4; 6]) true = Some (true, s') /\
  stat goto1 40 s' [1; 4; 6] = Some (File_ 55 100) /\ stat goto1 40 s' [2] = None.
Proof. eexists. split; [vm_compute; reflexivity |]. split; vm_compute; reflexivity. Qed.
(* of two files with the same name in a list the last is kept, without an error *)
Theorem C73_same_name_refuted : show [[2; 5]] (run 5 (with_ [([5], File_ 7 644)]) [2] (Many [[5]; [1; 4; 5]]) true) = Some (true, [Some (File_ 55 100)]).
Proof. vm_compute. reflexivity. Qed.
(* Delete of a link and of something that is reached through it leaves the latter, if the link comes first *)
Theorem C73_delete_order_refuted :
  show [[8]; [1; 3]] (Some (delete_func goto1 40 [[8]; [8; 3]] false (with_ [([8], Link_ 101)]))) = Some (true, [None; Some (File_ 33 444)]) /\
  show [[8]; [1; 3]] (Some (delete_func goto1 40 [[8; 3]; [8]] false (with_ [([8], Link_ 101)]))) = Some (true, [None; None]).
Proof. split; vm_compute; reflexivity. Qed.

Print Assumptions C73_stale_refuted.
Print Assumptions C73_through_link_refuted.
Print Assumptions C73_into_refuted.
Print Assumptions C73_directory_mode_refuted.
Print Assumptions C73_writable_refuted.
Print Assumptions C73_follow_refuted.
Print Assumptions C73_link_text_refuted.
Print Assumptions C73_same_name_refuted.
Print Assumptions C73_delete_order_refuted.
