(* Finding programs: WhereIs, SCons/Util/__init__.py 768-799 (POSIX); Environment.WhereIs and Detect, SCons/Environment.py 2354-2400 and
   1909-1920.
   Simplifications: 8-bit characters; names are already expanded (self.subst, the subject of C12); reject is a list of texts; stat does not
   fail for what isfile has found; PATHEXT is ignored, as it is on POSIX. posixpath.join, normpath and str.split are those of NameModel and
   PdModel. The file system: what is at an absolute path, given by its names, the last first. *)
From Coq Require Import Ascii String List Bool Arith.
From Verif Require Import SubstModel.
From Verif Require NameModel PdModel.
Import ListNotations.
Open Scope list_scope.

Definition path := list str.
(* files with the owner's execute bit and without; links to absolute paths *)
Inductive entry := Dir | File (xusr : bool) | Link (to : path).
Definition fsys := path -> option entry.
Definition is_dir (fs : fsys) (p : path) : bool := match p with [] => true | _ => match fs p with Some Dir => true | _ => false end end.
Definition dot : str := ["."%char].
Definition dotdot : str := ["."%char; "."%char].
Definition slash : ascii := "/"%char.
(* the kernel: following the components of a path; a link is followed once *)
Fixpoint walk (fs : fsys) (cur : path) (l : list str) : option path :=
  match l with
  | [] => Some cur
  | c :: r =>
      if is_dir fs cur then
        if str_eqb c [] || str_eqb c dot then walk fs cur r
        else if str_eqb c dotdot then walk fs (tl cur) r
        else match fs (c :: cur) with
             | None => None
             | Some (Link t) => walk fs t r
             | Some _ => walk fs (c :: cur) r
             end
      else None
  end.
Definition absolute (s : str) : bool := match s with c :: _ => Ascii.eqb c slash | [] => false end.
Definition base (cwd : path) (s : str) : path := if absolute s then [] else cwd.
Definition resolve (fs : fsys) (cwd : path) (s : str) : option path :=
  match s with [] => None | _ => walk fs (base cwd s) (NameModel.split_on slash s) end.
(* os.path.isfile and stat.S_IXUSR & mode *)
Definition executable (fs : fsys) (cwd : path) (f : str) : bool :=
  match resolve fs cwd f with Some p => match fs p with Some (File x) => x | _ => false end | None => false end.

(* Util/__init__.py 782-799 *)
Fixpoint search (fs : fsys) (cwd : path) (file : str) (reject : list str) (dirs : list str) : option str :=
  match dirs with
  | [] => None
  | p :: r => let f := NameModel.path_join p file in
              if executable fs cwd f && negb (existsb (str_eqb f) reject) then Some (NameModel.normpath f)
              else search fs cwd file reject r
  end.
(* a search path: a text or a list *)
Inductive pathvalue := PText (s : str) | PList (l : list str).
Definition dirs_of (p : pathvalue) : list str := match p with PText s => NameModel.split_on ":"%char s | PList l => l end.
(* 771-777; [os_path]: os.environ['PATH'] *)
Definition whereis (fs : fsys) (cwd : path) (os_path : option str) (file : str) (p : option pathvalue) (reject : list str) : option str :=
  match (match p with Some p => Some p | None => match os_path with Some s => Some (PText s) | None => None end end) with
  | Some p => search fs cwd file reject (dirs_of p)
  | None => None
  end.
Inductive result := Found (s : str) | NotFound | IndexError.
(* Environment.py 2388-2400; [env_path]: self['ENV']['PATH'] *)
Definition env_whereis (fs : fsys) (cwd : path) (os_path : option str) (env_path p : option pathvalue) (prog : str) (reject : list str) : result :=
  match prog with
  | [] => NotFound
  | _ => match PdModel.words [] prog with                        (* CLVar(...)[0] *)
         | [] => IndexError
         | w :: _ => match whereis fs cwd os_path w (match p with Some p => Some p | None => env_path end) reject with
                     | Some s => Found s
                     | None => NotFound
                     end
         end
  end.
(* Environment.py 1915-1920 *)
Fixpoint detect (fs : fsys) (cwd : path) (os_path : option str) (env_path : option pathvalue) (progs : list str) : result :=
  match progs with
  | [] => NotFound
  | g :: r => match env_whereis fs cwd os_path env_path None g [] with
              | Found s => match s with [] => detect fs cwd os_path env_path r | _ => Found g end
              | NotFound => detect fs cwd os_path env_path r
              | IndexError => IndexError
              end
  end.
