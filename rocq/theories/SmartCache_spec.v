(* SmartCache_spec.v -- specifications for smart_cache.py *)
From Verif Require Import Base PyStr Common_model SmartCache_model.

(* ---------------- memory_proxy ---------------- *)
(** [==] is an equivalence *)
Record equivalence {A} (e : A -> A -> bool) : Prop := {
  e_refl : forall x, e x x = true;
  e_sym : forall x y, e x y = true -> e y x = true;
  e_trans : forall x y z, e x y = true -> e y z = true -> e x z = true
}.

(** call number [i] of the history is the first one on a key equal to [k] that
    returned a value, and that value is [v] *)
Definition first_value {K V} (keq : K -> K -> bool) (calls : list K) (outs : list (res V)) (k : K) (v : V) : Prop :=
  exists i ki, nth_error calls i = Some ki /\ keq k ki = true /\ nth_error outs i = Some (Ok v) /\
    forall j kj w, (j < i)%nat -> nth_error calls j = Some kj -> keq k kj = true -> nth_error outs j <> Some (Ok w).

(** [method] also recording the keys it was invoked on *)
Definition traced {S K V} (method : S -> K -> S * res V) (s : S * list K) (k : K) : (S * list K) * res V :=
  let '(s', r) := method (fst s) k in ((s', snd s ++ [k]), r).

(* ---------------- freshness ---------------- *)
(** what is looked at for a dependency: a file (possibly None), or an object
    that is no valid dependency *)
Inductive looked := LFile (f : option path) | LBadType | LNoFile.

Definition module_file (m : pymodule) (g : option path) : Prop :=
  m_file m = FileIs g \/ In (ModuleItem (FileIs g)) (m_dict m).

Inductive looks : list dependency -> list looked -> Prop :=
| lk_nil : looks [] []
| lk_path p r l : looks r l -> looks (DepPath p :: r) (LFile (Some p) :: l)
| lk_other r l : looks r l -> looks (DepOther :: r) (LBadType :: l)
| lk_builtin m r l : m_file m = NoFile -> looks r l -> looks (DepModule m :: r) (LNoFile :: l)
| lk_module m files r l : m_file m <> NoFile -> NoDup files -> (forall g, In g files <-> module_file m g) ->
    looks r l -> looks (DepModule m :: r) (map LFile files ++ l).

Definition fresh (st : fs) (t : Z) (x : looked) : Prop :=
  exists p f, x = LFile (Some p) /\ dget p st = Some f /\ mtime f <= t.
Definition newer (st : fs) (t : Z) (x : looked) : Prop :=
  exists p f, x = LFile (Some p) /\ dget p st = Some f /\ t < mtime f.
Inductive fails (st : fs) : looked -> exn -> Prop :=
| f_type : fails st LBadType TypeError
| f_nofile : fails st LNoFile AttributeError
| f_none : fails st (LFile None) TypeError
| f_missing p : dget p st = None -> fails st (LFile (Some p)) OSError.

(** the outcome of looking at [l] one after the other, stopping at the first
    newer file or failure *)
Inductive verdict (st : fs) (t : Z) : list looked -> res bool -> Prop :=
| v_fresh l : Forall (fresh st t) l -> verdict st t l (Ok false)
| v_newer a x b : Forall (fresh st t) a -> newer st t x -> verdict st t (a ++ x :: b) (Ok true)
| v_fails a x b e : Forall (fresh st t) a -> fails st x e -> verdict st t (a ++ x :: b) (Raise e).

(** the files a dependency list names *)
Definition watched (deps : list dependency) (q : path) : Prop :=
  In (DepPath q) deps \/ exists m, In (DepModule m) deps /\ module_file m (Some q).

(** a path, or a module with a file whose namespace has no module without one *)
Definition valid_dep (d : dependency) : Prop :=
  match d with DepPath _ => True | DepModule m => m_file m <> NoFile /\ ~ module_file m None | DepOther => False end.

(* ---------------- pickling ---------------- *)
Section Pickle.
  Context {O : Type}.
  Variable oeq : O -> O -> bool.
  Variable none : O.
  Variable is_none : O -> bool.
  Variable dump : O -> list Z * option exn.
  Variable load : list Z -> option (O * list Z).
  Variable encode decode : path -> list Z -> list Z.

  (** what is assumed of [==], pickle and the compressed streams: a complete
      pickle is read back to an equal object, the rest of the stream left;
      a truncated or failed pickle raises when read; decompressing gives back
      what was written, and of a truncated file a prefix of it *)
  Record pickle_ok : Prop := {
    ok_eq : equivalence oeq;
    ok_none : is_none none = true;
    ok_is_none : forall x y, oeq x y = true -> is_none x = is_none y;
    ok_load : forall v b, dump v = (b, None) -> forall r, exists v', load (b ++ r) = Some (v', r) /\ oeq v' v = true;
    ok_prefix : forall v b, dump v = (b, None) -> forall q x t, b = q ++ x :: t -> load q = None;
    ok_failed : forall v b e, dump v = (b, Some e) -> forall q t, b = q ++ t -> load q = None;
    ok_decode : forall p b, decode p (encode p b) = b;
    ok_torn : forall p b q t, encode p b = q ++ t -> exists t', b = decode p q ++ t'
  }.
End Pickle.

(* ---------------- histories ---------------- *)
Definition contents (st : fs) (q : path) : option (list Z) := option_map content (dget q st).

(** results equal up to [==] *)
Inductive res_eq {O} (oeq : O -> O -> bool) : res O -> res O -> Prop :=
| re_ok x y : oeq x y = true -> res_eq oeq (Ok x) (Ok y)
| re_raise e : res_eq oeq (Raise e) (Raise e).

(** the wrapped method is a function of its arguments (up to [==]) and of the
    contents of the dependencies, and does not touch the file system *)
Record depends_on {O W} (oeq : O -> O -> bool) (deps : list dependency)
  (method : W * fs -> O -> O -> (W * fs) * res O)
  (g : O -> O -> (path -> option (list Z)) -> res O) : Prop := {
  d_method : forall w a p, exists x, method w a p = ((x, snd w), g a p (contents (snd w)));
  d_contents : forall a p c c', (forall q, watched deps q -> c q = c' q) -> g a p c = g a p c';
  d_args : forall a a' p p' c, oeq a a' = true -> oeq p p' = true -> res_eq oeq (g a p c) (g a' p' c)
}.

(** nobody else writes the cache file, and every write of a dependency gets a
    modification time later than every earlier proxied call and than the times
    in [T] *)
Fixpoint late_writes {O} (cache_file : path) (deps : list dependency) (T : list Z) (h : list (@event O)) : Prop :=
  match h with
  | [] => True
  | ECall now _ _ :: r => late_writes cache_file deps (now :: T) r
  | ECrash now _ _ _ :: r => late_writes cache_file deps (now :: T) r
  | EWrite p f :: r => p <> cache_file /\ (watched deps p -> Forall (fun t => t < mtime f) T) /\
                       late_writes cache_file deps T r
  | ERemove _ :: r => late_writes cache_file deps T r
  end.
