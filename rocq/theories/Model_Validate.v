(** * Model of input validation: validate_input of rose/model/model_part.py and rose/model/global_system.py *)

From Coq Require Import List Bool Arith.
From Verif Require Import Num PyBase.
Import ListNotations.

Section Validate.
  Context {T : Type} `{Num T}.

  (** model_part.py 19-22 and 57-64: attributes that may be [None] *)
  Record material := mkMaterial { m_E : option T; m_nu : option T; m_rho : option T }.
  (** model_part.py 57-64 *)
  Record section := mkSection {
    s_area : option T; s_I : option T; s_shear : option T; s_height : option T; s_neutral : option T }.

  (** model_part.py 95-98: [nodes] and [elements]; only whether they are a list/array and their length matter here
      ([None]: some other object without a length) *)
  Record sizes := mkSizes { z_nodes : option nat; z_elements : option nat }.

  (** kinds of model parts by the [validate_input] they run: base class (sleeper, hinge, boundary conditions), rod,
      beam and rail; a material or section [None] is an attribute that is not of the expected class (model_part.py 151-160, 394-406 and 555-575) *)
  Inductive part :=
  | PBase (z : sizes)
  | PRod (stiffness : option T) (z : sizes)
  | PBeam (m : option material) (s : option section) (z : sizes).

  (** levels of the logging module (track.py 20-30 and model_part.py 28-80) *)
  Definition WARNING : nat := 30.
  (** level of [logging.error], model_part.py 28-80 *)
  Definition ERROR : nat := 40.
  (** level of [logging.critical], global_system.py 76-85 *)
  Definition CRITICAL : nat := 50.

  (** model_part.py 28-76: an attribute that is None is logged *)
  Definition missing {A} (o : option A) (level : nat) : list nat := match o with None => [level] | Some _ => [] end.

  (** model_part.py 24-34, [Material.validate_input]: levels of the messages logged *)
  Definition validate_material (m : material) : list nat :=
    missing (m_E m) ERROR ++ missing (m_nu m) ERROR ++ missing (m_rho m) ERROR.

  (** model_part.py 66-79, [Section.validate_input] *)
  Definition validate_section (s : section) : list nat :=
    missing (s_area s) ERROR ++ missing (s_I s) ERROR ++ missing (s_shear s) ERROR ++
    missing (s_height s) WARNING ++ missing (s_neutral s) WARNING ++
    match s_height s, s_neutral s with
    | Some h, Some n => if nltb h n then [ERROR] else []
    | _, _ => []
    end.

  (** [len(x) == 0] logs an error; [len] of something without a length raises (model_part.py 402-406 and 571-575) *)
  Definition empty_error (o : option nat) : res (list nat) :=
    match o with Some 0%nat => Ok [ERROR] | Some _ => Ok [] | None => Err ErrType end.

  (** model_part.py 151-160, 394-406 and 555-575, [validate_input] of the three kinds *)
  Definition validate_part (p : part) : res (list nat) :=
    match p with
    | PBase z => Ok (missing (z_nodes z) ERROR ++ missing (z_elements z) ERROR)
    | PRod k z =>
        do e <- empty_error (z_elements z) ;
        do n <- empty_error (z_nodes z) ;
        Ok (missing k ERROR ++ e ++ n)
    | PBeam m s z =>
        do e <- empty_error (z_elements z) ;
        do n <- empty_error (z_nodes z) ;
        Ok (match m with Some m => validate_material m | None => [ERROR] end ++
            match s with Some s => validate_section s | None => [ERROR] end ++ e ++ n)
    end.

  (** global_system.py 76-85: the loop over the parts *)
  Fixpoint validate_parts (ps : list part) : res (list nat) :=
    match ps with
    | [] => Ok []
    | p :: r => do a <- validate_part p ; do b <- validate_parts r ; Ok (a ++ b)
    end.

  (** global_system.py 76-85, [GlobalSystem.validate_input].  [cache] lists the levels in [logging.getLogger()._cache]:
      the standard library adds a level when a message of that level is logged and keeps it for the rest of the
      process (as long as no logger level is changed).  The result is the outcome and the cache afterwards; the
      cache when a part raises is left at the old one (the messages logged before it are not followed). *)
  Definition validate_model (cache : list nat) (ps : list part) : res unit * list nat :=
    match validate_parts ps with
    | Err e => (Err e, cache)
    | Ok levels =>
        let cache := cache ++ levels in
        (if existsb (Nat.eqb 40) cache || existsb (Nat.eqb 50) cache then Err ErrNotDefined else Ok tt, cache)
    end.

  (** several models validated one after the other in one process (global_system.py 76-85) *)
  Fixpoint validate_all (cache : list nat) (models : list (list part)) : list (res unit) :=
    match models with
    | [] => []
    | m :: r => let (o, c) := validate_model cache m in o :: validate_all c r
    end.
End Validate.

Arguments material T : clear implicits.
Arguments section T : clear implicits.
Arguments part T : clear implicits.
