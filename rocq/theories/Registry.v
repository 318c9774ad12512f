(** Model of cbus/protocol/application/__init__.py 32-77.  No proofs in this
    file. *)
From Coq Require Import List ZArith Bool.
From Verif Require Import Py Common Sal.
Import ListNotations.
Open Scope Z_scope.

(** The [supported_applications] methods: lighting.py 40-44 and 282-284,
    clock.py 249-251, temperature.py 167-169, enable.py 148-150,
    status_request.py 30 and 34-36.  Sets are lists without duplicates here;
    their iteration order does not matter (proved). *)
Definition supported_applications (a : app_class) : list Z :=
  match a with
  | AppTemperature => [APP_TEMPERATURE]
  | AppLighting => APP_LIGHTING :: filter (fun x => negb (x =? APP_LIGHTING))
                     (map (fun n => APP_LIGHTING_FIRST + Z.of_nat n) (seq 0 48))
  | AppClock => [APP_CLOCK]
  | AppEnable => [APP_ENABLE]
  | AppStatusRequest => [APP_STATUS_REQUEST]
  end.

(** Classes compare by identity, application/__init__.py 65. *)
Definition app_eqb (a b : app_class) : bool :=
  match a, b with
  | AppTemperature, AppTemperature | AppLighting, AppLighting | AppClock, AppClock
  | AppEnable, AppEnable | AppStatusRequest, AppStatusRequest => true
  | _, _ => false
  end.

(** [_APPLICATIONS_DICT]: an association list, the newest binding first.
    application/__init__.py 39. *)
Definition registry := list (Z * app_class).
(** application/__init__.py 42-43. *)
Fixpoint reg_get (k : Z) (r : registry) : option app_class :=
  match r with
  | [] => None
  | (a, c) :: r' => if a =? k then Some c else reg_get k r'
  end.

(** __init__.py 63-71: the loop over the ids of one application class, on a
    copy of the dictionary. *)
Fixpoint register_ids (app : app_class) (ids : list Z) (r : registry) : res registry :=
  match ids with
  | [] => Ok r
  | i :: ids' =>
      match reg_get i r with
      | Some existing => if app_eqb existing app then register_ids app ids' ((i, app) :: r)
                         else Raise ValueError
      | None => register_ids app ids' ((i, app) :: r)
      end
  end.

(** __init__.py 46-73 for a class with the given ids; the new registry, or the
    exception with the registry unchanged (it is updated last). *)
Definition register_with (app : app_class) (ids : list Z) (r : registry) : registry * res unit :=
  if negb (forallb (fun i => (0 <=? i) && (i <=? 0xff)) ids) then (r, Raise ValueError)
  else match register_ids app ids r with
       | Ok r' => (r', Ok tt)
       | Raise e => (r, Raise e)
       end.
(** __init__.py 46-73. *)
Definition register_application (app : app_class) (r : registry) : registry * res unit :=
  register_with app (supported_applications app) r.

(** __init__.py 76-77: the loop at import time, over the classes in some order.
    An exception aborts the import. *)
Fixpoint register_all (apps : list app_class) (r : registry) : registry * res unit :=
  match apps with
  | [] => (r, Ok tt)
  | a :: apps' =>
      match register_application a r with
      | (r', Ok tt) => register_all apps' r'
      | (r', Raise e) => (r', Raise e)
      end
  end.

(** __init__.py 32-38: the classes, in source order (a frozenset: any order). *)
Definition APPLICATIONS : list app_class :=
  [AppStatusRequest; AppClock; AppEnable; AppLighting; AppTemperature].

(** __init__.py 42-43: dictionary lookup. *)
Definition registry_get_application (r : registry) (app_id : Z) : res app_class :=
  match reg_get app_id r with Some a => Ok a | None => Raise KeyError end.
