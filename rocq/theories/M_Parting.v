(** Model of Mesh::set_parting: how a distributed mesh is asked for another partition.  All ranks call it together. *)
From Verif Require Import Prelude M_Array M_Dist M_Migrate M_Ghost.
Local Open Scope Z_scope.

(** src/Omega_h_mesh.hpp:112-113 parting_, where -1 is [None], and nghost_layers_ *)
Record pmesh := PMesh { pm_mesh : dmesh; pm_parting : option parting; pm_layers : Z }.
Definition same_parting (p q : parting) : bool :=
  match p, q with
  | OMEGA_H_ELEM_BASED, OMEGA_H_ELEM_BASED | OMEGA_H_GHOSTED, OMEGA_H_GHOSTED | OMEGA_H_VERT_BASED, OMEGA_H_VERT_BASED => true
  | _, _ => false
  end.

(** src/Omega_h_mesh.cpp:487-525 set_parting(parting_in, nlayers), where [again] is the call of set_parting(OMEGA_H_ELEM_BASED, 0) inside it,
    [size] is comm_->size() and [ask m] answers ask_down(dim, VERT) and ask_up(VERT, dim) on every rank.  Printing is left out. *)
Definition set_parting_step (again : pmesh -> res pmesh) (inv : Z -> list Z -> Z -> res (list Z * list Z)) (ask : dmesh -> res asked) (size : Z) (pm : pmesh) (parting_in : parting) (nlayers : Z) : res pmesh :=
  match pm_parting pm with
  | None => Ok (PMesh (pm_mesh pm) (Some parting_in) nlayers)
  | Some old =>
    if same_parting old parting_in && (pm_layers pm =? nlayers) then Ok pm else
    m <- match parting_in with
      | OMEGA_H_ELEM_BASED =>
          _ <- check (nlayers =? 0) ;;
          if 1 <? size then partition_by_elems inv (pm_mesh pm) else Ok (pm_mesh pm)
      | OMEGA_H_GHOSTED =>
          pm <- (if negb (same_parting old OMEGA_H_GHOSTED) || (nlayers <? pm_layers pm) then again pm else Ok pm) ;;
          if 1 <? size then a <- ask (pm_mesh pm) ;; ghost_mesh inv (pm_mesh pm) a (pm_layers pm) nlayers else Ok (pm_mesh pm)
      | OMEGA_H_VERT_BASED =>
          _ <- check (nlayers =? 1) ;;
          if 1 <? size then a <- ask (pm_mesh pm) ;; partition_by_verts inv (pm_mesh pm) a else Ok (pm_mesh pm)
      end ;;
    Ok (PMesh m (Some parting_in) nlayers)
  end.
(** The call inside makes no further one: src/Omega_h_mesh.cpp:511-513. *)
Definition set_parting (inv : Z -> list Z -> Z -> res (list Z * list Z)) (ask : dmesh -> res asked) (size : Z) (pm : pmesh) (parting_in : parting) (nlayers : Z) : res pmesh :=
  set_parting_step (fun pm => set_parting_step (fun _ => UB) inv ask size pm OMEGA_H_ELEM_BASED 0) inv ask size pm parting_in nlayers.
(** src/Omega_h_mesh.cpp:527-532 set_parting(parting_in) *)
Definition set_parting_default (inv : Z -> list Z -> Z -> res (list Z * list Z)) (ask : dmesh -> res asked) (size : Z) (pm : pmesh) (parting_in : parting) : res pmesh :=
  set_parting inv ask size pm parting_in (match parting_in with OMEGA_H_ELEM_BASED => 0 | _ => 1 end).
