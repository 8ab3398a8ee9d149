(** C31: occupancy insertion counts hits and misses exactly. *)
From Coq Require Import Permutation.
From Verif Require Import Base IndexModel OctreeSpec MapModel BackendModel SysModel SysSpec
  InsertModel InsertSpec OccFacts Samples.
Open Scope Z_scope.

(** C31: after any history, for any ray iterator and any iteration order of the hash map, a cell's
    misses are the sum over all scans and end bundles of the end bundle's amount for each visited
    bundle of the cell, its hits the accumulated point groups of the cell. [weighted] selects the
    weighted map, which does not count misses in bundles hit by the same scan. *)
Theorem C31_hits_and_misses {Pose X W Pt S A : Type} (geo : geometry Pose X W Pt) (sta : statistics Pt S)
  (c : config (occ A S)) (zero : A) (plus : A -> A -> A) (amount : S -> A) (s_merge : S -> S -> S)
  (ray : Pose -> S -> list idx) (order : list (idx * A) -> list (idx * A)) (weighted : bool)
  (ops : list (grid_op (Pose:=Pose) (X:=X))) :
  config_ok c -> defaultc c = Build_occ zero None ->
  (forall a, plus zero a = a) -> (forall a b, plus a b = plus b a) ->
  (forall a b d, plus a (plus b d) = plus (plus a b) d) ->
  (forall l, Permutation (order l) l) ->
  occ_fits geo c ray (usable c) ops ->
  exists m, occ_run geo sta c zero plus amount s_merge ray order weighted ops (new_map c) = Ok m /\
    forall i j, cell_exists c i j ->
      exists o, cstored c m i j = Ok o /\
        match o with
        | Some d => missed d = total zero plus (cell_misses geo sta c amount ray weighted ops i j) /\
                    hits d = merged sta s_merge (cell_hits geo c ops i j)
        | None => total zero plus (cell_misses geo sta c amount ray weighted ops i j) = zero /\
                  cell_hits geo c ops i j = []
        end.
Proof.
  exact (fun Hc Hd H0 H1 H2 Ho => occ_history geo sta c Hc zero plus amount s_merge ray order H0 H1 H2 Ho weighted Hd ops).
Qed.
Print Assumptions C31_hits_and_misses.

(** C31: the hit groups together are exactly the accepted points of the cell, each once. *)
Theorem C31_hits_are_points {Pose X W Pt P : Type} (geo : geometry Pose X W Pt) (c : config P)
  (ops : list (grid_op (Pose:=Pose) (X:=X))) (i : nat) (j : idx) :
  Permutation (concat (cell_hits geo c ops i j))
    (map snd (filter (fun e => idx_eqb (generate_index (fst e) i) j) (scan_points geo c ops))).
Proof. exact (hits_points geo c ops i j). Qed.
Print Assumptions C31_hits_are_points.

(** A map counting misses in Z; the "ray" visits the bundles [0;0] .. [2;0]. *)
Definition occ_map : config (occ Z (list Z)) :=
  {| dimc := 2; kindc := Dynamic; sizec := []; minc := []; garbagec := fun _ => 5;
     aminc := cw_min; amaxc := cw_max; offsetsc := offsets2; defaultc := Build_occ 0 None;
     mergec := fun a _ => a; expandc := fun o => match hits o with Some l => (2 <? length l)%nat | None => false end |}.
Definition flat_ray (o : list Z) (s : list Z) : list idx := [[0; 0]; [1; 0]; [2; 0]].
Definition occ_ops : list (grid_op (Pose := list Z) (X := list Z)) :=
  [GInsert [0; 0] [[25; 5]; [31; 5]; [2000; 0]; [35; 1]]; GInsert [10; 0] [[21; 3]]].

Example C31_example :
  config_ok occ_map /\ occ_fits shift_geometry occ_map flat_ray (usable occ_map) occ_ops /\
  cell_misses shift_geometry log_statistics occ_map (fun s => Z.of_nat (length s)) flat_ray false occ_ops 0 [1; 0] = [1; 2; 1] /\
  cell_misses shift_geometry log_statistics occ_map (fun s => Z.of_nat (length s)) flat_ray true occ_ops 0 [1; 0] = [1] /\
  (forall weighted,
  (let* m := occ_run shift_geometry log_statistics occ_map 0 Z.add (fun s => Z.of_nat (length s)) (@app Z) flat_ray
               (@rev _) weighted occ_ops (new_map occ_map) in cstored occ_map m 0 [1; 0]) =
  Ok (Some (Build_occ (if weighted then 1 else 4) (Some [25; 31; 35; 31])))).
Proof.
  split; [constructor; cbn; try discriminate; try reflexivity; [exact offsets2_sound|exact offsets2_complete]|].
  split; [|split; [vm_compute; reflexivity|split; [vm_compute; reflexivity|intros [|]; vm_compute; reflexivity]]].
  unfold occ_fits, occ_ops. cbn [expand_calls].
  repeat (first [apply Forall_nil | apply Forall_cons]).
  - split; [cloud_fits_2d|]. intros s bi [<-|[<-|[<-|[]]]]; (split; [reflexivity|intros _; split; [reflexivity|repeat constructor; cbn; lia]]).
  - split; [cloud_fits_2d|]. intros s bi [<-|[<-|[<-|[]]]]; (split; [reflexivity|intros _; split; [reflexivity|repeat constructor; cbn; lia]]).
Qed.

(** The miss counter of an occupancy map is a [std::size_t]: addition modulo 2^64 satisfies the
    hypotheses as well. *)
Definition word : Type := { z : Z | (z mod 2 ^ 64 =? z) = true }.
Lemma word_ok (z : Z) : ((z mod 2 ^ 64) mod 2 ^ 64 =? z mod 2 ^ 64) = true.
Proof. apply Z.eqb_eq. apply Z.mod_mod. lia. Qed.
Definition mk_word (z : Z) : word := exist _ (z mod 2 ^ 64) (word_ok z).
Lemma word_eq (a b : word) : proj1_sig a = proj1_sig b -> a = b.
Proof.
  destruct a as [a Ha], b as [b Hb]. cbn. intros <-. f_equal. apply Eqdep_dec.UIP_dec. decide equality.
Qed.
Definition word_add (a b : word) : word := mk_word (proj1_sig a + proj1_sig b).
Lemma word_laws :
  (forall a, word_add (mk_word 0) a = a) /\ (forall a b, word_add a b = word_add b a) /\
  (forall a b d, word_add a (word_add b d) = word_add (word_add a b) d).
Proof.
  split; [|split].
  - intros [a Ha]. apply word_eq. cbn. apply Z.eqb_eq in Ha. exact Ha.
  - intros a b. apply word_eq. unfold word_add, mk_word. cbn [proj1_sig]. f_equal. lia.
  - intros a b d. apply word_eq. unfold word_add, mk_word. cbn [proj1_sig].
    rewrite Z.add_mod_idemp_r, Z.add_mod_idemp_l by lia. f_equal. lia.
Qed.
