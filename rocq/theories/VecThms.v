(** What array-valued cost functions do to [minimize] (model in [VecEda.v]). *)
From Coq Require Import List ZArith Bool String Lia.
From Verif Require Import PyBase B64 NdArray Eda VecEda.
Import ListNotations.
Open Scope nat_scope.

(** The array with one entry. *)
Definition box {A} (x : A) : vec A := (x, []).
(** The attributes when every cost is boxed. *)
Definition box_obj (o : obj) : vobj := mkVObj (o_gen o) (map box (o_evals o)) (o_elite o) (o_evel o) (box (o_best_cost o)) (o_best_ind o).
(** The same lines printed, costs boxed. *)
Definition box_printed (p : printed) : vprinted :=
  match p with PrIter it b => VPrIter it (box b) | PrFinal n b i => VPrFinal n (box b) i end.
(** The same event, costs boxed. *)
Definition box_ev (e : ev) : vev :=
  match e with
  | EvCall r v => VCall r (box v)
  | EvGen g rets vals => VGen g (map box rets) (map box vals)
  | EvSelect a b => VSelect a b
  | EvLearn d => VLearn d
  | EvPrint p => VPrint (box_printed p)
  end.
(** The same result, costs boxed. *)
Definition box_result (r : result) : vresult :=
  mkVResult (r_best_ind r) (box (r_best_cost r)) (r_nfev r) (map box (r_history r)) (r_settings r).
(** The same state, costs boxed. *)
Definition box_st {S W} (s : st S W) : vst S W := mkVSt (box_obj (s_obj s)) (s_pm s) (s_w s) (map box_ev (s_tr s)).

Section Box.
Context {S W : Type}.
Variable c : cfg.
Variable h : hooks S W.
Let cost (r : row) (w : W) : res (vec num) * W := let (v, w') := h_cost h r w in (rmap box v, w').

(** The two programs do the same, up to boxing. *)
Let same {A B} (f : A -> B) (m : M S W A) (vm : VM S W B) : Prop :=
  forall s, vm (box_st s) = (rmap f (fst (m s)), box_st (snd (m s))).

Let same_bind {A B A' B'} (f : A -> A') (g : B -> B') m vm k vk :
  same f m vm -> (forall a, same g (k a) (vk (f a))) -> same g (mbind m k) (vbind vm vk).
Proof.
  intros Hm Hk s. unfold mbind, vbind. rewrite (Hm s). destruct (m s) as [[a|e] s']; cbn [fst snd rmap]; [apply Hk|reflexivity].
Qed.

Let same_ret {A B} (f : A -> B) a b : b = f a -> same f (mret a) (vret b).
Proof. intros -> s. reflexivity. Qed.
Let same_raise {A B} (f : A -> B) e : same f (mraise e) (vraise e).
Proof. intros s. reflexivity. Qed.
Let same_lift {A B} (f : A -> B) r vr : vr = rmap f r -> same f (mlift r) (vlift vr).
Proof. intros -> s. reflexivity. Qed.
Let same_get : same box_obj get_obj vget.
Proof. intros s. reflexivity. Qed.
Let same_put o vo : vo = box_obj o -> same id (put_obj o) (vput vo).
Proof. intros -> s. reflexivity. Qed.
Let same_log e ve : ve = box_ev e -> same id (log e) (vlog ve).
Proof. intros -> s. unfold log, vlog, box_st. cbn. rewrite map_app. reflexivity. Qed.
Let same_world {A B} (f : A -> B) g vg : (forall w, vg w = (rmap f (fst (g w)), snd (g w))) -> same f (with_world g) (vworld vg).
Proof. intros H s. unfold with_world, vworld. cbn. rewrite (H (s_w s)). destruct (g (s_w s)) as [r w']. reflexivity. Qed.

Let same_eta {A B} (f : A -> B) m vm vm' : vm = vm' -> same f m vm -> same f m vm'.
Proof. intros ->. exact id. Qed.

Let call_same r : same box (call1 h r) (vcall cost r).
Proof.
  unfold call1, vcall. apply same_bind with (f := box).
  - apply same_world. intros w. unfold cost. destruct (h_cost h r w) as [v w']. reflexivity.
  - intros v. apply same_bind with (f := id); [apply same_log; reflexivity|]. intros _. apply same_ret. reflexivity.
Qed.

Let rows_same (v0 : num) rs :
  same (fun vs => (map box vs, map (fun v => box (store_as v0 v)) vs)) (call_rows h rs) (vcall_rows cost (box v0) rs).
Proof.
  induction rs as [|r rs IH]; cbn [call_rows vcall_rows]; [apply same_ret; reflexivity|].
  apply same_bind with (f := box); [apply call_same|]. intros v.
  intros s. unfold vbind at 1, vlift. cbn [fit vlen entries box fst snd List.length Nat.eqb].
  revert s. eapply same_bind; [exact IH|]. intros vs. apply same_ret. reflexivity.
Qed.

Let apply_same rs : same (fun rv => (map box (fst rv), map box (snd rv))) (apply_rows h rs) (vapply_rows cost rs).
Proof.
  destruct rs as [|r rs]; cbn [apply_rows vapply_rows]; [apply same_raise|].
  intros s. cbn [call_rows].
  assert (Hassoc : mbind (mbind (call1 h r) (fun v => mbind (call_rows h rs) (fun vs => mret (v :: vs)))) (fun vs => mret (vs, store_all vs)) s
    = mbind (call1 h r) (fun v => mbind (call_rows h rs) (fun vs => mret (v :: vs, store_all (v :: vs)))) s).
  { unfold mbind, mret. destruct (call1 h r s) as [[v|e] s1]; [|reflexivity]. destruct (call_rows h rs s1) as [[vs|e] s2]; reflexivity. }
  rewrite Hassoc. clear Hassoc. revert s.
  change (same (fun rv => (map box (fst rv), map box (snd rv)))
    (mbind (call1 h r) (fun v => mbind (call_rows h rs) (fun vs => mret (v :: vs, store_all (v :: vs)))))
    (vbind (vcall cost r) (fun v => vbind (vcall_rows cost v rs) (fun vs => vret (v :: fst vs, vmap (store_as (fst v)) v :: snd vs))))).
  apply same_bind with (f := box); [apply call_same|]. intros v.
  eapply same_bind; [apply rows_same|]. intros vs. apply same_ret. cbn [fst snd store_all map box vmap]. f_equal. f_equal. symmetry. apply map_map.
Qed.

(** What a worker returns, boxed. *)
Let box_rv (rv : list num * list f64) : list (vec num) * list (vec f64) := (map box (fst rv), map box (snd rv)).

Let chunks_same o p chs : forall i ws,
  vrun_chunks h cost i chs (box_obj o) p ws
  = (map (rmap box_rv) (fst (run_chunks h i chs o p ws)), map box_ev (snd (run_chunks h i chs o p ws))).
Proof.
  induction chs as [|ch chs IH]; intros i ws; cbn [vrun_chunks run_chunks]; [reflexivity|].
  unfold vrun_chunk, run_chunk.
  pose proof (apply_same ch (mkSt o p (ws (p_worker (h_pool h) i)) [])) as Ha.
  unfold box_st in Ha at 1. cbn [s_obj s_pm s_w s_tr map] in Ha. rewrite Ha.
  destruct (apply_rows h ch (mkSt o p (ws (p_worker (h_pool h) i)) [])) as [r s1]. cbn [fst snd box_st vs_w vs_tr].
  rewrite IH. destruct (run_chunks h (Datatypes.S i) chs o p _) as [rs trs]. cbn [fst snd map]. rewrite map_app. reflexivity.
Qed.

Let failures_box rs : failures (map (rmap box_rv) rs) = failures rs.
Proof. induction rs as [|[a|e] rs IH]; cbn [map rmap failures]; [reflexivity|exact IH|f_equal; exact IH]. Qed.
Let successes_box rs : successes (map (rmap box_rv) rs) = map box_rv (successes rs).
Proof. induction rs as [|[a|e] rs IH]; cbn [map rmap successes]; [reflexivity|f_equal; exact IH|exact IH]. Qed.

Let vconcat_box l : vconcat (map (map box) l) = Ok (map box (List.concat l)).
Proof.
  unfold vconcat. rewrite <- concat_map. destruct (List.concat l) as [|x xs]; [reflexivity|]. cbn [map].
  assert (H : forallb (fun y => Nat.eqb (vlen y) (vlen (box x))) (map box xs) = true).
  { apply forallb_forall. intros y Hy. apply in_map_iff in Hy as [z [<- _]]. reflexivity. }
  rewrite H. reflexivity.
Qed.

Let parallel_same rs : same box_rv (parallel_rows h rs) (vparallel_rows h cost rs).
Proof.
  intros s. unfold parallel_rows, vparallel_rows. cbv zeta. cbn [box_st vs_obj vs_pm vs_w vs_tr].
  rewrite chunks_same. destruct (run_chunks h 0 _ (s_obj s) (s_pm s) (fun _ => s_w s)) as [results tr]. cbn [fst snd].
  rewrite failures_box, successes_box. destruct (failures results) as [|e0 es].
  - rewrite !map_map. unfold box_rv at 1 2. cbn [fst snd].
    rewrite <- (map_map snd (map box)), vconcat_box. cbn [rbind fst snd rmap]. unfold box_rv. cbn [fst snd].
    rewrite <- (map_map fst (map box)), <- concat_map. f_equal. unfold box_st. cbn [s_obj s_pm s_w s_tr]. rewrite map_app. reflexivity.
  - cbn [fst snd rmap]. f_equal. unfold box_st. cbn [s_obj s_pm s_w s_tr]. rewrite map_app. reflexivity.
Qed.

Let check_same : same id (check_generation c h) (vcheck_generation c h cost).
Proof.
  unfold check_generation, vcheck_generation.
  apply same_bind with (f := box_obj); [apply same_get|]. intros o.
  apply same_bind with (f := box_rv); [destruct (c_parallelize c); [apply parallel_same|apply apply_same]|]. intros [rets vals].
  apply same_bind with (f := id); [apply same_put; reflexivity|]. intros _. apply same_log. reflexivity.
Qed.

Let concat_box {A} (l : list A) : List.concat (map entries (map box l)) = l.
Proof. induction l as [|x l IH]; cbn; [reflexivity|]. f_equal. exact IH. Qed.

Let rmap_id {A} (r : res A) : r = rmap id r.
Proof. destruct r; reflexivity. Qed.

Let truncation_same : same id (truncation c h) (vtruncation c h).
Proof.
  unfold truncation, vtruncation.
  apply same_bind with (f := box_obj); [apply same_get|]. intros o.
  apply same_bind with (f := id); [apply same_lift, rmap_id|]. intros gen.
  cbv zeta. cbn [box_obj v_evals v_evel v_elite v_gen id]. rewrite concat_box.
  apply same_bind with (f := id); [apply same_lift, rmap_id|]. intros elite'.
  apply same_bind with (f := id); [apply same_lift, rmap_id|]. intros gen'.
  apply same_bind with (f := id); [apply same_lift, rmap_id|]. intros evel'.
  apply same_bind with (f := id); [apply same_lift, rmap_id|]. intros evals'.
  apply same_bind with (f := id); [apply same_put; reflexivity|]. intros _. apply same_log. reflexivity.
Qed.

Let noise_same : same id (draw_noise c h) (vdraw_noise c h).
Proof.
  unfold draw_noise, vdraw_noise. destruct (py_eq_int (c_w_noise c) 0); [apply same_ret; reflexivity|].
  destruct (py_eq_int (c_w_noise c) (-1)); [apply same_ret; reflexivity|]. cbv zeta.
  destruct (flt (num_to_f (c_w_noise c)) (Z2f 0) || (c_trunc_len c <? 0)%Z || (c_nvars c <? 0)%Z)%bool; [apply same_raise|].
  apply same_bind with (f := id).
  - intros s. cbn [box_st vs_w]. destruct (h_normal h (num_to_f (c_w_noise c)) (s_w s)) as [d w']. reflexivity.
  - intros d. apply same_ret. reflexivity.
Qed.

Let update_same : same id (update_pm h) (vupdate_pm h).
Proof.
  unfold update_pm, vupdate_pm. apply same_bind with (f := box_obj); [apply same_get|]. intros o.
  apply same_bind with (f := id).
  - intros s. cbn [box_st vs_pm box_obj v_gen v_elite]. destruct (h_data h (o_gen o) (o_elite o) (s_pm s)) as [[d|e] p']; reflexivity.
  - intros d. apply same_bind with (f := id); [apply same_log; reflexivity|]. intros _ s. cbn [box_st vs_pm vs_w]. unfold id.
    destruct (h_learn h d (s_pm s) (s_w s)) as [[[]|e] [p' w']]; reflexivity.
Qed.

Let set_same g : same id (set_gen g) (vset_gen g).
Proof.
  unfold set_gen, vset_gen. apply same_bind with (f := box_obj); [apply same_get|]. intros o. apply same_put. reflexivity.
Qed.

Let new_same : same id (new_generation h) (vnew_generation h).
Proof.
  unfold new_generation, vnew_generation. apply same_bind with (f := id); [|intros g; apply set_same].
  intros s. cbn [box_st vs_pm vs_w]. destruct (h_sample h (s_pm s) (s_w s)) as [[g|e] w']; reflexivity.
Qed.

Let min_from_box l m : vmin_from (box m) (map box l) = Ok (box (fold_left (fun m y => if flt y m then y else m) l m)).
Proof.
  revert m. induction l as [|y l IH]; intros m; cbn [map vmin_from fold_left]; [reflexivity|].
  unfold vlt_true, vlt, truth. cbn [vlen entries box fst snd List.length Nat.eqb rbind combine map].
  destruct (flt y m); exact (IH _).
Qed.
Let min_box l : vmin (map box l) = rmap box (py_min l).
Proof. destruct l as [|x l]; [reflexivity|]. exact (min_from_box l x). Qed.

Let where_box_from b (l : list f64) k : where_from (some_equal (box b)) k (map box l) = where_from (fun x => feq x b) k l.
Proof.
  revert k. induction l as [|x l IH]; intros k; cbn [map where_from]; [reflexivity|].
  rewrite IH. unfold some_equal, box. cbn [entries fst snd combine existsb]. rewrite orb_false_r. reflexivity.
Qed.
Let where_box b l : first_or_IndexError (np_where (some_equal (box b)) (map box l)) = rmap id (first_or_IndexError (np_where (fun x => feq x b) l)).
Proof. rewrite <- rmap_id. unfold np_where. rewrite where_box_from. reflexivity. Qed.

Let iteration_same ftol noise :
  same (fun ba => (box (fst ba), snd ba)) (iteration c h ftol noise) (viteration c h cost ftol noise).
Proof.
  unfold iteration, viteration.
  apply same_bind with (f := id); [apply truncation_same|]. intros _.
  apply same_bind with (f := box_obj); [apply same_get|]. intros o1.
  apply same_bind with (f := id); [apply same_lift, rmap_id|]. intros gen1.
  apply same_bind with (f := id); [apply set_same|]. intros _.
  apply same_bind with (f := id); [apply update_same|]. intros _.
  apply same_bind with (f := id); [apply new_same|]. intros _.
  apply same_bind with (f := id); [apply check_same|]. intros _.
  apply same_bind with (f := box_obj); [apply same_get|]. intros o.
  apply same_bind with (f := box); [apply same_lift; apply min_box|]. intros best.
  apply same_bind with (f := id); [apply same_lift; apply where_box|]. intros i.
  apply same_bind with (f := id); [apply same_lift, rmap_id|]. intros ind.
  intros s. unfold vbind at 1, vlift, vaccept, vlt_true, vlt, truth. cbn [vmap vlen entries box fst snd List.length Nat.eqb rbind combine map box_obj v_best_cost].
  fold (accept ftol best (o_best_cost o)). destruct (accept ftol best (o_best_cost o)); revert s.
  - apply same_bind with (f := id); [apply same_put; reflexivity|]. intros _. apply same_ret. reflexivity.
  - apply same_ret. reflexivity.
Qed.

Let print_same b p vp : (forall o, vp (box_obj o) = box_printed (p o)) -> same id (print_if b p) (vprint_if b vp).
Proof.
  intros H. unfold print_if, vprint_if. destruct b; [|apply same_ret; reflexivity].
  apply same_bind with (f := box_obj); [apply same_get|]. intros o. apply same_log. rewrite H. reflexivity.
Qed.

Let loop_same ftol out noise n : forall it hist nb,
  same (map box) (loop c h ftol out noise n it hist nb) (vloop c h cost ftol out noise n it (map box hist) nb).
Proof.
  induction n as [|n IH]; intros it hist nb; cbn [loop vloop]; [apply same_ret; reflexivity|].
  eapply same_bind; [apply iteration_same|]. intros [best acc]. cbn [fst snd]. cbv zeta.
  change [box best] with (map box [best]). rewrite <- map_app. destruct acc.
  - apply same_bind with (f := id); [apply print_same; reflexivity|]. intros _. apply IH.
  - destruct ((nb + 1 =? c_dead_iter c)%Z); [apply same_ret; reflexivity|].
    apply same_bind with (f := id); [apply print_same; reflexivity|]. intros _. apply IH.
Qed.

Let init_same : same id (initialize_generation c h) (vinitialize_generation c h).
Proof.
  unfold initialize_generation, vinitialize_generation. destruct (c_init_data c) as [d|]; [apply same_ret; reflexivity|].
  apply same_world. intros w. destruct (h_init h w) as [[a|e] w']; reflexivity.
Qed.

Let first_same : same box (first_generation c h) (vfirst_generation c h cost).
Proof.
  unfold first_generation, vfirst_generation.
  apply same_bind with (f := id); [apply init_same|]. intros g.
  apply same_bind with (f := id); [apply set_same|]. intros _.
  apply same_bind with (f := id); [apply check_same|]. intros _.
  apply same_bind with (f := box_obj); [apply same_get|]. intros o.
  apply same_bind with (f := id); [apply same_lift, rmap_id|]. intros r0.
  apply same_bind with (f := id); [apply same_lift; cbn [box_obj v_evals]; destruct (o_evals o); reflexivity|]. intros e0.
  apply same_bind with (f := id); [apply same_put; reflexivity|]. intros _.
  apply same_bind with (f := box); [apply same_lift; apply min_box|]. intros best.
  apply same_bind with (f := box_obj); [apply same_get|]. intros o'.
  apply same_bind with (f := id); [apply same_put; reflexivity|]. intros _.
  apply same_bind with (f := id); [apply same_lift; apply where_box|]. intros i.
  apply same_bind with (f := id); [apply same_put; reflexivity|]. intros _. apply same_ret. reflexivity.
Qed.

Let minimize_same ftol out : same box_result (minimize c h ftol out) (vminimize c h cost ftol out).
Proof.
  unfold minimize, vminimize.
  apply same_bind with (f := box); [apply first_same|]. intros best0.
  apply same_bind with (f := id); [apply noise_same|]. intros noise.
  apply same_bind with (f := id); [apply print_same; reflexivity|]. intros _.
  apply same_bind with (f := map box); [apply loop_same|]. intros hist. cbv zeta. rewrite map_length.
  apply same_bind with (f := id); [apply print_same; reflexivity|]. intros _.
  apply same_bind with (f := box_obj); [apply same_get|]. intros o. apply same_ret. reflexivity.
Qed.

Lemma boxed_costs : forall ftol out s,
  vminimize c h (fun r w => let (v, w') := h_cost h r w in (rmap box v, w')) ftol out (box_st s)
  = (rmap box_result (fst (minimize c h ftol out s)), box_st (snd (minimize c h ftol out s))).
Proof. intros ftol out s. exact (minimize_same ftol out s). Qed.

End Box.
