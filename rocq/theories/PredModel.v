(** Model of src/predictor: kits.rs, single.rs, chain.rs, post_process.rs, stats.rs and mod.rs.  Printing (stats.rs:100-158, mod.rs:108-110) is not modelled.
    The tables are passed where they are used. *)
From Verif Require Import Base FixedModel UtilModel StateModel EstModel LogModel LutModel ApmModel StatesModel MixerModel TreeModel.

Definition is_none {A : Type} (o : option A) : bool := match o with None => true | Some _ => false end.

(** ** kits.rs.  A closure that sets up an indexer is the list of its sub-indices; one that adds inputs to a mixer is the list of their places and values. *)
(** kits.rs:27-31 EstimatorsWithIndexer *)
Record est_kit : Type := mkEstKit { ek_estimators : list Z; ek_indexer : indexer; ek_index : option Z }.
(** kits.rs:34-41 new *)
Definition est_kit_new (ix : indexer) : res est_kit :=
  let* e := de_new in
  let* size := ix_get_array_size ix in
  Ok (mkEstKit (repeat e (Z.to_nat size)) ix None).
(** kits.rs:43-54 predict *)
Definition est_kit_predict (t : luts) (k : est_kit) (setup : list Z) : res (est_kit * (Z * Z)) :=
  assert_ (is_none (ek_index k)) ;;
  let* ix := mfold ix_with_sub_index setup (ek_indexer k) in
  let* '(index, ix) := ix_get_array_index_and_reset ix in
  let* e := get (ek_estimators k) index in
  let* prediction_sq := de_prediction e in
  let* prediction_st := stretch (lt_stretch t) prediction_sq in
  Ok (mkEstKit (ek_estimators k) ix (Some index), (prediction_sq, prediction_st)).
(** kits.rs:56-60 update *)
Definition est_kit_update (t : luts) (k : est_kit) (input_bit : bit) : res est_kit :=
  let* index := of_opt (ek_index k) EUnwrap in
  let* e := get (ek_estimators k) index in
  let* e := de_update (lt_rates t) e input_bit in
  let* es := set (ek_estimators k) index e in
  Ok (mkEstKit es (ek_indexer k) None).

(** kits.rs:63-68 MixersWithIndexer *)
Record mixer_kit : Type := mkMixerKit { mk_mixers : list mixer; mk_indexer : indexer; mk_index : option Z; mk_result : option (Z * Z) }.
(** kits.rs:71-81 new *)
Definition mixer_kit_new (maker : res mixer) (ix : indexer) : res mixer_kit :=
  let* size := ix_get_array_size ix in
  let* ms := mmap (fun _ => maker) (zseq 0 (Z.to_nat size)) in
  Ok (mkMixerKit ms ix None None).
(** kits.rs:83-88 pre_predict *)
Definition mixer_kit_pre_predict (k : mixer_kit) (setup : list Z) : res mixer_kit :=
  assert_ (is_none (mk_result k)) ;;
  assert_ (is_none (mk_index k)) ;;
  let* ix := mfold ix_with_sub_index setup (mk_indexer k) in
  Ok (mkMixerKit (mk_mixers k) ix (mk_index k) (mk_result k)).
(** kits.rs:90-105 predict *)
Definition mixer_kit_predict (t : luts) (k : mixer_kit) (setup : list Z) (inputs : list (Z * (Z * Z))) : res (mixer_kit * (Z * Z)) :=
  assert_ (is_none (mk_result k)) ;;
  assert_ (is_none (mk_index k)) ;;
  let* ix := mfold ix_with_sub_index setup (mk_indexer k) in
  let* '(index, ix) := ix_get_array_index_and_reset ix in
  let* m := get (mk_mixers k) index in
  let* m := mfold (fun m x => set_input m (fst x) (fst (snd x)) (snd (snd x))) inputs m in
  let* r := mix_all (lt_squash t) m in
  let* ms := set (mk_mixers k) index m in
  Ok (mkMixerKit ms ix (Some index) (Some r), r).
(** kits.rs:107-118 update *)
Definition mixer_kit_update (t : luts) (k : mixer_kit) (input_bit : bit) (max_update_factor_index : Z) : res (mixer_kit * (Z * Z)) :=
  let* index := of_opt (mk_index k) EUnwrap in
  let* r := of_opt (mk_result k) EUnwrap in
  let* m := get (mk_mixers k) index in
  let* m := update_and_reset (lt_rates t) m input_bit (fst r) max_update_factor_index in
  let* ms := set (mk_mixers k) index m in
  Ok (mkMixerKit ms (mk_indexer k) None None, r).
(** kits.rs:120-123 current_mixer *)
Definition current_mixer (k : mixer_kit) : res mixer :=
  assert_ (negb (is_none (mk_index k))) ;;
  let* index := of_opt (mk_index k) EUnwrap in
  get (mk_mixers k) index.

(** ** single.rs *)
(** single.rs:32-36 SingleContextPredictor *)
Record single : Type := mkSingle { sg_fixed : Z * Z; sg_edge : est_kit; sg_node : est_kit }.
(** single.rs:39-41 new_edge_mixer, 46-48 new_node_mixer *)
Definition new_edge_mixer : res mixer := fixed_mixer_new 4 10 DominantFirst.
Definition new_node_mixer : res mixer := fixed_mixer_new 3 10 DominantFirst.
(** single.rs:42-44 edge_mixer_extra_dimensions, 49-51 node_mixer_extra_dimensions *)
Definition edge_mixer_extra_dimensions : list Z := [4; 2].
Definition node_mixer_extra_dimensions : res (list Z) :=
  let* m := quantizer_max_output in let* m := add usize m 1 in Ok [6; 4; m].
(** single.rs:53-66 new *)
Definition single_new (t : luts) : res single :=
  let* m := quantize max_run_length in
  let* raw := shl i32 2 21 in
  let* edge_fixed_st := fix_new stretched_d raw 21 in
  let* edge_fixed_sq := squash (lt_squash t) edge_fixed_st in
  let* m := add usize m 1 in
  let* ix := ix_new 2 [m; 256] in
  let* edge := est_kit_new ix in
  let* ix := ix_new 2 [m; 2] in
  let* node := est_kit_new ix in
  Ok (mkSingle (edge_fixed_sq, edge_fixed_st) edge node).
(** single.rs:159-169 quantize_distance *)
Definition quantize_distance (distance : Z) : Z :=
  if distance <? 100 then 0 else if distance <? 1000 then 1 else if distance <? 10000 then 2 else 3.
(** single.rs:171-187 quantize_cost_trackers, in u32 *)
Definition quantize_cost_trackers (c : cost_trackers) : res Z :=
  let '(s, n) := c in
  let* a := add u32 s (s / 2) in
  if a <? n then Ok 0 else
  let* a := add u32 s (s / 8) in
  if a <? n then Ok 1 else
  if s <? n then Ok 2 else
  let* a := add u32 n (n / 8) in
  if s <? a then Ok 3 else
  let* a := add u32 n (n / 2) in
  if s <? a then Ok 4 else Ok 5.
(** single.rs:68-132 predict *)
Definition single_predict (t : luts) (sg : single) (kit : mixer_kit) (s : context_state) (context_byte : Z) (lower : Z * Z) : res (single * mixer_kit * (Z * Z)) :=
  match s with
  | ForEdge last_occurrence_distance occurrence_count repeated_bit =>
      let* quantized_count := quantize occurrence_count in
      let quantized_distance := quantize_distance last_occurrence_distance in
      let* '(edge, occur_and_byte) := est_kit_predict t (sg_edge sg) [quantized_count; context_byte] in
      let* direct := direct_for_0_bit_run t occurrence_count in
      let* '(kit, r) := mixer_kit_predict t kit [quantized_distance; bit_z repeated_bit]
                          [(0, lower); (1, direct); (2, sg_fixed sg); (3, occur_and_byte)] in
      Ok (mkSingle (sg_fixed sg) edge (sg_node sg), kit, r)
  | ForNode last_occurrence_distance probability_estimator _ bits_runs trackers =>
      let* stationary_sq := de_prediction probability_estimator in
      let* stationary_st := stretch (lt_stretch t) stationary_sq in
      let* last_run := br_last_bit_run_length bits_runs in
      let* q := quantize last_run in
      let* '(node, bits_runs_1) := est_kit_predict t (sg_node sg) [q; bit_z (br_last_bit bits_runs)] in
      let* opposite_run := br_opposite_bit_run_length bits_runs in
      let* quantized_run_length := quantize opposite_run in
      let* quantized_trackers := quantize_cost_trackers trackers in
      let* '(kit, r) := mixer_kit_predict t kit [quantized_trackers; quantize_distance last_occurrence_distance; quantized_run_length]
                          [(0, lower); (1, (stationary_sq, stationary_st)); (2, bits_runs_1)] in
      Ok (mkSingle (sg_fixed sg) (sg_edge sg) node, kit, r)
  end.
(** single.rs:134-156 update *)
Definition single_update (t : luts) (sg : single) (kit : mixer_kit) (s : context_state) (input_bit : bit) : res (single * mixer_kit * option cost_trackers) :=
  match s with
  | ForEdge _ _ _ =>
      let* edge := est_kit_update t (sg_edge sg) input_bit in
      let* '(kit, _) := mixer_kit_update t kit input_bit 300 in
      Ok (mkSingle (sg_fixed sg) edge (sg_node sg), kit, None)
  | ForNode _ _ _ _ trackers =>
      let* node := est_kit_update t (sg_node sg) input_bit in
      let* m := current_mixer kit in
      let* p1 := prediction_sq m 1 in
      let* p2 := prediction_sq m 2 in
      let* c := ct_updated (lt_log2 t) trackers p1 p2 input_bit in
      let* '(kit, _) := mixer_kit_update t kit input_bit 100 in
      Ok (mkSingle (sg_fixed sg) (sg_edge sg) node, kit, Some c)
  end.

(** ** chain.rs *)
(** chain.rs:28-33 ContextsChainPredictionMixer: for each order the predictor and its kits *)
Record order_kit : Type := mkOrderKit { ok_single : single; ok_edge : mixer_kit; ok_node : mixer_kit }.
(** chain.rs:49-65: the body of the loop of new; 39-43 make_dimensions puts [2; 3] in front *)
Definition order_kit_new (t : luts) : res order_kit :=
  let* sg := single_new t in
  let* ix := ix_new 4 ([2; 3] ++ edge_mixer_extra_dimensions) in
  let* edge := mixer_kit_new new_edge_mixer ix in
  let* extra := node_mixer_extra_dimensions in
  let* ix := ix_new 5 ([2; 3] ++ extra) in
  let* node := mixer_kit_new new_node_mixer ix in
  Ok (mkOrderKit sg edge node).
(** chain.rs:38-72 new; the three vectors of max_order + 1 items are one list *)
Definition chain_new (t : luts) (max_order : Z) : res (list order_kit) :=
  mmap (fun _ => order_kit_new t) (zseq 0 (Z.to_nat (max_order + 1))).
(** chain.rs:127-136 compare_context_states *)
Definition compare_context_states (t : luts) (previous current : context_state) : res Z :=
  match is_for_node previous, is_for_node current with
  | false, false | true, true =>
      let* a := probability_estimator t previous in
      let* b := probability_estimator t current in
      Ok (if a =? b then 1 else 0)
  | true, false => Ok 2
  | false, true => Fail EAssert
  end.
(** chain.rs:78-102: the body of the loop of predict; [previous] is the state of the order before *)
Definition chain_predict_step (t : luts) (contexts : list context_state) (context_byte : Z) (st : list order_kit * (Z * Z)) (order : Z) : res (list order_kit * (Z * Z)) :=
  let '(kits, last_probability) := st in
  let* s := get contexts order in
  let* max_order := sub usize (zlen contexts) 1 in
  let is_max_order := if max_order =? order then 1 else 0 in
  let* compared := if order =? 0 then Ok 0 else let* previous := get contexts (order - 1) in compare_context_states t previous s in
  let* k := get kits order in
  if is_for_node s then
    let* kit := mixer_kit_pre_predict (ok_node k) [is_max_order; compared] in
    let* '(sg, kit, r) := single_predict t (ok_single k) kit s context_byte last_probability in
    let* kits := set kits order (mkOrderKit sg (ok_edge k) kit) in
    Ok (kits, r)
  else
    let* kit := mixer_kit_pre_predict (ok_edge k) [is_max_order; compared] in
    let* '(sg, kit, r) := single_predict t (ok_single k) kit s context_byte last_probability in
    let* kits := set kits order (mkOrderKit sg kit (ok_node k)) in
    Ok (kits, r).
(** chain.rs:74-105 predict *)
Definition chain_predict (t : luts) (kits : list order_kit) (contexts : list context_state) (context_byte : Z) : res (list order_kit * (Z * Z)) :=
  mfold (chain_predict_step t contexts context_byte) (zseq 0 (length contexts)) (kits, (2 ^ 30, 0)).
(** chain.rs:111-122: the body of the loop of update *)
Definition chain_update_step (t : luts) (input_bit : bit) (contexts : list context_state) (st : list order_kit * list cost_trackers) (order : Z)
    : res (list order_kit * list cost_trackers) :=
  let '(kits, trackers) := st in
  let* s := get contexts order in
  let* k := get kits order in
  let* '(k, c) := (if is_for_node s then
                     let* '(sg, kit, c) := single_update t (ok_single k) (ok_node k) s input_bit in Ok (mkOrderKit sg (ok_edge k) kit, c)
                   else
                     let* '(sg, kit, c) := single_update t (ok_single k) (ok_edge k) s input_bit in Ok (mkOrderKit sg kit (ok_node k), c)) in
  assert_ (negb (Bool.eqb (is_none c) (is_for_node s))) ;;
  let* kits := set kits order k in
  Ok (kits, trackers ++ match c with Some c => [c] | None => [] end).
(** chain.rs:107-125 update *)
Definition chain_update (t : luts) (kits : list order_kit) (input_bit : bit) (contexts : list context_state) : res (list order_kit * list cost_trackers) :=
  mfold (chain_update_step t input_bit contexts) (zseq 0 (length contexts)) (kits, []).

(** ** post_process.rs *)
(** post_process.rs:28-30 Mode; the constant MODE, which is Light, is an argument of the functions here. *)
Inductive mode : Type := ModeNone | ModeLight | ModeAdaptive.
(** post_process.rs:32-40 PredictionFinalizer *)
Record finalizer : Type := mkFinalizer { pf_order0 : apm; pf_order1 : apm; pf_order2 : apm; pf_order3 : apm; pf_mixers : list mixer; pf_result : option (Z * Z) }.
(** post_process.rs:43-84 new *)
Definition finalizer_new (md : mode) (t : luts) : res finalizer :=
  let* mixers := mmap (fun size => mixer_n_new size 100 EqualSummingToOne) [2; 3; 4; 5] in
  let '(small, large) := match md with ModeNone => (0, 0) | _ => (256, 256 * 256) end in
  let* o0 := apm_new small 0 (lt_squash t) in
  let* o1 := apm_new large 0 (lt_squash t) in
  let* o2 := apm_new large 0 (lt_squash t) in
  let* o3 := apm_new large 0 (lt_squash t) in
  Ok (mkFinalizer o0 o1 o2 o3 mixers None).
(** post_process.rs:196-203 quantize_contexts_count *)
Definition quantize_contexts_count (contexts_count : Z) : Z :=
  if contexts_count <=? 1 then 0 else if contexts_count =? 2 then 1 else if contexts_count =? 3 then 2 else 3.
(** post_process.rs:94-100 and 119-125: the first map and the mix of its result with the input *)
Definition phase0 (t : luts) (f : finalizer) (input_sq input_st : Z) (last_bytes : lbc) : res (apm * Z * (Z * Z)) :=
  let* u := lb_unfinished_byte last_bytes in
  let* lut := luts_apm t 0 in
  let* '(o0, p0) := refine (pf_order0 f) u input_sq input_st lut in
  let* a := mul u64 input_sq 3 in
  let* a := add u64 a p0 in
  let* raw := scaled_down u64 a 2 in
  let* mix_sq := fix_new fract_only_u32 (wrap u32 raw) 31 in
  let* mix_st := stretch (lt_stretch t) mix_sq in
  Ok (o0, p0, (mix_sq, mix_st)).
(** post_process.rs:101-109, 128-147: one of the later maps *)
Definition phase1 (t : luts) (map : apm) (context : res Z) (mixed : Z * Z) : res (apm * Z) :=
  let* c := context in
  let* lut := luts_apm t 0 in
  refine map c (fst mixed) (snd mixed) lut.
(** post_process.rs:130, 136, 142, 126: an input with its stretched value *)
Definition set_refined (t : luts) (m : mixer) (place p : Z) : res mixer :=
  let* s := stretch (lt_stretch t) p in set_input m place p s.
(** post_process.rs:86-152 refine *)
Definition finalizer_refine (md : mode) (t : luts) (f : finalizer) (input_sq input_st contexts_count : Z) (last_bytes : lbc) : res (finalizer * Z) :=
  assert_ (is_none (pf_result f)) ;;
  match md with
  | ModeNone => let* p := to_fix u32 fract_only_u32 final_probability input_sq in Ok (f, p)
  | ModeLight =>
      let* '(o0, p0, mixed) := phase0 t f input_sq input_st last_bytes in
      let* '(o1, p1) := phase1 t (pf_order1 f) (lb_hash01_16 last_bytes) mixed in
      let* '(o2, p2) := phase1 t (pf_order2 f) (lb_hash02_16 last_bytes) mixed in
      let* '(o3, p3) := phase1 t (pf_order3 f) (lb_hash03_16 last_bytes) mixed in
      let* d := mul u64 p2 2 in
      let* a := add u64 p1 d in
      let* a := add u64 a p3 in
      let* raw := scaled_down u64 a 2 in
      let* output_sq := fix_new fract_only_u32 (wrap u32 raw) 31 in
      let* p := to_fix u32 fract_only_u32 final_probability output_sq in
      Ok (mkFinalizer o0 o1 o2 o3 (pf_mixers f) (pf_result f), p)
  | ModeAdaptive =>
      let mixer_index := quantize_contexts_count contexts_count in
      let* m := get (pf_mixers f) mixer_index in
      let* '(o0, p0, mixed) := phase0 t f input_sq input_st last_bytes in
      let* m := set_input m 0 input_sq input_st in
      let* m := set_refined t m 1 p0 in
      let* '(o1, m) := (if 1 <=? mixer_index then
                          let* '(o, p) := phase1 t (pf_order1 f) (lb_hash01_16 last_bytes) mixed in
                          let* m := set_refined t m 2 p in Ok (o, m)
                        else Ok (pf_order1 f, m)) in
      let* '(o2, m) := (if 2 <=? mixer_index then
                          let* '(o, p) := phase1 t (pf_order2 f) (lb_hash02_16 last_bytes) mixed in
                          let* m := set_refined t m 3 p in Ok (o, m)
                        else Ok (pf_order2 f, m)) in
      let* '(o3, m) := (if 3 <=? mixer_index then
                          let* '(o, p) := phase1 t (pf_order3 f) (lb_hash03_16 last_bytes) mixed in
                          let* m := set_refined t m 4 p in Ok (o, m)
                        else Ok (pf_order3 f, m)) in
      let* r := mix_all (lt_squash t) m in
      let* mixers := set (pf_mixers f) mixer_index m in
      let* p := to_fix u32 fract_only_u32 final_probability (fst r) in
      Ok (mkFinalizer o0 o1 o2 o3 mixers (Some r), p)
  end.
(** post_process.rs:159-168, 173-187: the update of one map *)
Definition learn (map : apm) (context : res Z) (input_bit : bit) (fixed_weight : bool) : res apm :=
  let* c := context in update_predictions map c input_bit 5 fixed_weight.
(** post_process.rs:154-193 update *)
Definition finalizer_update (md : mode) (t : luts) (f : finalizer) (input_bit : bit) (contexts_count : Z) (last_bytes : lbc) : res finalizer :=
  match md with
  | ModeNone => Ok f
  | ModeLight =>
      let* o0 := learn (pf_order0 f) (lb_unfinished_byte last_bytes) input_bit true in
      let* o1 := learn (pf_order1 f) (lb_hash01_16 last_bytes) input_bit true in
      let* o2 := learn (pf_order2 f) (lb_hash02_16 last_bytes) input_bit true in
      let* o3 := learn (pf_order3 f) (lb_hash03_16 last_bytes) input_bit true in
      Ok (mkFinalizer o0 o1 o2 o3 (pf_mixers f) (pf_result f))
  | ModeAdaptive =>
      assert_ (negb (is_none (pf_result f))) ;;
      let mixer_index := quantize_contexts_count contexts_count in
      let* o0 := learn (pf_order0 f) (lb_unfinished_byte last_bytes) input_bit false in
      let* o1 := (if 1 <=? mixer_index then learn (pf_order1 f) (lb_hash01_16 last_bytes) input_bit false else Ok (pf_order1 f)) in
      let* o2 := (if 2 <=? mixer_index then learn (pf_order2 f) (lb_hash02_16 last_bytes) input_bit false else Ok (pf_order2 f)) in
      let* o3 := (if 3 <=? mixer_index then learn (pf_order3 f) (lb_hash03_16 last_bytes) input_bit false else Ok (pf_order3 f)) in
      let* m := get (pf_mixers f) mixer_index in
      let* r := of_opt (pf_result f) EUnwrap in
      let* m := update_and_reset (lt_rates t) m input_bit (fst r) 1000 in
      let* mixers := set (pf_mixers f) mixer_index m in
      Ok (mkFinalizer o0 o1 o2 o3 mixers None)
  end.

(** ** stats.rs *)
(** stats.rs:33-44 PredictionStatistics *)
Record stats : Type := mkStats {
  st_total_bytes : Z; st_total_contexts : Z; st_order_counts : list Z; st_order_costs : list Z; st_symbol_counts : list Z; st_symbol_costs : list Z;
  st_byte_cost : Z; st_total_cost : Z; st_order_occurrences : list Z }.
(** stats.rs:47-60 new *)
Definition stats_new (max_order : Z) : res stats :=
  let* m := add usize max_order 1 in
  let* m := mul usize 5 m in
  Ok (mkStats 0 0 (repeat 0 25) (repeat 0 25) (repeat 0 256) (repeat 0 256) (2 ^ 63 - 1) 0 (repeat 0 (Z.to_nat m))).
(** stats.rs:62-72 start_new_byte; the raw value of UnfinishedByte::EMPTY is 1 (last_bytes.rs:26) *)
Definition stats_start (s : stats) (last_bytes : lbc) : res stats :=
  let* u := lb_unfinished_byte last_bytes in
  assert_ (u =? 1) ;;
  let* '(counts, costs) := (if 0 <? st_total_bytes s then
      let* last_byte := lb_previous_byte 1 last_bytes in
      let* n := get (st_symbol_counts s) last_byte in
      let* n := add usize n 1 in
      let* counts := set (st_symbol_counts s) last_byte n in
      let* c := get (st_symbol_costs s) last_byte in
      let* c := fix_add log2_q c (st_byte_cost s) in
      let* costs := set (st_symbol_costs s) last_byte c in
      Ok (counts, costs)
    else Ok (st_symbol_counts s, st_symbol_costs s)) in
  let* total := add u64 (st_total_bytes s) 1 in
  Ok (mkStats total (st_total_contexts s) (st_order_counts s) (st_order_costs s) counts costs 0 (st_total_cost s) (st_order_occurrences s)).
(** stats.rs:82-87: the index of the statistics by type of context *)
Definition stats_index (contexts : list context_state) : res Z :=
  let* max_order := sub usize (zlen contexts) 1 in
  let unary := Z.min 4 (zlen (filter (fun s => negb (is_for_node s)) contexts)) in
  Ok (Z.min 4 max_order * 5 + unary).
(** stats.rs:74-98 on_next_bit *)
Definition stats_on_next_bit (t : luts) (s : stats) (input_bit : bit) (contexts : list context_state) (final : Z) : res stats :=
  let n := zlen contexts in
  let* total_contexts := add u64 (st_total_contexts s) n in
  if 0 <? n then
    let* i := stats_index contexts in
    let* c := get (st_order_counts s) i in
    let* c := add usize c 1 in
    let* counts := set (st_order_counts s) i c in
    let* cost := estimate_cost (lt_log2 t) final input_bit in
    let* bit_cost := to_fix i64 log2_d log2_q cost in
    let* byte_cost := fix_add log2_q (st_byte_cost s) bit_cost in
    let* total_cost := fix_add log2_q (st_total_cost s) bit_cost in
    let* c := get (st_order_costs s) i in
    let* c := fix_add log2_q c bit_cost in
    let* costs := set (st_order_costs s) i c in
    let* last := get contexts (n - 1) in
    let* o := get (st_order_occurrences s) i in
    let* o := add u64 o (occurrence_count last) in
    let* occurrences := set (st_order_occurrences s) i o in
    Ok (mkStats (st_total_bytes s) total_contexts counts costs (st_symbol_counts s) (st_symbol_costs s) byte_cost total_cost occurrences)
  else
    Ok (mkStats (st_total_bytes s) total_contexts (st_order_counts s) (st_order_costs s) (st_symbol_counts s) (st_symbol_costs s)
          (st_byte_cost s) (st_total_cost s) (st_order_occurrences s)).

(** ** mod.rs *)
(** mod.rs:34-42 Predictor *)
Record predictor : Type := mkPredictor {
  pr_last_bytes : lbc; pr_tree : source; pr_contexts : list context_state; pr_chain : list order_kit; pr_finalizer : finalizer;
  pr_final : option Z; pr_stats : stats }.
(** mod.rs:47-59 new, for any window and order *)
Definition predictor_make (md : mode) (t : luts) (max max_order : Z) : res predictor :=
  let* tree := tree_new max max_order 0 in
  let* chain := chain_new t max_order in
  let* f := finalizer_new md t in
  let* s := stats_new max_order in
  Ok (mkPredictor lb_new tree [] chain f None s).
(** mod.rs:45 MAX_ORDER, 51 the size of the window, post_process.rs:30 MODE *)
Definition predictor_new (t : luts) : res predictor := predictor_make ModeLight t 10000000 20.
(** mod.rs:61-66 start_new_byte *)
Definition predictor_start (p : predictor) : res predictor :=
  assert_ (is_none (pr_final p)) ;;
  let* lb := lb_start_new_byte (pr_last_bytes p) in
  let* tree := tree_start (pr_tree p) in
  let* s := stats_start (pr_stats p) lb in
  Ok (mkPredictor lb tree (pr_contexts p) (pr_chain p) (pr_finalizer p) (pr_final p) s).
(** mod.rs:68-85 predict *)
Definition predictor_predict (md : mode) (t : luts) (p : predictor) : res (predictor * Z) :=
  assert_ (is_none (pr_final p)) ;;
  let* contexts := tree_gather (pr_tree p) [] in
  let* u := lb_unfinished_byte (pr_last_bytes p) in
  let* '(chain, mixed) := chain_predict t (pr_chain p) contexts u in
  let* '(f, final) := finalizer_refine md t (pr_finalizer p) (fst mixed) (snd mixed) (zlen contexts) (pr_last_bytes p) in
  Ok (mkPredictor (pr_last_bytes p) (pr_tree p) contexts chain f (Some final) (pr_stats p), final).
(** mod.rs:87-106 update *)
Definition predictor_update (md : mode) (t : luts) (p : predictor) (input_bit : bit) : res predictor :=
  assert_ (negb (is_none (pr_final p))) ;;
  let* '(chain, trackers) := chain_update t (pr_chain p) input_bit (pr_contexts p) in
  let* tree := tree_process t (pr_tree p) input_bit trackers in
  let* f := finalizer_update md t (pr_finalizer p) input_bit (zlen (pr_contexts p)) (pr_last_bytes p) in
  let* final := of_opt (pr_final p) EUnwrap in
  let* s := stats_on_next_bit t (pr_stats p) input_bit (pr_contexts p) final in
  let* lb := lb_on_next_bit (pr_last_bytes p) input_bit in
  Ok (mkPredictor lb tree (pr_contexts p) chain f None s).
