(** Model of a workload of the simulation (simulations/emerge/simulation/agent.go).  A workload's two goroutines
    (task generation, batch monitoring) and the resets of the simulation are a transition system; random draws and
    phases are part of the events.  Icons, colours and payload texts are left out; float comparisons against a
    random float32 are boolean draws. *)
From Coq Require Import ZArith List Bool String DecimalString.
From Verif Require Import Num M_GoalConfig M_ReqPattern.
Import ListNotations.
Open Scope string_scope.
Open Scope Z_scope.

(** simulations/emerge/simulation/agent.go:113-202 goalWorkloads, 205-211 getWorkloadsForGoal: the names. *)
Definition getWorkloadsForGoal (g : Goal) : list string :=
  match g with
  | MinimizeAPICalls | OtherGoal => ["DataETL"; "LogProcessor"; "MLTraining"; "ReportGen"; "ImageProc"; "VideoTrans"; "DataValidator"; "FileConverter"]
  | DistributeLoad => ["WebServer1"; "WebServer2"; "APIGateway1"; "APIGateway2"; "LoadBalancer1"; "LoadBalancer2"; "CacheServer1"; "CacheServer2"]
  | ReachConsensus => ["Leader"; "Candidate1"; "Candidate2"; "Follower1"; "Follower2"; "Follower3"; "DataNode1"; "DataNode2"]
  | MinimizeLatency => ["GameServer"; "StreamProc"; "RTAnalytics"; "LiveChat"; "Ticker"; "Monitor"; "Alerter"; "Tracker"]
  | SaveEnergy => ["TempSensor"; "HumiditySensor"; "LightSensor"; "MotionSensor"; "SmokeSensor"; "DoorSensor"; "PowerMeter"; "WaterMeter"]
  | MaintainRhythm => ["CronJob1"; "CronJob2"; "Backup1"; "Backup2"; "Cleanup1"; "Cleanup2"; "Reporter1"; "Reporter2"]
  | RecoverFromFailure => ["Primary1"; "Primary2"; "Replica1"; "Replica2"; "Standby1"; "Standby2"; "Monitor1"; "Monitor2"]
  | AdaptToTraffic => ["AutoScaler1"; "AutoScaler2"; "CDN1"; "CDN2"; "Queue1"; "Queue2"; "Worker1"; "Worker2"]
  end.
(** simulations/emerge/simulation/agent.go:421-501 createTask: taskTypes. *)
Definition taskTypes : list (string * list string) :=
  [("DataETL", ["extract_records"; "transform_dataset"; "load_warehouse"]);
   ("LogProcessor", ["parse_logs"; "aggregate_metrics"; "detect_anomalies"]);
   ("MLTraining", ["train_model"; "evaluate_model"; "tune_hyperparams"]);
   ("ReportGen", ["generate_daily"; "generate_weekly"; "generate_monthly"]);
   ("ImageProc", ["resize_batch"; "optimize_batch"; "convert_format"]);
   ("VideoTrans", ["transcode_1080p"; "transcode_720p"; "extract_audio"]);
   ("DataValidator", ["validate_schema"; "check_integrity"; "verify_rules"]);
   ("FileConverter", ["convert_pdf"; "convert_csv"; "convert_json"]);
   ("WebServer1", ["handle_request"; "serve_static"; "process_api"]);
   ("WebServer2", ["handle_request"; "serve_static"; "process_api"]);
   ("APIGateway1", ["route_request"; "validate_auth"; "rate_limit"]);
   ("APIGateway2", ["route_request"; "validate_auth"; "rate_limit"]);
   ("LoadBalancer1", ["distribute_load"; "health_check"; "route_traffic"]);
   ("LoadBalancer2", ["distribute_load"; "health_check"; "route_traffic"]);
   ("CacheServer1", ["get_cache"; "set_cache"; "invalidate_cache"]);
   ("CacheServer2", ["get_cache"; "set_cache"; "invalidate_cache"]);
   ("Leader", ["send_heartbeat"; "replicate_log"; "commit_entries"]);
   ("Candidate1", ["request_votes"; "increment_term"; "check_majority"]);
   ("Candidate2", ["request_votes"; "increment_term"; "check_majority"]);
   ("Follower1", ["append_entries"; "vote_response"; "apply_commits"]);
   ("Follower2", ["append_entries"; "vote_response"; "apply_commits"]);
   ("Follower3", ["append_entries"; "vote_response"; "apply_commits"]);
   ("DataNode1", ["sync_data"; "verify_checksum"; "acknowledge_write"]);
   ("DataNode2", ["sync_data"; "verify_checksum"; "acknowledge_write"]);
   ("GameServer", ["update_state"; "process_input"; "send_update"]);
   ("StreamProc", ["process_stream"; "buffer_data"; "emit_event"]);
   ("RTAnalytics", ["analyze_realtime"; "compute_metric"; "alert_threshold"]);
   ("LiveChat", ["send_message"; "receive_message"; "update_presence"]);
   ("Ticker", ["update_price"; "broadcast_tick"; "calculate_delta"]);
   ("Monitor", ["check_status"; "log_metric"; "raise_alert"]);
   ("Alerter", ["check_condition"; "send_alert"; "escalate_issue"]);
   ("Tracker", ["track_event"; "update_counter"; "emit_metric"]);
   ("TempSensor", ["read_temperature"; "calibrate"; "send_reading"]);
   ("HumiditySensor", ["read_humidity"; "calibrate"; "send_reading"]);
   ("LightSensor", ["read_luminance"; "calibrate"; "send_reading"]);
   ("MotionSensor", ["detect_motion"; "calibrate"; "send_alert"]);
   ("SmokeSensor", ["detect_smoke"; "test_alarm"; "send_alert"]);
   ("DoorSensor", ["check_status"; "log_event"; "send_notification"]);
   ("PowerMeter", ["read_consumption"; "calculate_cost"; "send_report"]);
   ("WaterMeter", ["read_flow"; "detect_leak"; "send_report"]);
   ("CronJob1", ["execute_task"; "check_schedule"; "log_completion"]);
   ("CronJob2", ["execute_task"; "check_schedule"; "log_completion"]);
   ("Backup1", ["backup_data"; "verify_backup"; "rotate_old"]);
   ("Backup2", ["backup_data"; "verify_backup"; "rotate_old"]);
   ("Cleanup1", ["clean_temp"; "remove_logs"; "free_space"]);
   ("Cleanup2", ["clean_temp"; "remove_logs"; "free_space"]);
   ("Reporter1", ["generate_report"; "email_report"; "archive_report"]);
   ("Reporter2", ["generate_report"; "email_report"; "archive_report"]);
   ("Primary1", ["process_request"; "replicate_state"; "heartbeat"]);
   ("Primary2", ["process_request"; "replicate_state"; "heartbeat"]);
   ("Replica1", ["sync_state"; "standby_ready"; "promote_primary"]);
   ("Replica2", ["sync_state"; "standby_ready"; "promote_primary"]);
   ("Standby1", ["monitor_health"; "backup_state"; "failover_ready"]);
   ("Standby2", ["monitor_health"; "backup_state"; "failover_ready"]);
   ("Monitor1", ["check_health"; "detect_failure"; "initiate_recovery"]);
   ("Monitor2", ["check_health"; "detect_failure"; "initiate_recovery"]);
   ("AutoScaler1", ["monitor_load"; "scale_up"; "scale_down"]);
   ("AutoScaler2", ["monitor_load"; "scale_up"; "scale_down"]);
   ("CDN1", ["cache_content"; "serve_cached"; "invalidate_stale"]);
   ("CDN2", ["cache_content"; "serve_cached"; "invalidate_stale"]);
   ("Queue1", ["enqueue_message"; "dequeue_message"; "check_depth"]);
   ("Queue2", ["enqueue_message"; "dequeue_message"; "check_depth"]);
   ("Worker1", ["process_job"; "report_progress"; "complete_task"]);
   ("Worker2", ["process_job"; "report_progress"; "complete_task"])].
(** simulations/emerge/simulation/agent.go:503-506 createTask: the task types of a workload name. *)
Fixpoint lookupTypes (m : list (string * list string)) (name : string) : list string :=
  match m with [] => ["process_request"] | (k, v) :: r => if String.eqb k name then v else lookupTypes r name end.
Definition typesOf (name : string) : list string := lookupTypes taskTypes name.

(** simulations/emerge/simulation/types.go:63-68 Task (without payload). *)
Record Task := mkTask { t_id : string; t_agent : string; t_type : string }.
(** fmt.Sprintf("%d", n). *)
Definition dec (n : Z) : string := NilZero.string_of_int (Z.to_int n).
(** simulations/emerge/simulation/agent.go:511 createTask: the ID. *)
Definition taskID (id : string) (n : Z) : string := id ++ "-task-" ++ dec n.

(** simulations/emerge/simulation/agent.go:49-71 secureRandIntn; the argument is the random 64-bit word, None when
    reading randomness failed. *)
Definition secureRandIntn (n : Z) (word : option Z) : Z :=
  if n <=? 0 then 0
  else match word with
       | None => Z.quot n 2
       | Some w => let nU := if 2147483647 <? n then 2147483647 else n in
                   let result := w mod nU in
                   if 2147483647 <? result then 2147483647 else result
       end.

(** simulations/emerge/simulation/agent.go:78-103 Workload; [pending], the counters and the burst state; [w_hand]
    is the task created and not yet appended by the generator goroutine.  Ghost fields: the tasks ever created, the
    batches handed to the batch manager, the tasks cleared by a reset. *)
Record Workload := mkWL {
  w_id : string; w_name : string; w_pattern : Z; w_pending : list Task; w_counter : Z; w_generated : Z; w_sent : Z;
  w_burst : bool; w_burstEnd : Z; w_hand : option Task;
  w_created : list Task; w_handed : list (list Task); w_lost : list Task }.
(** simulations/emerge/simulation/agent.go:231-250 NewWorkloadWithEmerge (None: index panic). *)
Definition NewWorkloadWithEmerge (id : string) (typeIndex : Z) (p : Z) (g : Goal) : option Workload :=
  let types := getWorkloadsForGoal g in
  let i := Z.rem typeIndex (Z.of_nat (List.length types)) in
  if i <? 0 then None
  else match nth_error types (Z.to_nat i) with
       | None => None
       | Some name => Some (mkWL id name p [] 0 0 0 false 0 None [] [] [])
       end.

(** simulations/emerge/simulation/agent.go:417-516 createTask: the new counter and the task (None: index panic). *)
Definition createTask (w : Workload) : option Task :=
  let c := w_counter w + 1 in
  let ts := typesOf (w_name w) in
  let i := Z.rem c (Z.of_nat (List.length ts)) in
  if i <? 0 then None
  else match nth_error ts (Z.to_nat i) with None => None | Some ty => Some (mkTask (taskID (w_id w) c) (w_id w) ty) end.

(** simulations/emerge/simulation/agent.go:337-383 shouldGenerateTask at time [now]; [lucky] is the outcome of the
    comparison with the random float, [word] the random word of the burst length. *)
Definition shouldGenerateTask (w : Workload) (now : Z) (lucky : bool) (word : option Z) : bool * bool * Z :=
  if w_pattern w =? Burst then
    if negb (w_burst w) then
      if lucky then (true, true, now + (500 + secureRandIntn 1500 word) * 1000000) else (false, w_burst w, w_burstEnd w)
    else if w_burstEnd w <? now then (false, false, w_burstEnd w)
    else (true, true, w_burstEnd w)
  else if w_pattern w =? Sparse then (lucky, w_burst w, w_burstEnd w)
  else if w_pattern w =? Mixed then (lucky, w_burst w, w_burstEnd w)
  else (true, w_burst w, w_burstEnd w).
(** simulations/emerge/simulation/agent.go:386-414 getTaskBatchSize. *)
Definition getTaskBatchSize (w : Workload) (lucky : bool) (word : option Z) : Z :=
  if w_pattern w =? HighFrequency then 2 + secureRandIntn 3 word
  else if w_pattern w =? Burst then (if w_burst w then 3 + secureRandIntn 5 word else 1)
  else if w_pattern w =? Mixed then (if lucky then 2 + secureRandIntn 2 word else 1)
  else 1.
(** simulations/emerge/simulation/agent.go:266-291 generateTasks: the first interval in ns. *)
Definition firstInterval (p : Z) (word : option Z) : Z :=
  if p =? HighFrequency then (50 + secureRandIntn 50 word) * 1000000
  else if p =? Burst then 100 * 1000000
  else if p =? Mixed then 300 * 1000000
  else if p =? Sparse then 2000 * 1000000 + secureRandIntn 2000 word * 1000000
  else 500 * 1000000.
(** simulations/emerge/simulation/agent.go:330 generateTasks: the next interval of the mixed pattern in ns. *)
Definition mixedInterval (word : option Z) : Z := (200 + secureRandIntn 800 word) * 1000000.

Section Batching.
Context {T : Type} {N : Num T}.
Open Scope num_scope.
(** simulations/emerge/simulation/agent.go:546-558 shouldBatch with the agent's phase. *)
Definition shouldBatch (w : Workload) (phase : T) : bool :=
  match w_pending w with
  | [] => false
  | _ => nlt phase (nlit 1 10) || nlt (nsub n2pi (nlit 1 10)) phase
  end.

(** The atomic steps of a workload's goroutines. *)
Inductive WEv :=
| Create                    (* createTask, by the generator *)
| Append                    (* agent.go:321-324 *)
| Poll (phase : T)          (* agent.go:538-539: shouldBatch, then (if it said so) sendBatch, with nothing in between *)
| Send                      (* sendBatch after an earlier shouldBatch *)
| ResetW.                   (* agent.go:586-600 *)
(** simulations/emerge/simulation/agent.go:561-583 sendBatch. *)
Definition sendBatch (w : Workload) : Workload :=
  match w_pending w with
  | [] => w
  | _ => mkWL (w_id w) (w_name w) (w_pattern w) [] (w_counter w) (w_generated w) (w_sent w + 1)%Z (w_burst w) (w_burstEnd w)
           (w_hand w) (w_created w) (w_handed w ++ [w_pending w])%list (w_lost w)
  end.
(** simulations/emerge/simulation/agent.go:586-600 Reset. *)
Definition ResetWorkload (w : Workload) : Workload :=
  mkWL (w_id w) (w_name w) (w_pattern w) [] 0 0 0 false 0 (w_hand w) (w_created w) (w_handed w) (w_lost w ++ w_pending w)%list.
(** simulations/emerge/simulation/agent.go:319-325 generateTasks (None: panic). *)
Definition wStep (w : Workload) (e : WEv) : option Workload :=
  match e with
  | Create =>
    match w_hand w, createTask w with
    | None, None => None
    | None, Some t => Some (mkWL (w_id w) (w_name w) (w_pattern w) (w_pending w) (w_counter w + 1)%Z (w_generated w) (w_sent w)
                        (w_burst w) (w_burstEnd w) (Some t) (w_created w ++ [t])%list (w_handed w) (w_lost w))
    | Some _, _ => Some w
    end
  | Append =>
    match w_hand w with
    | None => Some w
    | Some t => Some (mkWL (w_id w) (w_name w) (w_pattern w) (w_pending w ++ [t])%list (w_counter w) (w_generated w + 1)%Z (w_sent w)
                        (w_burst w) (w_burstEnd w) None (w_created w) (w_handed w) (w_lost w))
    end
  | Poll phase => Some (if shouldBatch w phase then sendBatch w else w)
  | Send => Some (sendBatch w)
  | ResetW => Some (ResetWorkload w)
  end.
Fixpoint wRun (w : Workload) (es : list WEv) : option Workload :=
  match es with [] => Some w | e :: r => match wStep w e with None => None | Some w' => wRun w' r end end.
End Batching.
Arguments WEv : clear implicits.

(** simulations/emerge/simulation/agent.go:607-642 Snapshot: activity level and burst mode; [since] is
    time.Since(lastRequestTime). *)
Definition activity (w : Workload) (since : Z) : string * bool :=
  if w_pattern w =? Burst then (if w_burst w then ("burst", true) else ("quiet", false))
  else if w_pattern w =? HighFrequency then ("active", false)
  else if w_pattern w =? Sparse then (match w_pending w with [] => ("quiet", false) | _ => ("active", false) end)
  else if w_pattern w =? Mixed then
    (if since <? 200000000 then ("active", false) else if 1000000000 <? since then ("quiet", false) else ("steady", false))
  else ("steady", false).
(** simulations/emerge/simulation/agent.go:90, 597: lastRequestTime is never assigned a time other than the zero
    time, and time.Since of that saturates. *)
Definition sinceZeroTime : Z := 2 ^ 63 - 1.
