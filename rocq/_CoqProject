-Q theories Verif
theories/F64.v
theories/GoBase.v
theories/L_Acc.v
theories/L_AccRes.v
theories/L_AccW.v
theories/L_Agent.v
theories/L_Agent2.v
theories/L_Atomic.v
theories/L_Bnd.v
theories/L_Circle.v
theories/L_Coherence.v
theories/L_Config.v
theories/L_Conn.v
theories/L_Display.v
theories/L_Dist.v
theories/L_F64.v
theories/L_F64x.v
theories/L_Ford.v
theories/L_Format.v
theories/L_Neighbors.v
theories/L_Pattern.v
theories/L_PhaseF.v
theories/L_Random.v
theories/L_Regress.v
theories/L_State.v
theories/L_Strategy.v
theories/L_Swarm.v
theories/L_Token.v
theories/L_TrigZero.v
theories/L_Race.v
theories/M_Agent.v
theories/M_AgentConfig.v
theories/M_Analysis.v
theories/M_App.v
theories/M_Atomic.v
theories/M_Basin.v
theories/M_Batch.v
theories/M_Client.v
theories/M_Conn.v
theories/M_Continuous.v
theories/M_Controller.v
theories/M_ConvMonitor.v
theories/M_Core.v
theories/M_Display.v
theories/M_GridText.v
theories/M_Engine.v
theories/M_Format.v
theories/M_GoalConfig.v
theories/M_Limits.v
theories/M_Menu.v
theories/M_MetricsText.v
theories/M_Monitor.v
theories/M_Neighbors.v
theories/M_Patterns.v
theories/M_Pool.v
theories/M_RWMutex.v
theories/M_Random.v
theories/M_ReqPattern.v
theories/M_Resource.v
theories/M_Scale.v
theories/M_SimControl.v
theories/M_Snapshot.v
theories/M_Strategy.v
theories/M_Swarm.v
theories/M_SwarmConfig.v
theories/M_Sync.v
theories/M_TestUtil.v
theories/M_Workers.v
theories/M_Workload.v
theories/M_Race.v
theories/Num.v
theories/P_Accuracy.v
theories/P_AccuracyBasin.v
theories/P_AccuracyCtx.v
theories/P_AccuracyMove.v
theories/P_AccuracyRate.v
theories/P_AccuracySwarm.v
theories/P_AccuracyW.v
theories/P_Agent.v
theories/P_Agent2.v
theories/P_Align.v
theories/P_Analysis.v
theories/P_App.v
theories/P_Basin.v
theories/P_Batch.v
theories/P_Client.v
theories/P_Config.v
theories/P_Conn.v
theories/P_Controller.v
theories/P_ConvMonitor.v
theories/P_Converge.v
theories/P_Core.v
theories/P_Deadlock.v
theories/P_Disrupt.v
theories/P_Engine.v
theories/P_Format.v
theories/P_Gauges.v
theories/P_GoalConfig.v
theories/P_Limits.v
theories/P_Members.v
theories/P_Loop.v
theories/P_Menu.v
theories/P_MetricsText.v
theories/P_Monitor.v
theories/P_Noise.v
theories/P_Panels.v
theories/P_Patterns.v
theories/P_Periods.v
theories/P_PeriodsAway.v
theories/P_Predict.v
theories/P_AccuracyPattern.v
theories/P_Reach.v
theories/P_Arrived.v
theories/P_Autonomy.v
theories/P_Energy.v
theories/P_ReqPattern.v
theories/P_Resync.v
theories/P_Round.v
theories/P_RoundDir.v
theories/P_RoundExact.v
theories/P_SimControl.v
theories/P_SimReset.v
theories/P_Snapshot.v
theories/P_Strategies.v
theories/P_Swarm.v
theories/P_SwarmView.v
theories/P_GridText.v
theories/P_Ladders.v
theories/P_Ladders2.v
theories/P_Defaults.v
theories/P_Sync.v
theories/P_Tables.v
theories/P_TestUtil.v
theories/P_Tighten.v
theories/P_Workers.v
theories/P_Workload.v
theories/P_Velocity.v
theories/P_Tighten2.v
theories/P_Lifetime.v
theories/P_Race.v
theories/RealNum.v
theories/S_Acc.v
theories/S_Agent.v
theories/S_Align.v
theories/S_Analysis.v
theories/S_App.v
theories/S_Circle.v
theories/S_Config.v
theories/S_Conn.v
theories/S_Display.v
theories/S_Format.v
theories/S_Gauges.v
theories/S_GoalConfig.v
theories/S_Loop.v
theories/S_Monitor.v
theories/S_Neighbors.v
theories/S_Noise.v
theories/S_Pattern.v
theories/S_Round.v
theories/S_RoundMove.v
theories/S_SimControl.v
theories/S_Swarm.v
theories/S_Sync.v
theories/S_Race.v
theories/L_RaceRank.v
theories/M_RaceSim.v
theories/P_RaceSim.v
theories/M_RaceAgent.v
theories/P_RaceAgent.v
theories/M_ValidationText.v
theories/P_ValidationText.v
