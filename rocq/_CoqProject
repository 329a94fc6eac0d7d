-Q theories Verif
theories/Acquire.v
theories/AcquireProof.v
theories/Aio.v
theories/ArgStr.v
theories/Ballot.v
theories/BallotProof.v
theories/BallotRef.v
theories/Bitmap.v
theories/Bytes.v
theories/C01.v
theories/C02.v
theories/C03.v
theories/C04.v
theories/C05.v
theories/C06.v
theories/C07.v
theories/C08.v
theories/C09.v
theories/C10.v
theories/C100.v
theories/C101.v
theories/C102.v
theories/C103.v
theories/C104.v
theories/C105.v
theories/C106.v
theories/C11.v
theories/C12.v
theories/C13.v
theories/C14.v
theories/C15.v
theories/C16.v
theories/C17.v
theories/C18.v
theories/C19.v
theories/C20.v
theories/C21.v
theories/C22.v
theories/C23.v
theories/C24.v
theories/C25.v
theories/C26.v
theories/C27.v
theories/C28.v
theories/C29.v
theories/C30.v
theories/C31.v
theories/C32.v
theories/C33.v
theories/C34.v
theories/C35.v
theories/C36.v
theories/C37.v
theories/C38.v
theories/C39.v
theories/C40.v
theories/C41.v
theories/C42.v
theories/C43.v
theories/C44.v
theories/C45.v
theories/C46.v
theories/C47.v
theories/C48.v
theories/C49.v
theories/C50.v
theories/C51.v
theories/C52.v
theories/C53.v
theories/C54.v
theories/C55.v
theories/C56.v
theories/C57.v
theories/C58.v
theories/C59.v
theories/C60.v
theories/C61.v
theories/C62.v
theories/C63.v
theories/C64.v
theories/C65.v
theories/C66.v
theories/C67.v
theories/C68.v
theories/C69.v
theories/C70.v
theories/C71.v
theories/C72.v
theories/C73.v
theories/C74.v
theories/C75.v
theories/C76.v
theories/C77.v
theories/C78.v
theories/C79.v
theories/C80.v
theories/C81.v
theories/C82.v
theories/C83.v
theories/C84.v
theories/C85.v
theories/C86.v
theories/C87.v
theories/C88.v
theories/C89.v
theories/C90.v
theories/C91.v
theories/C92.v
theories/C93.v
theories/C94.v
theories/C95.v
theories/C96.v
theories/C97.v
theories/C98.v
theories/C99.v
theories/ClientCalls.v
theories/ClientSlot.v
theories/CmdTokens.v
theories/Codec.v
theories/ConfFile.v
theories/Crc.v
theories/DaemonStart.v
theories/Delta.v
theories/DeltaProof.v
theories/DeltaRenew.v
theories/DirectDump.v
theories/DiskLoop.v
theories/Dispatch.v
theories/DispatchProof.v
theories/EventReg.v
theories/FenceAgent.v
theories/FenceD.v
theories/FenceFile.v
theories/FenceStart.v
theories/Framing.v
theories/Helper.v
theories/HostEvent.v
theories/HostLive.v
theories/HostName.v
theories/HostStatus.v
theories/Init.v
theories/KillArgs.v
theories/KillPids.v
theories/Leader.v
theories/LeaderReadNum.v
theories/LeaseCheck.v
theories/LeaseProof.v
theories/LeaseProof2.v
theories/LeaseProof3.v
theories/LeaseRuns.v
theories/LeaseSys.v
theories/ListH.v
theories/ListHLemmas.v
theories/ListUse.v
theories/ListWalk.v
theories/Lockspaces.v
theories/LogRing.v
theories/LsFds.v
theories/Lvb.v
theories/LvbMsg.v
theories/Majority.v
theories/MaxSectors.v
theories/Mbal.v
theories/MsgArgs.v
theories/OneDaemon.v
theories/OpenDisks.v
theories/Owners.v
theories/OwnersRead.v
theories/PyArgs.v
theories/PyKill.v
theories/PyOut.v
theories/RandDelay.v
theories/ReadInfo.v
theories/RegTable.v
theories/Release.v
theories/RenewHist.v
theories/Reports.v
theories/ReqTarget.v
theories/Request.v
theories/ResThread.v
theories/ResThreadProof.v
theories/ResetTool.v
theories/Resetd.v
theories/Resources.v
theories/Rindex.v
theories/RindexCrash.v
theories/RindexFlow.v
theories/RindexOps.v
theories/RindexProof.v
theories/RunBallot.v
theories/Sizes.v
theories/SpaceLife.v
theories/SpaceLifeProof.v
theories/SpaceUse.v
theories/StateStr.v
theories/StatusOut.v
theories/StatusProof.v
theories/Strings.v
theories/StringsProof.v
theories/StringsRound.v
theories/ThreadPool.v
theories/Timeouts.v
theories/WdDev.v
theories/WdHost.v
theories/WdScripts.v
theories/Wdmd.v
theories/WdmdTime.v
theories/WriteLeader.v
