-Q theories Verif
theories/ZMod.v
theories/Bytes.v
theories/Suite.v
theories/QR512.v
theories/Spec.v
theories/Fermat.v
theories/Pedersen.v
theories/Roots.v
theories/ElGamal.v
theories/FujiOkam.v
theories/ThreeSquares.v
theories/SquaresUnique.v
theories/SquaresExist.v
theories/SumSquares.v
theories/Equality.v
theories/Lrs.v
theories/Codec.v
theories/Maps.v
theories/Net.v
theories/Bridge.v
theories/Client.v
theories/Perm.v
theories/SimpleShuffle.v
theories/SimpleSound.v
theories/PairShuffle.v
theories/Biffle.v
theories/Server.v
theories/Coordinator.v
theories/History.v
theories/Prop_Pedersen.v
theories/Prop_ElGamal.v
theories/Prop_FujiOkam.v
theories/Prop_Equality.v
theories/Prop_Lrs.v
theories/Prop_Codec.v
theories/Prop_Bridge.v
theories/Prop_Shuffle.v
theories/Prop_Sound.v
theories/Prop_Assign.v
theories/Prop_Coord.v
theories/Config.v
theories/System.v
theories/Prop_Config.v
theories/Prop_Topology.v
theories/Chain.v
theories/Prop_Chain.v
theories/Round.v
theories/RoundInv.v
theories/Prop_Round.v
theories/Session.v
theories/Prop_Session.v
theories/Signing.v
theories/Prop_Signing.v
theories/Delivery.v
theories/Prop_Delivery.v
theories/Progress.v
theories/Live.v
theories/Prop_Live.v
theories/Enrol.v
theories/Conduct.v
theories/Prop_Conduct.v
theories/Tally.v
theories/Prop_Tally.v
theories/Posted.v
theories/Prop_Posted.v
theories/Console.v
theories/Prop_Console.v
theories/Threads.v
theories/Prop_Threads.v
theories/Listener.v
theories/Prop_Listener.v
theories/Prop_Client.v
theories/Prop_Anon.v
theories/Prop_Spy.v
theories/Prop_Hide.v
theories/Embed.v
theories/Prop_Embed.v
theories/Depart.v
theories/Prop_Depart.v
theories/Launcher.v
theories/Prop_Launcher.v
theories/Prop_Ration.v
theories/Prop_Gn.v
theories/Prop_Recipient.v
theories/Prop_Wire.v
theories/Prop_Tap.v
theories/Race.v
theories/Prop_Race.v
theories/Restart.v
theories/Prop_Restart.v
theories/Reboot.v
theories/Prop_Reboot.v
theories/Late.v
theories/Prop_Late.v
theories/Prop_Outsider.v
theories/Prop_Replay.v
theories/Prop_Base.v
theories/Prop_Offer.v
theories/Prop_Earn.v
theories/Prop_Orders.v
theories/Crash.v
theories/Prop_Crash.v
theories/Prop_Stale.v
theories/Prop_FoHide.v
theories/SafePrime.v
theories/Prop_SafePrime.v
theories/Prop_PostBind.v
theories/Prop_Order.v
theories/Prop_Nyms.v
theories/Prop_Replies.v
theories/Prop_Leftovers.v
theories/Prop_Concerns.v
theories/Prop_Inbox.v
theories/Prop_Queue.v
theories/Prop_Async.v
theories/RingVote.v
theories/Prop_RingVote.v
theories/Prop_RingAnon.v
theories/Prop_Fair.v
theories/Prop_Blind.v
theories/Prop_Rogue.v
