import sys; sys.path.insert(0,'/verif/tools')
from gen import *
I=[]; a=I.append
a(thm('C71_threads_independent','threads_independent','C71: any number of threads that use the package on shared objects, any schedule: the shared objects stay as they\n    are, a thread that has ended has the outcome and the objects of its run without interruption, and it ends if\n    it gets enough turns.'))
a(thm('C71_threads_dtw','threads_dtw','C71: a thread that calls dtw() gets what dtw() of the values of its arguments gives, whatever the other threads do\n    and however they are scheduled.'))
a(thm('C71_uninterrupted','whole_dtw','C71: the stepwise program without interruption is the call of C69 and C70.'))
a(thm('C71_runs_end','runs_end','C71: every program ends after finitely many operations.'))
a(ex('C71_case_clients','clients19')); a(ex('C71_case_interleaved','interleaved19'))
a(thm('C72_interrupted','interrupted','C72: a program that is interrupted after any number of operations has changed nothing that existed when it started.'))
a(thm('C72_call_after','call_after_interruption','C72: a later call is not affected by the interrupted one.'))
a(thm('C72_results_after','results_after_interruption','C72: earlier results are not affected either.'))
a(ex('C72_case_interrupted','interrupted19'))
write(21,'C71, C72: threads and interruptions.','CountPaths Warp Examples Examples8 Examples11 Heap HeapSpec HeapFrame HeapRefine HeapDtw HeapMain HeapThm Threads ThreadSpec ThreadProof Examples18 Examples19',I)
