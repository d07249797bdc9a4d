{
 "C83": {
  "note": "The other kernel theorems quantify over executions that contain terminations. C83_terminate and C83_again are about the call without interrupts, from any reachable state; a termination with pending events is refuted in C24_terminate_pending_refuted, one of a subscriber in C83_still_subscribed_refuted, a post after the termination in C83_post_after_refuted."
 },
 "C84": {
  "note": "C84_records is about the figures at the end of a critical section, which are those of the records made there (C72); the counter of gets from an empty queue (nempty) is left to C04."
 },
 "C85": {
  "note": "C85_next_life is about two runs of one machine; together with C85_restarts it applies to the machines in the application, whose guards may see the signal only. The difference to a new machine is refuted in C85_as_new_refuted."
 }
}