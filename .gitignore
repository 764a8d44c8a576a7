__pycache__/
.lia.cache
.nia.cache
